(** Saving a calculator in an archive and loading it, in the same or in another process.
    Source: src/diffpy/srreal/PairQuantity.hpp, PQEvaluator.hpp, PQEvaluator.cpp, src/diffpy/EventTicker.hpp. *)
From Verif Require Import Base Ticker StructDiff Evaluator.
Open Scope Z_scope.

(** EventTicker.hpp:40 value_type, a pair (epoch, count), as one integer: the time used in Evaluator.v. *)
Definition code (t : tick) : Z := fst t * 2 ^ 64 + snd t.
Definition epoch (t : Z) : Z := t / 2 ^ 64.
(** EventTicker.hpp:74-84 load in terms of these times: [t] and [ga] are the ticker and the global counter in the
    archive, [g] is the global counter of the process that loads. *)
Definition load_time (g t ga : Z) : Z :=
  if g <? ga then (if epoch ga =? epoch g then t + (g - ga) else 0) else t.

Section Persist.
  Context {stru cfg bond V : Type} (K : calc stru cfg bond V) (close : V -> V -> bool).
  (** What the archive keeps of the value: all of it in the calculators that only have mvalue (PairQuantity.hpp:137),
      without mpopbonds and maddbonds in BondCalculator (BondCalculator.hpp:88-98). *)
  Context (keep : V -> V).

  (** PairQuantity.hpp:132-148 (mvalue, mstructure, mrmin, mrmax, masks, mticker), PQEvaluator.hpp:89-98 (mconfigflags,
      mcpuindex, mncpu, mvalue_ticker), PQEvaluator.hpp:116-126 (mlast_structure), the class of the evaluator behind the pointer,
      and the configuration saved by the calculators (PDFCalculator.hpp:180-204, BaseDebyeSum.hpp:96-112, BVSCalculator.hpp:84-94 ...).
      mtypeused is not saved. *)
  Record archive := {
    a_cf : cfg; a_tick : Z; a_ms : stru; a_val : V; a_kind : evtype; a_full : bool; a_fixed : bool;
    a_cpu : nat; a_ncpu : nat; a_vtick : Z; a_last : option stru; a_clock : Z
  }.

  (** serialization_tostring (src/diffpy/serialization.ipp:39-46). PQEvaluatorCheck is not registered with the archives
      (PQEvaluator.hpp:159-162, PQEvaluator.cpp:471-474): Boost throws an exception when a calculator has it. *)
  Definition save (x : st stru cfg V) : option archive :=
    match kind x with
    | EvCheck => None
    | _ => Some {| a_cf := cf x; a_tick := ptick x; a_ms := ms x; a_val := keep (val x); a_kind := kind x; a_full := fullsum x;
                   a_fixed := fixedidx x; a_cpu := cpu x; a_ncpu := ncpu x; a_vtick := vtick x; a_last := last x; a_clock := clock x |}
    end.

  (** serialization_fromstring (src/diffpy/serialization.ipp:49-55) in a process whose global counter is [g]. The evaluator is a new
      object, PQEvaluator.cpp:72-75: mtypeused is NONE. *)
  Definition restore (g : Z) (a : archive) : st stru cfg V :=
    {| cf := a_cf a; ptick := load_time g (a_tick a) (a_clock a); ms := a_ms a; val := a_val a; clock := g;
       kind := a_kind a; fullsum := a_full a; fixedidx := a_fixed a; cpu := a_cpu a; ncpu := a_ncpu a;
       vtick := load_time g (a_vtick a) (a_clock a); last := a_last a; used := EvNone |}.

  (** The life of a calculator: [Do o] is a call, [Move g] saves it and loads it in a process whose counter is [g]; when the
      calculator cannot be saved it stays where it is. *)
  Inductive act := Do (o : op stru cfg) | Move (g : Z).
  Definition act_step (x : st stru cfg V) (a : act) : st stru cfg V :=
    match a with
    | Do o => step K close o x
    | Move g => match save x with Some a => restore g a | None => x end
    end.
  Definition live (l : list act) (x : st stru cfg V) : st stru cfg V := fold_left act_step l x.
End Persist.
Arguments archive : clear implicits.
Arguments act : clear implicits.
