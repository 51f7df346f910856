(** Copies of calculators. The calculators have only implicit copy constructors and assignments, and these copy the
    pointer to the evaluator: a copy uses the evaluator of the original. Source: src/diffpy/srreal/PairQuantity.hpp,
    PairQuantity.cpp, PQEvaluator.hpp. *)
From Verif Require Import Base StructDiff Evaluator.
Open Scope nat_scope.

Section Copies.
  Context {stru cfg bond V : Type} (K : calc stru cfg bond V) (close : V -> V -> bool).

  (** PairQuantity.hpp:114-124: the data of a calculator; [p_ev] is the pointer mevaluator *)
  Record pq := { p_cf : cfg; p_tick : Z; p_ms : stru; p_val : V; p_ev : nat }.
  (** PQEvaluator.hpp:77-87, 112-113: the data of an evaluator object *)
  Record ev := { e_kind : evtype; e_full : bool; e_fixed : bool; e_cpu : nat; e_ncpu : nat; e_vtick : Z;
                 e_last : option stru; e_used : evtype }.
  Record world := { w_clock : Z; w_pq : list pq; w_ev : list ev }.

  (** The state of Evaluator.v is a calculator together with the evaluator it points to. *)
  Definition join (t : Z) (p : pq) (e : ev) : st stru cfg V :=
    {| cf := p_cf p; ptick := p_tick p; ms := p_ms p; val := p_val p; clock := t; kind := e_kind e; fullsum := e_full e;
       fixedidx := e_fixed e; cpu := e_cpu e; ncpu := e_ncpu e; vtick := e_vtick e; last := e_last e; used := e_used e |}.
  Definition pq_of (x : st stru cfg V) (k : nat) : pq := {| p_cf := cf x; p_tick := ptick x; p_ms := ms x; p_val := val x; p_ev := k |}.
  Definition ev_of (x : st stru cfg V) : ev :=
    {| e_kind := kind x; e_full := fullsum x; e_fixed := fixedidx x; e_cpu := cpu x; e_ncpu := ncpu x; e_vtick := vtick x;
       e_last := last x; e_used := used x |}.
  Definition load (w : world) (i : nat) : option (st stru cfg V) :=
    match nth_error (w_pq w) i with
    | Some p => option_map (join (w_clock w) p) (nth_error (w_ev w) (p_ev p))
    | None => None
    end.

  (** [On i o]: a call of Evaluator.v on calculator [i]. [Copy i]: a new calculator made by the copy constructor.
      [Assign i j]: calculator [i] = calculator [j]. [New]: a new calculator, Evaluator.v [init]. *)
  Inductive call :=
  | New (c : cfg) (s : stru) (t : evtype) (full fixed : bool)
  | Copy (i : nat) | Assign (i j : nat) | On (i : nat) (o : op stru cfg).

  (** PairQuantity.cpp:146-160: setEvaluatorType installs a new evaluator object, all other operations work on the one
      that is there *)
  Definition replaces (o : op stru cfg) (x : st stru cfg V) : bool :=
    match o with
    | OpSetType t => if evtype_eqb (kind x) t then false else match setEvaluatorType K t x with Ok _ => true | _ => false end
    | _ => false
    end.
  Definition perform (w : world) (i : nat) (o : op stru cfg) : world :=
    match nth_error (w_pq w) i, load w i with
    | Some p, Some x =>
        let y := step K close o x in
        if replaces o x
        then {| w_clock := clock y; w_pq := upd i (pq_of y (length (w_ev w))) (w_pq w); w_ev := w_ev w ++ [ev_of y] |}
        else {| w_clock := clock y; w_pq := upd i (pq_of y (p_ev p)) (w_pq w); w_ev := upd (p_ev p) (ev_of y) (w_ev w) |}
    | _, _ => w
    end.
  Definition wstep (w : world) (c : call) : world :=
    match c with
    | New c s t full fixed =>
        let x := init K c s t full fixed 0 1 in
        {| w_clock := w_clock w; w_pq := w_pq w ++ [pq_of x (length (w_ev w))]; w_ev := w_ev w ++ [ev_of x] |}
    | Copy i => match nth_error (w_pq w) i with Some p => {| w_clock := w_clock w; w_pq := w_pq w ++ [p]; w_ev := w_ev w |} | None => w end
    | Assign i j => match nth_error (w_pq w) j with Some p => {| w_clock := w_clock w; w_pq := upd i p (w_pq w); w_ev := w_ev w |} | None => w end
    | On i o => perform w i o
    end.
  Definition wstart : world := {| w_clock := 0%Z; w_pq := []; w_ev := [] |}.
  Definition wrun (l : list call) : world := fold_left wstep l wstart.
End Copies.
Arguments call : clear implicits.
Arguments world : clear implicits.
