(** Model of diffpy::eventticker::EventTicker.  Source: src/diffpy/EventTicker.cpp and .hpp *)
From Verif Require Import Base.
Open Scope Z_scope.

(** EventTicker.hpp:40  typedef std::pair<long, long> value_type. *)
Definition tick := (Z * Z)%type.

(** std::pair<long,long> comparison used by EventTicker.cpp:64-97 (lexicographic). *)
Definition tick_ltb (a b : tick) : bool :=
  (fst a <? fst b) || (negb (fst b <? fst a) && (snd a <? snd b)).
Definition tick_gtb (a b : tick) : bool := tick_ltb b a.
Definition tick_leb (a b : tick) : bool := negb (tick_ltb b a).
Definition tick_geb (a b : tick) : bool := negb (tick_ltb a b).
Definition tick_eqb (a b : tick) : bool := (fst a =? fst b) && (snd a =? snd b).
Definition tick_neb (a b : tick) : bool := negb (tick_eqb a b).

(** LP64 [long]. *)
Definition LONG_MAX : Z := 2 ^ 63 - 1.
Definition LONG_MIN : Z := - 2 ^ 63.
Definition in_long (z : Z) : bool := (LONG_MIN <=? z) && (z <=? LONG_MAX).

(** Two readings of signed overflow: the standard says it is undefined ([Strict]);
    [Wrap] is two's complement (-fwrapv), which EventTicker.cpp:43 evidently expects. *)
Inductive arith := Strict | Wrap.
Definition wrap64 (z : Z) : Z := (z + 2 ^ 63) mod 2 ^ 64 - 2 ^ 63.
Definition long_of (ar : arith) (z : Z) : option Z :=
  if in_long z then Some z
  else match ar with Strict => None | Wrap => Some (wrap64 z) end.

(** EventTicker.cpp:40-49 the update of the global counter in click(). *)
Definition click_global (ar : arith) (g : tick) : option tick :=
  match long_of ar (snd g + 1) with
  | None => None
  | Some s =>
      if 0 >=? s then
        match long_of ar (fst g + 1) with
        | None => None
        | Some f => Some (f, 0)
        end
      else Some (fst g, s)
  end.

(** EventTicker.cpp:52-55 updateFrom. *)
Definition update_from (this other : tick) : tick :=
  if tick_gtb other this then other else this.

(** EventTicker.hpp:74-84 load: [saved] is mtick read from the archive, [ga] the global
    counter saved with it (EventTicker.hpp:68-72), [g] the global counter of this process. *)
Definition load_tick (ar : arith) (g saved ga : tick) : option tick :=
  if tick_gtb ga g then
    if negb (fst ga =? fst g) then Some (0, 0)
    else match long_of ar (snd g - snd ga) with
         | None => None
         | Some d => match long_of ar (snd saved + d) with
                     | None => None
                     | Some s => Some (fst saved, s)
                     end
         end
  else Some saved.

(** The process: static gtick (EventTicker.cpp:102, EventTicker.hpp:61) and all live tickers. *)
Record world := { gtick : tick; tickers : list tick }.
Definition world0 : world := {| gtick := (0, 0); tickers := [] |}.

Inductive op :=
| New                                 (* EventTicker.cpp:35 default construction *)
| Copy (i : nat)                      (* implicit copy constructor *)
| Click (i : nat)
| UpdateFrom (i j : nat)
| Load (i : nat) (saved ga : tick).

(** One public call.  [None] is undefined behaviour (signed overflow) or an index that names no
    live ticker. *)
Definition step (ar : arith) (w : world) (o : op) : option world :=
  match o with
  | New => Some {| gtick := gtick w; tickers := tickers w ++ [(0, 0)] |}
  | Copy i =>
      match nth_error (tickers w) i with
      | Some t => Some {| gtick := gtick w; tickers := tickers w ++ [t] |}
      | None => None
      end
  | Click i =>
      match nth_error (tickers w) i, click_global ar (gtick w) with
      | Some _, Some g => Some {| gtick := g; tickers := upd i g (tickers w) |}
      | _, _ => None
      end
  | UpdateFrom i j =>
      match nth_error (tickers w) i, nth_error (tickers w) j with
      | Some a, Some b => Some {| gtick := gtick w; tickers := upd i (update_from a b) (tickers w) |}
      | _, _ => None
      end
  | Load i saved ga =>
      match nth_error (tickers w) i, load_tick ar (gtick w) saved ga with
      | Some _, Some t => Some {| gtick := gtick w; tickers := upd i t (tickers w) |}
      | _, _ => None
      end
  end.

Fixpoint run (ar : arith) (w : world) (h : list op) : option world :=
  match h with
  | [] => Some w
  | o :: r => match step ar w o with Some w' => run ar w' r | None => None end
  end.

(** Composite ticker, e.g. PDFCalculator.cpp ticker(): updateFrom each dependency in turn. *)
Definition update_all (t : tick) (deps : list tick) : tick := fold_left update_from deps t.
