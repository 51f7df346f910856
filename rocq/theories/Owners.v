(** Model of the composite tickers: calculators that own pointers to a peak width model, a scattering factor table and a
    peak profile, and of what the evaluator does with them. Source: src/diffpy/srreal/PeakWidthModel.cpp,
    ScatteringFactorTable.cpp, PDFCalculator.cpp, BaseDebyeSum.cpp, DebyePDFCalculator.cpp, PQEvaluator.cpp.
    Times are natural numbers, EventTicker::click takes the next one and updateFrom is the maximum: this is C01 and C02. *)
From Verif Require Import Base.
Open Scope nat_scope.

Section Owners.
  (** [P]: the class and settings of a component (width, delta1, precision, custom table, ...), [Q]: the settings
      of the calculator itself that its value depends on (rmin, rmax, rstep, qmin of a Debye sum, masks, ...). *)
  Context {P Q : Type} (Peqb : P -> P -> bool) (Qeqb : Q -> Q -> bool).

  (** a component object, with mticker: PeakWidthModel.hpp:56, ScatteringFactorTable.hpp:66, PeakProfile.hpp:58 *)
  Record obj := { o_val : P; o_tick : nat }.
  (** PeakWidthModel.hpp:88-89, ScatteringFactorTable.hpp:97-98: the pointer and mprivateticker *)
  Record owner := { w_ptr : option nat; w_tick : nat }.
  (** what a value was computed with: settings of the calculator and of the three components *)
  Definition view := (Q * option P * option P * option P)%type.
  (** A calculator with its evaluator. [k_tick]: PairQuantity.hpp:124 mticker. [k_vtick]: PQEvaluator.hpp:85
      mvalue_ticker. [k_last]: mlast_structure is set. [k_value]: the settings in force when mvalue was computed,
      [None] for an array of zeros. The dependence on structures is Evaluator.v. *)
  Record calcu := { k_pdf : bool; k_pw : owner; k_sf : owner; k_prof : option nat; k_own : Q; k_tick : nat;
                    k_opt : bool; k_vtick : nat; k_last : bool; k_value : option view }.
  Record world := { clock : nat; objs : list obj; calcs : list calcu }.

  (** record updates *)
  Definition set_pw k x := {| k_pdf := k_pdf k; k_pw := x; k_sf := k_sf k; k_prof := k_prof k; k_own := k_own k; k_tick := k_tick k;
    k_opt := k_opt k; k_vtick := k_vtick k; k_last := k_last k; k_value := k_value k |}.
  Definition set_sf k x := {| k_pdf := k_pdf k; k_pw := k_pw k; k_sf := x; k_prof := k_prof k; k_own := k_own k; k_tick := k_tick k;
    k_opt := k_opt k; k_vtick := k_vtick k; k_last := k_last k; k_value := k_value k |}.
  Definition set_prof k p t := {| k_pdf := k_pdf k; k_pw := k_pw k; k_sf := k_sf k; k_prof := p; k_own := k_own k; k_tick := t;
    k_opt := k_opt k; k_vtick := k_vtick k; k_last := k_last k; k_value := k_value k |}.
  Definition set_own k q t := {| k_pdf := k_pdf k; k_pw := k_pw k; k_sf := k_sf k; k_prof := k_prof k; k_own := q; k_tick := t;
    k_opt := k_opt k; k_vtick := k_vtick k; k_last := k_last k; k_value := k_value k |}.
  Definition set_ev k b v l x := {| k_pdf := k_pdf k; k_pw := k_pw k; k_sf := k_sf k; k_prof := k_prof k; k_own := k_own k; k_tick := k_tick k;
    k_opt := b; k_vtick := v; k_last := l; k_value := x |}.
  Definition put (w : world) (i : nat) (k : calcu) : world := {| clock := clock w; objs := objs w; calcs := upd i k (calcs w) |}.
  Definition tock (w : world) : world := {| clock := S (clock w); objs := objs w; calcs := calcs w |}.

  (** the ticker of an object; a null pointer contributes nothing *)
  Definition tick_at (w : world) (p : option nat) : nat :=
    match p with Some j => match nth_error (objs w) j with Some o => o_tick o | None => 0 end | None => 0 end.
  Definition val_at (w : world) (p : option nat) : option P :=
    match p with Some j => option_map o_val (nth_error (objs w) j) | None => None end.
  Definition view_of (w : world) (k : calcu) : view := (k_own k, val_at w (w_ptr (k_pw k)), val_at w (w_ptr (k_sf k)), val_at w (k_prof k)).

  (** PeakWidthModel.cpp:63-67, ScatteringFactorTable.cpp:155-159 ticker(): the owner afterwards *)
  Definition owner_ticker (w : world) (x : owner) : owner := {| w_ptr := w_ptr x; w_tick := Nat.max (w_tick x) (tick_at w (w_ptr x)) |}.
  (** PDFCalculator.cpp:105-114; BaseDebyeSum.cpp:69-73 with DebyePDFCalculator.cpp:87-94, which has no peak profile
      (k_prof is null) *)
  Definition ticker (w : world) (k : calcu) : calcu :=
    let p := owner_ticker w (k_pw k) in
    let s := owner_ticker w (k_sf k) in
    let t := Nat.max (Nat.max (k_tick k) (w_tick p)) (w_tick s) in
    let t := Nat.max t (tick_at w (k_prof k)) in
    set_prof (set_sf (set_pw k p) s) (k_prof k) t.

  (** PeakWidthModel.cpp:36-41, ScatteringFactorTable.cpp:116-122 for a pointer that is not null *)
  Definition owner_set (w : world) (x : owner) (p : nat) : world * owner :=
    if match w_ptr x with Some q => q =? p | None => false end then (w, {| w_ptr := Some p; w_tick := w_tick x |})
    else (tock w, {| w_ptr := Some p; w_tick := S (clock w) |}).
  (** PeakWidthModel.cpp:44-48, ScatteringFactorTable.cpp:125-130: createByType makes a new object, whose ticker is zero *)
  Definition add_obj (w : world) (v : P) (t : nat) : world := {| clock := clock w; objs := objs w ++ [{| o_val := v; o_tick := t |}]; calcs := calcs w |}.
  Definition owner_by_type (w : world) (v : P) : world * owner :=
    let w := add_obj w v 0 in (tock w, {| w_ptr := Some (pred (length (objs w))); w_tick := S (clock w) |}).
  (** PDFCalculator.cpp:371-376 setPeakProfile *)
  Definition profile_set (w : world) (k : calcu) (p : nat) : world * calcu :=
    if match k_prof k with Some q => q =? p | None => false end then (w, set_prof k (Some p) (k_tick k))
    else (tock w, set_prof k (Some p) (S (clock w))).

  (** The setters of a component: ConstantPeakWidth.cpp:118-122, JeongPeakWidth.cpp:98-102, 111-115, 130-141,
      PeakProfile.cpp:44-48, ScatteringFactorTable.cpp:65-100 click the ticker when something changes. *)
  Definition change (w : world) (j : nat) (v : P) : world :=
    match nth_error (objs w) j with
    | None => w
    | Some o => if Peqb (o_val o) v then w
                else {| clock := S (clock w); objs := upd j {| o_val := v; o_tick := S (clock w) |} (objs w); calcs := calcs w |}
    end.

  (** PDFCalculator.cpp:58-79 with [pdf], BaseDebyeSum.cpp:50-59 and DebyePDFCalculator.cpp:41-59 without: a
      constructor makes its components by type and clicks its own ticker or not; the evaluator has no structure yet. *)
  Definition construct (w : world) (pdf : bool) (a b c : P) (q : Q) : world :=
    let '(w, pw) := owner_by_type w a in
    let '(w, sf) := owner_by_type w b in
    let w := if pdf then tock (add_obj w c (S (clock w))) else w in
    {| clock := S (clock w); objs := objs w;
       calcs := calcs w ++ [{| k_pdf := pdf; k_pw := pw; k_sf := sf; k_prof := if pdf then Some (pred (length (objs w))) else None; k_own := q;
                               k_tick := S (clock w); k_opt := true; k_vtick := 0; k_last := false; k_value := None |}] |}.

  (** PQEvaluator.cpp:180-187, 297, 301-306 and PQEvaluator.cpp:96-128 for BASIC: which update is made, and the
      value afterwards. A fast update keeps the contributions computed before. *)
  Definition is_fast (w : world) (k : calcu) : bool := k_opt k && k_last k && (k_tick (ticker w k) <? k_vtick k).
  Definition evaluate (w : world) (i : nat) (k : calcu) : world :=
    let k1 := ticker w k in
    put (tock w) i (set_ev k1 (k_opt k) (S (clock w)) (k_opt k) (if is_fast w k then k_value k else Some (view_of w k))).

  (** Calls of a user. Pointers are taken from objects that exist; other calls do nothing. [SetNull]: the
      setters throw for a null pointer before any change. [AssignPw], [AssignSf], [AssignProf]: assignment through the
      reference returned by getPeakWidthModel(), getScatteringFactorTable(), getPeakProfile() (PeakWidthModel.hpp:81,
      ScatteringFactorTable.hpp:89, PDFCalculator.hpp:93). [SetOwn]: PairQuantity.cpp:118-136 and similar.
      [SetType]: PairQuantity.cpp:144-162 with PQEvaluator.cpp:432-463, true for OPTIMIZED and false for BASIC. *)
  Inductive call :=
  | New (v : P) | Clone (j : nat) | Change (j : nat) (v : P)
  | Construct (pdf : bool) (a b c : P) (q : Q)
  | SetPw (i j : nat) | SetSf (i j : nat) | SetProf (i j : nat)
  | PwByType (i : nat) (v : P) | SfByType (i : nat) (v : P) | ProfByType (i : nat) (v : P) | SetNull (i : nat)
  | SetOwn (i : nat) (q : Q) | SetType (i : nat) (opt : bool) | Ticker (i : nat) | Eval (i : nat)
  | AssignPw (i j : nat) | AssignSf (i j : nat) | AssignProf (i j : nat).

  Definition on (w : world) (i : nat) (f : calcu -> world) : world := match nth_error (calcs w) i with Some k => f k | None => w end.
  Definition exists_obj (w : world) (j : nat) (x : world) : world := if j <? length (objs w) then x else w.
  Definition step (w : world) (c : call) : world :=
    match c with
    | New v => add_obj w v 0
    | Clone j => match nth_error (objs w) j with Some o => add_obj w (o_val o) (o_tick o) | None => w end
    | Change j v => change w j v
    | Construct pdf a b c q => construct w pdf a b c q
    | SetPw i j => on w i (fun k => exists_obj w j (let (w', x) := owner_set w (k_pw k) j in put w' i (set_pw k x)))
    | SetSf i j => on w i (fun k => exists_obj w j (let (w', x) := owner_set w (k_sf k) j in put w' i (set_sf k x)))
    | SetProf i j => on w i (fun k => exists_obj w j (if k_pdf k then let (w', k') := profile_set w k j in put w' i k' else w))
    | PwByType i v => on w i (fun k => let (w', x) := owner_by_type w v in put w' i (set_pw k x))
    | SfByType i v => on w i (fun k => let (w', x) := owner_by_type w v in put w' i (set_sf k x))
    (* PDFCalculator.cpp:379-387: the new profile gets the old precision, which may click its ticker; [v] has it *)
    | ProfByType i v => on w i (fun k => if k_pdf k then
        let w1 := tock (add_obj w v (S (clock w))) in let (w', k') := profile_set w1 k (length (objs w)) in put w' i k' else w)
    | SetNull i => w
    | SetOwn i q => on w i (fun k => if Qeqb (k_own k) q then w else put (tock w) i (set_own k q (S (clock w))))
    | SetType i b => on w i (fun k => if eqb (k_opt k) b then w else put w i (set_ev k b (k_vtick k) false None))
    | Ticker i => on w i (fun k => put w i (ticker w k))
    | Eval i => on w i (evaluate w i)
    | AssignPw i j => on w i (fun k => exists_obj w j (put w i (set_pw k {| w_ptr := Some j; w_tick := w_tick (k_pw k) |})))
    | AssignSf i j => on w i (fun k => exists_obj w j (put w i (set_sf k {| w_ptr := Some j; w_tick := w_tick (k_sf k) |})))
    | AssignProf i j => on w i (fun k => exists_obj w j (if k_pdf k then put w i (set_prof k (Some j) (k_tick k)) else w))
    end.
  Definition start : world := {| clock := 0; objs := []; calcs := [] |}.
  Definition run (l : list call) : world := fold_left step l start.
End Owners.
Arguments call : clear implicits.
Arguments world : clear implicits.
Arguments calcu : clear implicits.
Arguments view : clear implicits.
