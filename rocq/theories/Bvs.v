(** Model of atom symbol parsing, bond valence parameters, their table and BVSCalculator.
    Source: src/diffpy/srreal/AtomUtils.cpp, BVParam.cpp, BVParametersTable.cpp, BVSCalculator.cpp.
    std::string is a list of characters, double is R, int is Z. *)
From Coq Require Import Ascii.
From Verif Require Import RBase Trig Sums.
Open Scope R_scope.

Definition str := list ascii.
Definition str_dec : forall a b : str, {a = b} + {a <> b} := list_eq_dec ascii_dec.
Arguments str_dec : simpl never.

(** ** AtomUtils.cpp *)
Definition is_tab (c : ascii) : bool := (c =? "009")%char.
(** AtomUtils.cpp:27 the characters 0123456789- and blank, tab *)
Definition lead_char (c : ascii) : bool :=
  ((48 <=? nat_of_ascii c) && (nat_of_ascii c <=? 57))%nat || (c =? "-")%char || (c =? " ")%char || is_tab c.
(** AtomUtils.cpp:28 the characters +-012345678 and blank, tab *)
Definition trail_char (c : ascii) : bool :=
  ((48 <=? nat_of_ascii c) && (nat_of_ascii c <=? 56))%nat || (c =? "+")%char || (c =? "-")%char || (c =? " ")%char || is_tab c.
(** std::string::find_first_not_of and find_last_not_of; None is npos *)
Fixpoint find_first_not (p : ascii -> bool) (s : str) : option nat :=
  match s with [] => None | c :: r => if p c then option_map S (find_first_not p r) else Some 0%nat end.
Definition find_last_not (p : ascii -> bool) (s : str) : option nat :=
  option_map (fun k => length s - 1 - k)%nat (find_first_not p (rev s)).
(** AtomUtils.cpp:24-33 atomBareSymbol; pe - pb + 1 wraps around to more than the length when pe + 1 < pb *)
Definition atomBareSymbol (s : str) : str :=
  match find_first_not lead_char s, find_last_not trail_char s with
  | Some pb, Some pe => if (pb <=? pe + 1)%nat then firstn (pe + 1 - pb) (skipn pb s) else skipn pb s
  | _, _ => []
  end.
(** isspace of the C locale *)
Definition isspace (c : ascii) : bool :=
  (c =? " ")%char || ((9 <=? nat_of_ascii c) && (nat_of_ascii c <=? 13))%nat.
(** AtomUtils.cpp:41-65 the loop over the reversed string *)
Fixpoint valence_loop (rv : Z) (s : str) : Z :=
  match s with
  | [] => rv
  | c :: r =>
    if isspace c then valence_loop rv r
    else if (rv =? 0)%Z then
      if (c =? "+")%char then valence_loop 1 r
      else if (c =? "-")%char then valence_loop (-1) r
      else rv
    else if ((48 <=? nat_of_ascii c) && (nat_of_ascii c <=? 56))%nat then (rv * (Z.of_nat (nat_of_ascii c) - 48))%Z
    else rv
  end.
(** AtomUtils.cpp:37-67 atomValence *)
Definition atomValence (s : str) : Z := valence_loop 0 (rev s).

(** ** BVParam.cpp *)
Record bvparam := { matom0 : str; mvalence0 : Z; matom1 : str; mvalence1 : Z; mRo : R; mB : R }.
(** BVParam.cpp:33-39 default constructor *)
Definition bvnone : bvparam := {| matom0 := []; mvalence0 := 0; matom1 := []; mvalence1 := 0; mRo := 0; mB := 0 |}.
(** BVParam.cpp:41-57 constructor; the reference id is left out *)
Definition mkBV (a0 : str) (v0 : Z) (a1 : str) (v1 : Z) (Ro B : R) : bvparam :=
  if (v0 <? v1)%Z
  then {| matom0 := a1; mvalence0 := v1; matom1 := a0; mvalence1 := v0; mRo := Ro; mB := B |}
  else {| matom0 := a0; mvalence0 := v0; matom1 := a1; mvalence1 := v1; mRo := Ro; mB := B |}.
(** BVParam.cpp:80-84 bondvalence *)
Definition bondvalence (p : bvparam) (d : R) : R := if Rltb 0 (mB p) then exp ((mRo p - d) / mB p) else 0.
(** BVParam.cpp:87-91 bondvalenceToDistance, for a positive valence *)
Definition bondvalenceToDistance (p : bvparam) (v : R) : R := mRo p - mB p * ln v.
(** BVParam.cpp:124-132 BondEqual *)
Definition bondEqual (p q : bvparam) : bool :=
  (mvalence0 p =? mvalence0 q)%Z && (mvalence1 p =? mvalence1 q)%Z &&
  (if str_dec (matom0 p) (matom0 q) then true else false) && (if str_dec (matom1 p) (matom1 q) then true else false).

(** ** BVParametersTable.cpp; an unordered set is the list of its elements *)
Record bvtable := { tcustom : list bvparam; tstandard : list bvparam; tvalence : list (str * Z) }.
Definition bvfind (k : bvparam) (l : list bvparam) : option bvparam := find (fun p => bondEqual p k) l.
Definition bverase (k : bvparam) (l : list bvparam) : list bvparam := filter (fun p => negb (bondEqual p k)) l.
Definition bvinsert (p : bvparam) (l : list bvparam) : list bvparam := match bvfind p l with Some _ => l | None => p :: l end.
Fixpoint vfind (s : str) (l : list (str * Z)) : option Z :=
  match l with [] => None | (k, v) :: r => if str_dec k s then Some v else vfind s r end.
(** BVParametersTable.cpp:43-48 getAtomValence *)
Definition getAtomValence (t : bvtable) (s : str) : Z := match vfind s (tvalence t) with Some v => v | None => atomValence s end.
(** BVParametersTable.cpp:63-82 lookup(bpk); None is the reference to none() *)
Definition lookup_key (t : bvtable) (bpk : bvparam) : option bvparam :=
  match bvfind bpk (tcustom t) with
  | Some p => Some p
  | None =>
    match bvfind bpk (tstandard t) with
    | Some p => Some p
    | None =>
      if negb (0 <? mvalence0 bpk)%Z then None else
      let bpk9 := {| matom0 := matom0 bpk; mvalence0 := 9; matom1 := matom1 bpk; mvalence1 := mvalence1 bpk; mRo := mRo bpk; mB := mB bpk |} in
      match bvfind bpk9 (tcustom t) with
      | Some p => Some p
      | None => bvfind bpk9 (tstandard t)
      end
    end
  end.
(** BVParametersTable.cpp:97-103 *)
Definition lookup (t : bvtable) (a0 : str) (v0 : Z) (a1 : str) (v1 : Z) : option bvparam := lookup_key t (mkBV a0 v0 a1 v1 0 0).
(** BVParametersTable.cpp:85-94 *)
Definition lookup_symbols (t : bvtable) (s0 s1 : str) : option bvparam :=
  lookup t (atomBareSymbol s0) (getAtomValence t s0) (atomBareSymbol s1) (getAtomValence t s1).
Definition with_custom (t : bvtable) (l : list bvparam) : bvtable := {| tcustom := l; tstandard := tstandard t; tvalence := tvalence t |}.
Definition with_valence (t : bvtable) (l : list (str * Z)) : bvtable := {| tcustom := tcustom t; tstandard := tstandard t; tvalence := l |}.
(** the public operations: BVParametersTable.cpp:106-139 and 51-60 *)
Inductive tabop :=
| TSet (a0 : str) (v0 : Z) (a1 : str) (v1 : Z) (Ro B : R)
| TReset (a0 : str) (v0 : Z) (a1 : str) (v1 : Z)
| TResetAll
| TSetValence (s : str) (v : Z)
| TResetValences.
Definition tstep (t : bvtable) (o : tabop) : bvtable :=
  match o with
  | TSet a0 v0 a1 v1 Ro B => let bp := mkBV a0 v0 a1 v1 Ro B in with_custom t (bvinsert bp (bverase bp (tcustom t)))
  | TReset a0 v0 a1 v1 => with_custom t (bverase (mkBV a0 v0 a1 v1 0 0) (tcustom t))
  | TResetAll => with_custom t []
  | TSetValence s v => with_valence t ((s, v) :: filter (fun e => if str_dec (fst e) s then false else true) (tvalence t))
  | TResetValences => with_valence t []
  end.
Definition trun (ops : list tabop) (t : bvtable) : bvtable := fold_left tstep ops t.
Definition newTable (std : list bvparam) : bvtable := {| tcustom := []; tstandard := std; tvalence := [] |}.
(** BVParametersTable.cpp:149-158 getAll *)
Definition getAll (t : bvtable) : list bvparam := fold_left (fun l p => bvinsert p l) (tstandard t) (tcustom t).

(** ** BVSCalculator.cpp *)
(** What the calculator reads from the structure; [bdist i j]: distances of the atoms of site j from the anchor site i, as
    delivered by the bond generator of BondGen.v without limits. *)
Record bstru := { bn : nat; btype : nat -> str; bocc : nat -> R; bmult : nat -> nat; bdist : nat -> nat -> list R }.
Record bvs := { btab : bvtable; bprec : R; brmin : R; brmax : R }.
(** BVSCalculator.cpp:184-196 cacheStructureData *)
Definition baresymbol (c : bvs) (s : bstru) (i : nat) : str := atomBareSymbol (btype s i).
Definition valence (c : bvs) (s : bstru) (i : nat) : Z := getAtomValence (btab c) (btype s i).
(** BVSCalculator.cpp:218-226 the double loop over the set of (symbol, valence) in its iteration order [ord] *)
Fixpoint pairs_from {A} (l : list A) : list (A * A) := match l with [] => [] | x :: r => map (fun y => (x, y)) (x :: r) ++ pairs_from r end.
Definition bpused (c : bvs) (ord : list (str * Z)) : list bvparam :=
  fold_left (fun l '((a0, v0), (a1, v1)) => bvinsert (match lookup (btab c) a0 v0 a1 v1 with Some p => p | None => bvnone end) l)
    (pairs_from ord) [].
(** BVSCalculator.cpp:199-234 rmaxFromPrecision *)
Definition rmaxFromPrecision (c : bvs) (ord : list (str * Z)) (eps : R) : R :=
  fold_left (fun rv p => Rmax rv (bondvalenceToDistance p eps)) (bpused c ord) 0.
(** BVSCalculator.cpp:136-141 getRmaxUsed *)
Definition getRmaxUsed (c : bvs) (ord : list (str * Z)) : R := Rmin (brmax c) (rmaxFromPrecision c ord (bprec c)).
(** BVSCalculator.cpp:156-159 configureBondGenerator: the limits of the bond generator, whose rmin is 0 unless set
    (BaseBondGenerator.cpp:25-33) *)
Definition bvsLimits (c : bvs) (ord : list (str * Z)) : R * R := (0, getRmaxUsed c ord).
(** BaseBondGenerator.cpp: the generator keeps distances in the limits *)
Definition in_limits (l : R * R) (d : R) : bool := Rleb (fst l) d && Rleb d (snd l).
Definition gbonds (s : bstru) (l : R * R) (i j : nat) : list R := filter (in_limits l) (bdist s i j).

Definition addat (v : list R) (i : nat) (y : R) : list R := upd i (nth i v 0 + y) v.
(** BVSCalculator.cpp:162-180 addPairContribution for site0 i0, site1 i1 and distance d *)
Definition addPair (c : bvs) (s : bstru) (v : list R) (i0 i1 : nat) (d : R) (summationscale : Z) : list R :=
  let v0 := valence c s i0 in
  let v1 := valence c s i1 in
  match lookup (btab c) (baresymbol c s i0) v0 (baresymbol c s i1) v1 with
  | None => v
  | Some bp =>
    let valencehalf := bondvalence bp d / 2 in
    let pm0 := IZR (if (0 <=? v0)%Z then 1 else -1) in
    let pm1 := IZR (if (0 <=? v1)%Z then 1 else -1) in
    let v := addat v i0 (IZR summationscale * pm0 * valencehalf * bocc s i1) in
    addat v i1 (IZR summationscale * pm1 * valencehalf * bocc s i0)
  end.
(** PQEvaluator.cpp:97-127 PQEvaluatorBasic::updateValue of a single process without masks, see Evaluator.v *)
Definition bvs_eval (c : bvs) (ord : list (str * Z)) (s : bstru) (usefullsum : bool) : list R :=
  fold_left (fun v i0 =>
    fold_left (fun v i1 =>
      let scale := if usefullsum || (i0 =? i1)%nat then 1%Z else 2%Z in
      fold_left (fun v d => addPair c s v i0 i1 d scale) (gbonds s (bvsLimits c ord) i0 i1) v)
      (seq 0 (if usefullsum then bn s else S i0)) v)
    (seq 0 (bn s)) (repeat 0 (bn s)).
(** BVSCalculator.cpp:65-77 bvdiff *)
Definition bvdiff (c : bvs) (s : bstru) (vsim : list R) : list R :=
  map (fun i => Rabs (IZR (valence c s i)) - Rabs (nth i vsim 0)) (seq 0 (bn s)).
(** StructureAdapter.cpp:36-45 totalOccupancy *)
Definition totalOccupancy (s : bstru) : R := fold_left (fun t i => t + bocc s i * INR (bmult s i)) (seq 0 (bn s)) 0.
(** BVSCalculator.cpp:80-94 bvmsdiff *)
Definition bvmsdiff (c : bvs) (s : bstru) (vsim : list R) : R :=
  let bd := bvdiff c s vsim in
  let sumofsquares := fold_left (fun t i => t + INR (bmult s i) * bocc s i * nth i bd 0 * nth i bd 0) (seq 0 (bn s)) 0 in
  let totocc := totalOccupancy s in
  if Rltb 0 totocc then sumofsquares / totocc else 0.
(** BVSCalculator.cpp:97-101 bvrmsdiff *)
Definition bvrmsdiff (c : bvs) (s : bstru) (vsim : list R) : R := sqrt (bvmsdiff c s vsim).
