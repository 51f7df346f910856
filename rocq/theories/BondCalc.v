(** Model of BondCalculator. Source: src/diffpy/srreal/BondCalculator.cpp, BondCalculator.hpp.
    The algorithms of <algorithm> are modelled as libstdc++ implements them (bits/stl_algo.h, __merge and
    __set_difference): the calls in BondCalculator.cpp have output ranges that overlap the input, so what is
    written where, and when, matters. *)
From Verif Require Import RBase R3 Trig Lattice BondGen Evaluator.
Open Scope R_scope.

(** BondCalculator.hpp:61-82 BondEntry; sites are non-negative *)
Record bentry := { e_dist : R; e_s0 : nat; e_s1 : nat; e_d0 : R; e_d1 : R; e_d2 : R }.

(** BondCalculator.cpp:45-62 BondOp::compare *)
Definition compare (x y : bentry) : bool :=
  if Rltb (e_dist x) (e_dist y) then true
  else if Rltb (e_dist y) (e_dist x) then false
  else if (e_s0 x <? e_s0 y)%nat then true
  else if (e_s0 y <? e_s0 x)%nat then false
  else if (e_s1 x <? e_s1 y)%nat then true
  else if (e_s1 y <? e_s1 x)%nat then false
  else if Rltb (e_d0 x) (e_d0 y) then true
  else if Rltb (e_d0 y) (e_d0 x) then false
  else if Rltb (e_d1 x) (e_d1 y) then true
  else if Rltb (e_d1 y) (e_d1 x) then false
  else if Rltb (e_d2 x) (e_d2 y) then true
  else if Rltb (e_d2 y) (e_d2 x) then false
  else false.
(** BondCalculator.cpp:65-70 reverse_compare *)
Definition reverse_compare (x y : bentry) : bool := compare y x.

(** BondCalculator.cpp:84-95 entryFrom *)
Definition entryFrom (b : bond) : bentry :=
  {| e_dist := b_distance b; e_s0 := b_site0 b; e_s1 := b_site1 b;
     e_d0 := vx (b_r01 b); e_d1 := vy (b_r01 b); e_d2 := vz (b_r01 b) |}.
Definition e_zero : bentry := {| e_dist := 0; e_s0 := 0; e_s1 := 0; e_d0 := 0; e_d1 := 0; e_d2 := 0 |}.

(** std::sort(begin, end, compare). [compare] is a strict total order, so the result does not depend on the
    algorithm (BondCalcProofs.sorted_unique); insertion sort stands for it. *)
Fixpoint insert (x : bentry) (l : list bentry) : list bentry :=
  match l with
  | [] => [x]
  | y :: r => if compare y x then y :: insert x r else x :: l
  end.
Fixpoint sort (l : list bentry) : list bentry :=
  match l with [] => [] | x :: r => insert x (sort r) end.

(** std::merge of bits/stl_algo.h on reverse iterators, as called at BondCalculator.cpp:78-80. [a] is dstbonds
    after resize; [i1], [i2] are the numbers of entries that [first1, last1) and [first2, last2) still have, so
    first1 is at a[i1-1] and first2 at src[i2-1]; result is at a[r-1]. The loop runs at most [fuel] times.
    Unless a range is exhausted: if comp(first2, first1) the entry of src is written, else that of dst. *)
Fixpoint merge_loop (fuel : nat) (a src : list bentry) (i1 i2 r : nat) : list bentry * (nat * nat * nat) :=
  match fuel, i1, i2 with
  | S f, S k1, S k2 =>
      let x := nth k1 a e_zero in
      let y := nth k2 src e_zero in
      if reverse_compare y x then merge_loop f (upd (pred r) y a) src i1 k2 (pred r)
      else merge_loop f (upd (pred r) x a) src k1 i2 (pred r)
  | _, _, _ => (a, (i1, i2, r))
  end.
(** the two std::copy calls that end std::merge: [n] entries of [from a] are copied one by one *)
Fixpoint copy_down (from : list bentry -> list bentry) (a : list bentry) (n r : nat) : list bentry * nat :=
  match n with
  | O => (a, r)
  | S k => copy_down from (upd (pred r) (nth k (from a) e_zero) a) k (pred r)
  end.
(** BondCalculator.cpp:73-81 bmerge *)
Definition bmerge (dst src : list bentry) : list bentry :=
  let a := dst ++ repeat e_zero (length src) in
  let '(a, (i1, i2, r)) := merge_loop (length dst + length src) a src (length dst) (length src) (length a) in
  let '(a, r) := copy_down (fun a => a) a i1 r in
  fst (copy_down (fun _ => src) a i2 r).

(** std::set_difference of bits/stl_algo.h with result = first1 = a.begin(), as called at
    BondCalculator.cpp:242-245; first1 is at a[i1], first2 at b[i2], result at a[r]. *)
Fixpoint sdiff_loop (fuel : nat) (a b : list bentry) (i1 i2 r : nat) : list bentry * (nat * nat) :=
  match fuel with
  | S f =>
      if (i1 <? length a)%nat && (i2 <? length b)%nat then
        let x := nth i1 a e_zero in
        let y := nth i2 b e_zero in
        if compare x y then sdiff_loop f (upd r x a) b (S i1) i2 (S r)
        else if compare y x then sdiff_loop f a b i1 (S i2) r
        else sdiff_loop f a b (S i1) (S i2) r
      else (a, (i1, r))
  | O => (a, (i1, r))
  end.
Fixpoint copy_up (a : list bentry) (n i1 r : nat) : list bentry * nat :=
  match n with
  | O => (a, r)
  | S k => copy_up (upd r (nth i1 a e_zero) a) k (S i1) (S r)
  end.
(** BondCalculator.cpp:241-245: set_difference and erase *)
Definition pop_bonds (a b : list bentry) : list bentry :=
  let '(a', (i1, r)) := sdiff_loop (length a + length b) a b 0 0 0 in
  let '(a', r) := copy_up a' (length a - i1) i1 r in
  firstn r a'.

(** BondCalculator.hpp:107-109 and PairQuantity.hpp mvalue *)
Record bval := { bonds : list bentry; pops : list bentry; adds : list bentry; bvalue : list R }.

(** BondCalculator.cpp:112-119, 122-133, 136-153 distances, directions, sites0, sites1 *)
Definition distances (v : bval) : list R := map e_dist (bonds v).
Definition directions (v : bval) : list vec := map (fun e => V3 (e_d0 e) (e_d1 e) (e_d2 e)) (bonds v).
Definition sites0 (v : bval) : list nat := map e_s0 (bonds v).
Definition sites1 (v : bval) : list nat := map e_s1 (bonds v).

(** BondCalculator.cpp:199-206 resetValue (PairQuantity::resetValue resets also the count of merged values) *)
Definition bzero : bval := {| bonds := []; pops := []; adds := []; bvalue := [] |}.

(** BondCalculator.cpp:234-252 finishValue; [par] is mevaluator->isParallel() *)
Definition finishValue (par : bool) (v : bval) : bval :=
  let p := sort (pops v) in
  let a := sort (adds v) in
  if par then {| bonds := bonds v; pops := p; adds := a; bvalue := bvalue v |}
  else
    let b := pop_bonds (bonds v) p in
    let b := match b with [] => a | _ => bmerge b a end in
    {| bonds := b; pops := []; adds := []; bvalue := map e_dist b |}.

(** BondCalculator.cpp:254-268 stashPartialValue, resetValue, restorePartialValue *)
Definition restashValue (v : bval) : bval := {| bonds := bonds v; pops := pops v; adds := []; bvalue := [] |}.

(** mfilter_directions, mfilter_degrees and the ticker clicks so far *)
Record cones := { c_dirs : list vec; c_degs : list R; c_clicks : nat }.
Definition cones0 : cones := {| c_dirs := []; c_degs := []; c_clicks := 0 |}.
(** BondCalculator.cpp:168-177 filterCone; eps_gt has the default tolerance SQRT_DOUBLE_EPS
    (mathutils.hpp, validators.hpp:45-55) *)
Definition filterCone (axis : vec) (deg : R) (x : cones) : outcome cones :=
  let n := vnorm axis in
  if negb (eps_gt n 0 SQRT_DOUBLE_EPS) then Throw InvalidArgument x
  else Ok {| c_dirs := c_dirs x ++ [vscale (/ n) axis]; c_degs := c_degs x ++ [deg]; c_clicks := S (c_clicks x) |}.
(** BondCalculator.cpp:180-185 filterOff *)
Definition filterOff (x : cones) : cones :=
  {| c_dirs := []; c_degs := []; c_clicks := match c_dirs x with [] => c_clicks x | _ => S (c_clicks x) end |}.
(** BondCalculator.cpp:278-292 checkConeFilters *)
Fixpoint cone_loop (u : vec) (dirs : list vec) (degs : list R) : bool :=
  match dirs, degs with
  | ax :: dirs', deg :: degs' =>
      if Rleb 180 deg then true
      else if Rleb (180 / PI * acos (vdot u ax)) deg then true
      else cone_loop u dirs' degs'
  | _, _ => false
  end.
Definition checkConeFilters (x : cones) (u : vec) : bool :=
  match c_dirs x with [] => true | _ => cone_loop u (c_dirs x) (c_degs x) end.
(** BondCalculator.cpp:214-217 the filter in addPairContribution *)
Definition passes (x : cones) (b : bond) : bool := checkConeFilters x (vscale (/ b_distance b) (b_r01 b)).

(** BondCalculator as the evaluators see it: the structure side is that of [W], the value is [bval].
    addPairContribution (BondCalculator.cpp:209-220) appends to maddbonds or mpopbonds. *)
Section Calc.
  Context {stru cfg V0 : Type} (W : calc stru cfg bond V0) (cone : cfg -> cones).
  Definition badd (v d : bval) : bval :=
    {| bonds := bonds v; pops := pops v ++ pops d; adds := adds v ++ adds d; bvalue := bvalue v |}.
  Definition bcontrib (c : cfg) (s : stru) (b : bond) (z : Z) : bval :=
    if negb (passes (cone c) b) then bzero
    else if (0 <? z)%Z then {| bonds := []; pops := []; adds := [entryFrom b]; bvalue := [] |}
    else {| bonds := []; pops := [entryFrom b]; adds := []; bvalue := [] |}.
  Definition bond_calc : calc stru cfg bond bval :=
    {| zero := bzero; add := badd; Evaluator.nsites := Evaluator.nsites W; Evaluator.gen := Evaluator.gen W;
       Evaluator.site1 := Evaluator.site1 W; hasmask := hasmask W; haspairmask := haspairmask W;
       mask := mask W; contrib := bcontrib; custom := custom W; sdif := sdif W; outer_ok := outer_ok W;
       has_stash := true; restash := restashValue; finish := finishValue |}.
End Calc.

(** BondCalculator.cpp:189-195 getParallelData: the two lists that are sent *)
Definition getParallelData (v : bval) : list bentry * list bentry := (pops v, adds v).
(** BondCalculator.cpp:223-231 executeParallelMerge *)
Definition executeParallelMerge (d : list bentry * list bentry) (v : bval) : bval :=
  {| bonds := bonds v; pops := bmerge (pops v) (fst d); adds := bmerge (adds v) (snd d); bvalue := bvalue v |}.
(** PairQuantity.cpp:96-106 mergeParallelData on the calculator that collects the results; the state is the value
    and mmergedvaluescount. That calculator itself is not set up for a parallel run. *)
Definition mergeParallelData (d : list bentry * list bentry) (ncpu : nat) (x : bval * nat) : outcome (bval * nat) :=
  let '(v, k) := x in
  if (ncpu <=? k)%nat then Throw RuntimeError x
  else
    let v := executeParallelMerge d v in
    Ok (if (S k =? ncpu)%nat then finishValue false v else v, S k).
Fixpoint merge_all (ds : list (list bentry * list bentry)) (ncpu : nat) (x : bval * nat) : outcome (bval * nat) :=
  match ds with
  | [] => Ok x
  | d :: r => match mergeParallelData d ncpu x with Ok y => merge_all r ncpu y | o => o end
  end.

(** PQEvaluator.cpp:348-393 pqresults_bondcalculator::compare: the values within the tolerance, sites equal,
    directions within the tolerance. types0 and types1 are functions of the sites in the current structure and are
    left out (leaving them out makes the comparison weaker). *)
Definition Rallclose (eps : R) (a b : list R) : bool :=
  (length a =? length b)%nat && forallb (fun p => eps_eq (fst p) (snd p) eps) (combine a b).
Definition natlist_eqb (a b : list nat) : bool :=
  (length a =? length b)%nat && forallb (fun p => (fst p =? snd p)%nat) (combine a b).
Definition bclose (saved now : bval) : bool :=
  (* PQEvaluator.cpp:332-335 *)
  let smx := fold_left (fun m x => if Rltb (Rabs m) (Rabs x) then x else m) (bvalue saved) (hd 0 (bvalue saved)) in
  let eps := SQRT_DOUBLE_EPS * match bvalue saved with [] => 1 | _ => Rmax smx 1 end in
  Rallclose eps (bvalue saved) (bvalue now) &&
  natlist_eqb (sites0 saved) (sites0 now) && natlist_eqb (sites1 saved) (sites1 now) &&
  (length (directions saved) =? length (directions now))%nat &&
  forallb (fun p => Rallclose SQRT_DOUBLE_EPS [vx (fst p); vy (fst p); vz (fst p)] [vx (snd p); vy (snd p); vz (snd p)])
          (combine (directions saved) (directions now)).
