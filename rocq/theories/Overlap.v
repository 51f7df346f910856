(** Model of OverlapCalculator. Source: src/diffpy/srreal/OverlapCalculator.cpp, OverlapCalculator.hpp. *)
From Coq Require Import String.
From Verif Require Import RBase R3 Lattice BondGen.
Open Scope R_scope.

(** What the calculator reads from its structure adapter: siteOccupancy, siteMultiplicity, siteAtomType, countSites. *)
Record ostru := { o_n : nat; o_occ : nat -> R; o_mult : nat -> nat; o_type : nat -> string }.
(** OverlapCalculator.hpp:109-118 and PairQuantity::mvalue: a flat array of doubles, the map from a site to the
    list of its bond indices with its validity flag, the cached radii and maximum separation. *)
Record ocalc := { mvalue : list R; mnbids : list (nat * list nat); mcached : bool; mradii : list R; mmaxsep : R }.

(** OverlapCalculator.cpp:37-45 offsets in one chunk *)
Definition DISTANCE_OFFSET := 0%nat.
Definition DIRECTION0_OFFSET := 1%nat.
Definition DIRECTION1_OFFSET := 2%nat.
Definition DIRECTION2_OFFSET := 3%nat.
Definition SITE0_OFFSET := 4%nat.
Definition SITE1_OFFSET := 5%nat.
Definition CHUNK_SIZE := 6%nat.

(** int(x) of a non-negative double *)
Definition to_int (x : R) : nat := Z.to_nat (Rfloor x).

(** OverlapCalculator.cpp:460-464 count *)
Definition count (c : ocalc) : nat := (length (mvalue c) / CHUNK_SIZE)%nat.
(** OverlapCalculator.cpp:484-489 subvalue *)
Definition subvalue (c : ocalc) (offset index : nat) : R := nth (offset + CHUNK_SIZE * index) (mvalue c) 0.
(** OverlapCalculator.cpp:492-499 subdirection *)
Definition subdirection (c : ocalc) (index : nat) : vec :=
  V3 (subvalue c DIRECTION0_OFFSET index) (subvalue c DIRECTION1_OFFSET index) (subvalue c DIRECTION2_OFFSET index).
Definition siteradius (c : ocalc) (i : nat) : R := nth i (mradii c) 0.
(** OverlapCalculator.cpp:502-520 suboverlap; flipi = flipj = 0 is the default *)
Definition suboverlap (c : ocalc) (index flipi flipj : nat) : R :=
  let i := to_int (subvalue c SITE0_OFFSET index) in
  let j := to_int (subvalue c SITE1_OFFSET index) in
  let radiusi := if (flipi =? flipj)%nat then siteradius c i else if (i =? flipi)%nat then siteradius c flipj
    else if (i =? flipj)%nat then siteradius c flipi else siteradius c i in
  let radiusj := if (flipi =? flipj)%nat then siteradius c j else if (j =? flipi)%nat then siteradius c flipj
    else if (j =? flipj)%nat then siteradius c flipi else siteradius c j in
  let dij := subvalue c DISTANCE_OFFSET index in
  let sepij := radiusi + radiusj in
  if Rltb dij sepij then sepij - dij else 0.

(** OverlapCalculator.cpp:467-481 subvector with the flag OVERLAPPING *)
Definition subvector (c : ocalc) (offset : nat) : list R :=
  flat_map (fun index => if Rleb (suboverlap c index 0 0) 0 then [] else [subvalue c offset index]) (seq 0 (count c)).
(** OverlapCalculator.cpp:80-92 overlaps *)
Definition overlaps (c : ocalc) : list R :=
  flat_map (fun index => let olp := suboverlap c index 0 0 in if Rleb olp 0 then [] else [olp]) (seq 0 (count c)).
(** OverlapCalculator.cpp:95-98 distances *)
Definition distances (c : ocalc) : list R := subvector c DISTANCE_OFFSET.
(** OverlapCalculator.cpp:101-112 directions *)
Definition directions (c : ocalc) : list vec :=
  flat_map (fun index => if Rleb (suboverlap c index 0 0) 0 then [] else [subdirection c index]) (seq 0 (count c)).
(** OverlapCalculator.cpp:115-126 sites0, sites1 *)
Definition sites0 (c : ocalc) : list nat := map to_int (subvector c SITE0_OFFSET).
Definition sites1 (c : ocalc) : list nat := map to_int (subvector c SITE1_OFFSET).
(** OverlapCalculator.cpp:129-138 types0, types1 *)
Definition types0 (S : ostru) (c : ocalc) : list string := map (o_type S) (sites0 c).
Definition types1 (S : ostru) (c : ocalc) : list string := map (o_type S) (sites1 c).

(** [rv[i] += x] *)
Definition addto (rv : list R) (i : nat) (x : R) : list R := upd i (nth i rv 0 + x) rv.
(** OverlapCalculator.cpp:141-159 siteSquareOverlaps *)
Definition siteSquareOverlaps (S : ostru) (c : ocalc) : list R :=
  let rv := fold_left (fun rv index =>
    let olp := suboverlap c index 0 0 in
    if Rleb olp 0 then rv else
    let sqoverlap := olp * olp in
    let i := to_int (subvalue c SITE0_OFFSET index) in
    let j := to_int (subvalue c SITE1_OFFSET index) in
    addto rv i (sqoverlap * o_occ S j)) (seq 0 (count c)) (repeat 0 (o_n S)) in
  map (fun x => x / 2) rv.
(** OverlapCalculator.cpp:162-173 totalSquareOverlap *)
Definition totalSquareOverlap (S : ostru) (c : ocalc) : R :=
  let sq := siteSquareOverlaps S c in
  fold_left (fun rv i => rv + nth i sq 0 * INR (o_mult S i) * o_occ S i) (seq 0 (o_n S)) 0.
(** StructureAdapter.cpp:36-45 totalOccupancy *)
Definition totalOccupancy (S : ostru) : R := fold_left (fun t i => t + o_occ S i * INR (o_mult S i)) (seq 0 (o_n S)) 0.
(** OverlapCalculator.cpp:176-181 meanSquareOverlap *)
Definition meanSquareOverlap (S : ostru) (c : ocalc) : R :=
  let totocc := totalOccupancy S in if Rltb 0 totocc then totalSquareOverlap S c / totocc else 0.

(** unordered_map with int keys: find *)
Fixpoint nbfind (k : nat) (m : list (nat * list nat)) : option (list nat) :=
  match m with [] => None | (k', v) :: r => if (k =? k')%nat then Some v else nbfind k r end.
(** mneighborids[i].push_back(idx) *)
Fixpoint nbpush (i idx : nat) (m : list (nat * list nat)) : list (nat * list nat) :=
  match m with
  | [] => [(i, [idx])]
  | (k, v) :: r => if (i =? k)%nat then (k, v ++ [idx]) :: r else (k, v) :: nbpush i idx r
  end.
Definition with_nb (c : ocalc) (m : list (nat * list nat)) (b : bool) : ocalc :=
  {| mvalue := mvalue c; mnbids := m; mcached := b; mradii := mradii c; mmaxsep := mmaxsep c |}.
(** OverlapCalculator.cpp:541-560 getNeighborIds; the object after the call (its cache is mutable) and the list.
    The assertion that mneighborids is empty is off in a release build. *)
Definition fillNeighborIds (c : ocalc) : ocalc :=
  if mcached c then c
  else with_nb c (fold_left (fun m idx => nbpush (to_int (subvalue c SITE0_OFFSET idx)) idx m) (seq 0 (count c)) (mnbids c)) true.
Definition getNeighborIds (c : ocalc) (k : nat) : ocalc * list nat :=
  let c := fillNeighborIds c in (c, match nbfind k (mnbids c) with Some l => l | None => [] end).

(** OverlapCalculator.cpp:197-200 allids: an unordered_set; the sum below does not depend on its order in exact
    arithmetic *)
Definition idset (l : list nat) : list nat := nodup Nat.eq_dec l.
(** OverlapCalculator.cpp:184-217 flipDiffTotal, arguments are C++ ints *)
Definition flipDiffTotal (S : ostru) (c : ocalc) (zi zj : Z) : outcome (ocalc * R) :=
  let n := Z.of_nat (o_n S) in
  if ((zi <? 0) || (n <=? zi) || (zj <? 0) || (n <=? zj))%Z then Throw InvalidArgument (c, 0)
  else
    let i := Z.to_nat zi in let j := Z.to_nat zj in
    if (i =? j)%nat || Reqb (siteradius c i) (siteradius c j) then Ok (c, 0)
    else
      let '(c, ineighbors) := getNeighborIds c i in
      let '(c, jneighbors) := getNeighborIds c j in
      let allids := idset (ineighbors ++ jneighbors) in
      Ok (c, fold_left (fun rv idx =>
        let i1 := to_int (subvalue c SITE0_OFFSET idx) in
        let j1 := to_int (subvalue c SITE1_OFFSET idx) in
        let sqscale := (if (i1 =? j1)%nat then 1 else 2) * o_occ S i1 * o_occ S j1 * INR (o_mult S i1) / 2 in
        let olp0 := suboverlap c idx 0 0 in
        let olp1 := suboverlap c idx i j in
        rv - sqscale * olp0 * olp0 + sqscale * olp1 * olp1) allids 0).
(** OverlapCalculator.cpp:220-225 flipDiffMean *)
Definition flipDiffMean (S : ostru) (c : ocalc) (zi zj : Z) : outcome (ocalc * R) :=
  let totocc := totalOccupancy S in
  if Rltb 0 totocc then
    match flipDiffTotal S c zi zj with
    | Ok (c, x) => Ok (c, x / totocc)
    | Throw e (c, _) => Throw e (c, 0)
    | UB => UB
    end
  else Ok (c, 0).

(** OverlapCalculator.cpp:228-246 gradients *)
Definition addtov (rv : list vec) (i : nat) (x : vec) : list vec := upd i (vadd (nth i rv vzero) x) rv.
Definition gradients (S : ostru) (c : ocalc) : list vec :=
  fold_left (fun rv index =>
    let olp := suboverlap c index 0 0 in
    if Rleb olp 0 then rv else
    let dst := subvalue c DISTANCE_OFFSET index in
    let j := to_int (subvalue c SITE1_OFFSET index) in
    addtov rv j (vscale (-2 * olp / dst) (subdirection c index))) (seq 0 (count c)) (repeat vzero (o_n S)).

(** unordered_set<int>::insert; the order of the list has no meaning *)
Definition sinsert (x : nat) (s : list nat) : list nat := if existsb (Nat.eqb x) s then s else s ++ [x].
(** OverlapCalculator.cpp:249-263 getNeighborSites *)
Definition getNeighborSites (c : ocalc) (i : nat) : ocalc * list nat :=
  let '(c, ineighbors) := getNeighborIds c i in
  (c, fold_left (fun rv idx => if Rleb (suboverlap c idx 0 0) 0 then rv
                               else sinsert (to_int (subvalue c SITE1_OFFSET idx)) rv) ineighbors []).
(** OverlapCalculator.cpp:266-280 coordinations *)
Definition coordinations (S : ostru) (c : ocalc) : list R :=
  fold_left (fun rv index =>
    if Rleb (suboverlap c index 0 0) 0 then rv else
    let j0 := to_int (subvalue c SITE0_OFFSET index) in
    let j1 := to_int (subvalue c SITE1_OFFSET index) in
    addto rv j0 (o_occ S j1)) (seq 0 (count c)) (repeat 0 (o_n S)).
(** unordered_map<string,double>: rv[tp] += x, and reading an entry (0 when there is none) *)
Fixpoint tpadd (tp : string) (x : R) (m : list (string * R)) : list (string * R) :=
  match m with
  | [] => [(tp, 0 + x)]
  | (k, v) :: r => if string_dec tp k then (k, v + x) :: r else (k, v) :: tpadd tp x r
  end.
Fixpoint tpget (tp : string) (m : list (string * R)) : option R :=
  match m with [] => None | (k, v) :: r => if string_dec tp k then Some v else tpget tp r end.
(** OverlapCalculator.cpp:283-310 coordinationByTypes *)
Definition coordinationByTypes (S : ostru) (c : ocalc) (i : nat) : ocalc * list (string * R) :=
  let '(c, ineighbors) := getNeighborIds c i in
  (c, fold_left (fun rv idx =>
        if Rleb (suboverlap c idx 0 0) 0 then rv else
        let j0 := to_int (subvalue c SITE0_OFFSET idx) in
        let j1 := to_int (subvalue c SITE1_OFFSET idx) in
        if (j0 =? i)%nat then tpadd (o_type S j1) (o_occ S j1) rv
        else tpadd (o_type S j0) (o_occ S j0 * INR (o_mult S j0) / INR (o_mult S j1)) rv) ineighbors []).

(** neighborhoods: [ptr] is rvptr, a set identifier or null per site; [heap] holds the sets by identifier
    (a set that nobody points to any more stays there, unused). *)
Record nbh := { ptr : list (option nat); heap : list (list nat) }.
Definition ptr_of (h : nbh) (i : nat) : option nat := nth i (ptr h) None.
Definition set_of (h : nbh) (k : nat) : list nat := nth k (heap h) [].
Definition set_ptr (h : nbh) (i : nat) (p : option nat) : nbh := {| ptr := upd i p (ptr h); heap := heap h |}.
Definition set_insert (h : nbh) (k x : nat) : nbh := {| ptr := ptr h; heap := upd k (sinsert x (set_of h k)) (heap h) |}.
(** rvptr[i].reset(new SiteSet) followed by insertion of i *)
Definition new_set (h : nbh) (i : nat) : nbh :=
  {| ptr := upd i (Some (length (heap h))) (ptr h); heap := heap h ++ [[i]] |}.
Definition is_some {A} (o : option A) : bool := match o with Some _ => true | None => false end.
(** OverlapCalculator.cpp:326-345 the body of the loop for one overlapping bond *)
Definition join (h : nbh) (j0 j1 : nat) : nbh :=
  let h := match ptr_of h j0 with None => new_set h j0 | Some _ => h end in
  match ptr_of h j0 with
  | None => h    (* j0 out of range, undefined behaviour in C++ *)
  | Some k0 =>
      let h := match ptr_of h j1 with None => set_ptr (set_insert h k0 j1) j1 (Some k0) | Some _ => h end in
      match ptr_of h j1 with
      | None => h
      | Some k1 => if (k0 =? k1)%nat then h
                   else fold_left (fun h x => set_ptr (set_insert h k0 x) x (Some k0)) (set_of h k1) h
      end
  end.
(** OverlapCalculator.cpp:349-354 initsiteset *)
Definition initsiteset (h : nbh) (i cnt : nat) : nbh * nat :=
  match ptr_of h i with None => (new_set h i, S cnt) | Some _ => (h, cnt) end.
(** OverlapCalculator.cpp:361-367 the loop over j1 *)
Definition self_inner (mask : nat -> nat -> bool) (n j0 : nat) (st : nbh * nat) : nbh * nat :=
  fold_left (fun st j1 =>
    let '(h, cnt) := st in
    if is_some (ptr_of h j0) && is_some (ptr_of h j1) then st
    else if negb (mask j0 j1) then st
    else let '(h, cnt) := initsiteset h j0 cnt in initsiteset h j1 cnt) (seq j0 (n - j0)) st.
(** OverlapCalculator.cpp:359-368 the loop over j0, which ends as soon as all sites have a set *)
Fixpoint self_outer (mask : nat -> nat -> bool) (n : nat) (js : list nat) (st : nbh * nat) : nbh * nat :=
  match js with
  | [] => st
  | j0 :: r => if (snd st <? n)%nat then self_outer mask n r (self_inner mask n j0 st) else st
  end.
(** OverlapCalculator.cpp:369-378 the distinct sets in the order of sites *)
Fixpoint collect (h : nbh) (ps : list (option nat)) (dup : list nat) : list (list nat) :=
  match ps with
  | [] => []
  | None :: r => collect h r dup
  | Some k :: r => if existsb (Nat.eqb k) dup then collect h r dup else set_of h k :: collect h r (k :: dup)
  end.
(** OverlapCalculator.cpp:313-378 neighborhoods; [mask] is getPairMask *)
Definition neighborhoods (S : ostru) (mask : nat -> nat -> bool) (c : ocalc) : list (list nat) :=
  let n := o_n S in
  let h := fold_left (fun h index =>
    if Rleb (suboverlap c index 0 0) 0 then h else
    join h (to_int (subvalue c SITE0_OFFSET index)) (to_int (subvalue c SITE1_OFFSET index)))
    (seq 0 (count c)) {| ptr := repeat None n; heap := [] |} in
  let cnt := length (filter is_some (ptr h)) in
  let h := fst (self_outer mask n (seq 0 n) (h, cnt)) in
  collect h (ptr h) [].

(** std::max_element of a nonempty vector, 0 if empty *)
Definition maxradius (l : list R) : R := match l with [] => 0 | x :: r => fold_left (fun m y => if Rltb m y then y else m) r x end.
(** OverlapCalculator.cpp:523-537 cacheStructureData with [lookup] of the radii table, which may throw, then the
    first radii are set; OverlapCalculator.cpp:415-422 resetValue *)
Definition ocache (S : ostru) (lookup : string -> R) (c : ocalc) : ocalc :=
  let radii := map (fun i => lookup (o_type S i)) (seq 0 (o_n S)) in
  {| mvalue := mvalue c; mnbids := mnbids c; mcached := mcached c; mradii := radii; mmaxsep := 2 * maxradius radii |}.
Definition resetValue (S : ostru) (lookup : string -> R) (c : ocalc) : ocalc :=
  ocache S lookup {| mvalue := []; mnbids := []; mcached := false; mradii := mradii c; mmaxsep := mmaxsep c |}.
(** OverlapCalculator.cpp:432-446 addPairContribution *)
Definition chunk (b : bond) : list R :=
  [b_distance b; vx (b_r01 b); vy (b_r01 b); vz (b_r01 b); INR (b_site0 b); INR (b_site1 b)].
Definition with_value (c : ocalc) (v : list R) : ocalc :=
  {| mvalue := v; mnbids := mnbids c; mcached := mcached c; mradii := mradii c; mmaxsep := mmaxsep c |}.
Definition addPairContribution (c : ocalc) (b : bond) : ocalc := with_value c (mvalue c ++ chunk b).
(** OverlapCalculator.cpp:449-456 executeParallelMerge *)
Definition executeParallelMerge (c : ocalc) (pvalue : list R) : ocalc := with_value c (mvalue c ++ pvalue).
(** OverlapCalculator.hpp:121-131 serialize and load into a new object: mneighborids is stored, mneighborids_cached is
    not, the constructor (OverlapCalculator.cpp:72) has set it to false *)
Definition reload (c : ocalc) : ocalc :=
  {| mvalue := mvalue c; mnbids := mnbids c; mcached := false; mradii := mradii c; mmaxsep := mmaxsep c |}.
(** OverlapCalculator.cpp:406-411 getRmaxUsed *)
Definition getRmaxUsed (c : ocalc) (rmax : R) : R := Rmin rmax (mmaxsep c).

(** Calls that change the object: a reset with some structure and radii table, the contribution of a bond, a merge of
    bonds counted elsewhere, a query that fills the neighbour cache, and a save and load. *)
Inductive ocall := CReset | CAdd (b : bond) | CMerge (bs : list bond) | CQuery | CReload.
Definition ostep (S : ostru) (lookup : string -> R) (c : ocalc) (o : ocall) : ocalc :=
  match o with
  | CReset => resetValue S lookup c
  | CAdd b => addPairContribution c b
  | CMerge bs => executeParallelMerge c (flat_map chunk bs)
  | CQuery => fillNeighborIds c
  | CReload => reload c
  end.
Definition orun (S : ostru) (lookup : string -> R) (c : ocalc) (ops : list ocall) : ocalc := fold_left (ostep S lookup) ops c.
