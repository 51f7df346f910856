(** Properties C28, C29, C59, C60: OverlapCalculator. A history is a reset (eval or setStructure) followed by any
    sequence of counted bonds, merges of parallel results, queries that fill the neighbour cache, saves and loads;
    [counted ops] are the bonds since the last reset, [radius_of S lk i] is the radius in the table of atom i. *)
From Coq Require Import String Relations Sorting.Sorted.
From Verif Require Import RBase R3 Trig Sphere Lattice LatticeSpec BondGen BondGenSpec BondGenMain Overlap OverlapSpec OverlapProofs OverlapFlip OverlapNbh
  OverlapGrad OverlapGen OverlapExample.
Open Scope R_scope.

(** C28: the accessors list exactly the overlapping bonds, with overlap max(0, ri + rj - d). *)
Theorem C28_overlap_lists : forall (S : ostru) (lk : string -> R) (c : ocalc) (ops : list ocall), Forall (call_ok S) ops ->
  let c' := orun S lk (resetValue S lk c) ops in
  let r := radius_of S lk in
  let bs := filter (overlapping r) (counted ops) in
  overlaps c' = map (overlap r) bs /\ distances c' = map b_distance bs /\ directions c' = map b_r01 bs /\
  sites0 c' = map b_site0 bs /\ sites1 c' = map b_site1 bs /\
  types0 S c' = map (fun b => o_type S (b_site0 b)) bs /\ types1 S c' = map (fun b => o_type S (b_site1 b)) bs.
Proof. exact lists_main. Qed.
Print Assumptions C28_overlap_lists.

(** C28: siteSquareOverlaps, totalSquareOverlap and meanSquareOverlap are the documented sums. *)
Theorem C28_totals : forall (S : ostru) (lk : string -> R) (c : ocalc) (ops : list ocall), Forall (call_ok S) ops ->
  let c' := orun S lk (resetValue S lk c) ops in
  let r := radius_of S lk in
  let bs := counted ops in
  length (siteSquareOverlaps S c') = o_n S /\ (forall i, nth i (siteSquareOverlaps S c') 0 = site_square S r bs i) /\
  totalSquareOverlap S c' = total_square S r bs /\
  meanSquareOverlap S c' = if Rltb 0 (total_occupancy S) then total_square S r bs / total_occupancy S else 0.
Proof. exact totals_main. Qed.
Print Assumptions C28_totals.

(** C28: no overlapping pair is lost by cutting rmax at twice the largest radius. *)
Theorem C28_rmaxused_keeps_overlaps : forall (S : ostru) (lk : string -> R) (c : ocalc) (ops : list ocall), Forall (call_ok S) ops ->
  let c' := orun S lk (resetValue S lk c) ops in
  forall d i j, (i < o_n S)%nat -> (j < o_n S)%nat -> 0 < radius_of S lk i + radius_of S lk j - d ->
  forall rmax, d <= rmax -> d <= getRmaxUsed c' rmax.
Proof. exact rmax_main. Qed.
Print Assumptions C28_rmaxused_keeps_overlaps.

(** C28: flipDiffTotal(i, j) is the change of the total when the radii of sites i and j are exchanged, if bonds are
    counted from both ends and none are added after a query. *)
Theorem C28_flip_difference : forall (S : ostru) (lk : string -> R) (c : ocalc) (ops : list ocall), Forall (call_ok S) ops ->
  no_late_bonds false ops ->
  let c' := orun S lk (resetValue S lk c) ops in
  let r := radius_of S lk in
  let bs := counted ops in
  forall i j, (i < o_n S)%nat -> (j < o_n S)%nat -> balanced S bs ->
  exists c2, flipDiffTotal S c' (Z.of_nat i) (Z.of_nat j) = Ok (c2, total_square S (swap r i j) bs - total_square S r bs).
Proof. exact flip_main. Qed.
Print Assumptions C28_flip_difference.
(** C28: flipDiffMean(i, j) is the change of the mean under the same conditions. *)
Theorem C28_flip_mean : forall (S : ostru) (lk : string -> R) (c : ocalc) (ops : list ocall), Forall (call_ok S) ops ->
  no_late_bonds false ops ->
  let c' := orun S lk (resetValue S lk c) ops in
  let r := radius_of S lk in
  let bs := counted ops in
  let mean r := if Rltb 0 (total_occupancy S) then total_square S r bs / total_occupancy S else 0 in
  forall i j, (i < o_n S)%nat -> (j < o_n S)%nat -> balanced S bs ->
  exists c2, flipDiffMean S c' (Z.of_nat i) (Z.of_nat j) = Ok (c2, mean (swap r i j) - mean r).
Proof.
  intros S lk c ops H HN c' r bs mean i j Hi Hj HB. unfold flipDiffMean. rewrite occ_raw. subst mean. cbv beta. destruct (Rltb 0 (total_occupancy S)) eqn:E.
  - destruct (flip_main S lk c ops H HN i j Hi Hj HB) as (c2 & Q). fold c' in Q. rewrite Q. exists c2. do 2 f_equal. apply Rltb_true in E. fold r bs. field. lra.
  - exists c'. do 2 f_equal. ring.
Qed.
Print Assumptions C28_flip_mean.
(** C28: it is symmetric, zero for i = j, and throws for indices that are no sites. *)
Theorem C28_flip_symmetric : forall (S : ostru) (lk : string -> R) (c : ocalc) (ops : list ocall), Forall (call_ok S) ops ->
  no_late_bonds false ops ->
  let c' := orun S lk (resetValue S lk c) ops in
  forall zi zj, flipDiffTotal S c' zi zj = flipDiffTotal S c' zj zi.
Proof. exact flip_sym_main. Qed.
Print Assumptions C28_flip_symmetric.
Theorem C28_flip_same_site : forall (S : ostru) (lk : string -> R) (c : ocalc) (ops : list ocall),
  let c' := orun S lk (resetValue S lk c) ops in
  forall i, (i < o_n S)%nat -> flipDiffTotal S c' (Z.of_nat i) (Z.of_nat i) = Ok (c', 0).
Proof. exact flip_same_main. Qed.
Print Assumptions C28_flip_same_site.
Theorem C28_flip_checks_indices : forall (S : ostru) (lk : string -> R) (c : ocalc) (ops : list ocall),
  let c' := orun S lk (resetValue S lk c) ops in
  forall zi zj, ~ (0 <= zi < Z.of_nat (o_n S) /\ 0 <= zj < Z.of_nat (o_n S))%Z -> exists y, flipDiffTotal S c' zi zj = Throw InvalidArgument y.
Proof. exact flip_throws_main. Qed.
Print Assumptions C28_flip_checks_indices.
(** The bonds of the generators of isolated and periodic structures are balanced: the loop over all anchors, with any
    limits and any symmetric pair mask, visits every bond and its reverse. *)
Theorem C28_generated_bonds_balanced : forall (cls : gclass) (S : stru) (sph : R -> R -> list (Z * Z * Z)),
  cls <> GCrystal -> stru_ok cls S -> sphere_of (slat S) sph ->
  forall (lo hi : R) (mask : nat -> nat -> bool), (forall i j, mask i j = mask j i) ->
  exists B : list (list bond), length B = length (spos S) /\
    (forall a, (a < length (spos S))%nat -> exists g f0, forall f, (f0 <= f)%nat ->
       grun cls S sph f (gen0 S) [SetRmin lo; SetRmax hi; SelAnchor a] = BDone g /\ bonds cls S sph f g = Some (nth a B [])) /\
    let bs := filter (fun b => mask (b_site0 b) (b_site1 b)) (concat B) in
    Permutation (map arrow bs) (map flipped bs) /\
    Forall (fun b => (b_site0 b < length (spos S))%nat /\ (b_site1 b < length (spos S))%nat) bs /\
    (forall b, In b bs -> b_distance b = vnorm (b_r01 b) /\ 0 < b_distance b).
Proof. exact loop_reversible. Qed.
Print Assumptions C28_generated_bonds_balanced.
Theorem C28_reversible_is_balanced : forall (S : ostru) (bs : list bond), (forall i, o_mult S i = 1%nat) ->
  Permutation (map arrow bs) (map flipped bs) -> balanced S bs.
Proof. exact reversible_balanced. Qed.
Print Assumptions C28_reversible_is_balanced.
(** C28, defect: bonds merged after a query are missing from flipDiffTotal, though not from the total. *)
Theorem C28_merge_after_query_refuted : exists S lk bs i j,
  Forall (bond_ok S) bs /\ balanced S bs /\ (i < o_n S)%nat /\ (j < o_n S)%nat /\
  total_square S (swap (radius_of S lk) i j) bs - total_square S (radius_of S lk) bs <> 0 /\
  forall c, let c' := orun S lk (resetValue S lk c) [CQuery; CMerge bs] in
    totalSquareOverlap S c' = total_square S (radius_of S lk) bs /\
    exists c2, flipDiffTotal S c' (Z.of_nat i) (Z.of_nat j) = Ok (c2, 0).
Proof. exact late_merge_flip. Qed.
Print Assumptions C28_merge_after_query_refuted.

(** C29: the sets are disjoint; they cover the sites with an overlapping bond and the sites of unmasked pairs; two
    sites are in one set iff a chain of overlapping bonds connects them; sets are ordered by their smallest site. *)
Theorem C29_neighborhoods_are_components : forall (S : ostru) (lk : string -> R) (c : ocalc) (ops : list ocall) (mask : nat -> nat -> bool),
  Forall (call_ok S) ops ->
  let c' := orun S lk (resetValue S lk c) ops in
  let bs := counted ops in
  let r := radius_of S lk in
  let N := neighborhoods S mask c' in
  (forall i j A B, nth_error N i = Some A -> nth_error N j = Some B -> forall x, In x A -> In x B -> i = j) /\
  (forall x, (exists A, In A N /\ In x A) <->
     (x < o_n S)%nat /\ ((exists y, linked r bs x y \/ linked r bs y x) \/ takes_part (o_n S) mask x)) /\
  (forall x y A, In A N -> In x A -> (In y A <-> connected r bs x y)) /\
  StronglySorted (fun A B => exists a, In a A /\ forall b, In b B -> (a < b)%nat) N.
Proof. exact (fun S lk c ops mask => neighborhoods_main S lk c ops mask). Qed.
Print Assumptions C29_neighborhoods_are_components.
(** C29: getNeighborSites(i) is the set of sites that overlap with i. *)
Theorem C29_neighbor_sites : forall (S : ostru) (lk : string -> R) (c : ocalc) (ops : list ocall), Forall (call_ok S) ops ->
  no_late_bonds false ops ->
  let c' := orun S lk (resetValue S lk c) ops in
  forall i j, In j (snd (getNeighborSites c' i)) <-> linked (radius_of S lk) (counted ops) i j.
Proof. exact neighbor_sites_main. Qed.
Print Assumptions C29_neighbor_sites.

(** C59: with full occupancies (q = 1) and unit multiplicities gradients() is the gradient of the total: along any
    direction u the derivative of the total, when site k and its images move, is the scalar product with entry k.
    When all occupancies are q the result lacks the factor q^2 (see C59_occupancy_refuted). *)
Theorem C59_gradient : forall (S : ostru) (lk : string -> R) (c : ocalc) (ops : list ocall) (q : R), Forall (call_ok S) ops ->
  (forall i, (i < o_n S)%nat -> o_occ S i = q /\ o_mult S i = 1%nat) ->
  let c' := orun S lk (resetValue S lk c) ops in
  let bs := counted ops in
  let r := radius_of S lk in
  (forall b, In b bs -> b_distance b = vnorm (b_r01 b) /\ 0 < b_distance b) ->
  Permutation (map arrow bs) (map flipped bs) ->
  length (gradients S c') = o_n S /\
  forall k u, (k < o_n S)%nat ->
    derivable_pt_lim (fun t => moved_total S r bs k (vscale t u)) 0 (q * q * vdot (nth k (gradients S c') vzero) u).
Proof. exact gradient_main. Qed.
Print Assumptions C59_gradient.

(** C60: coordinations. *)
Theorem C60_coordinations : forall (S : ostru) (lk : string -> R) (c : ocalc) (ops : list ocall), Forall (call_ok S) ops ->
  let c' := orun S lk (resetValue S lk c) ops in
  length (coordinations S c') = o_n S /\ forall i, nth i (coordinations S c') 0 = coordination S (radius_of S lk) (counted ops) i.
Proof. exact coordination_main. Qed.
Print Assumptions C60_coordinations.
Theorem C60_coordination_by_types_partial : forall (S : ostru) (lk : string -> R) (c : ocalc) (ops : list ocall), Forall (call_ok S) ops ->
  no_late_bonds false ops -> no_late_save false ops ->
  let c' := orun S lk (resetValue S lk c) ops in
  forall i tp, match tpget tp (snd (coordinationByTypes S c' i)) with
    | Some x => x = coordination_by S (radius_of S lk) (counted ops) i tp
    | None => coordination_by S (radius_of S lk) (counted ops) i tp = 0
    end.
Proof. exact by_types_main. Qed.
Print Assumptions C60_coordination_by_types_partial.
(** C60, defect: the neighbour cache is saved, the flag that it is filled is not. A calculator saved after a query and
    loaded reports every coordination by type doubled, in contradiction to coordinations(). *)
Theorem C60_by_types_after_load_refuted : exists S lk bs i tp,
  Forall (bond_ok S) bs /\ coordination_by S (radius_of S lk) bs i tp = 1 /\
  forall c, let c' := orun S lk (resetValue S lk c) [CMerge bs; CQuery; CReload] in
    nth i (coordinations S c') 0 = 1 /\ tpget tp (snd (coordinationByTypes S c' i)) = Some 2.
Proof. exact reload_coordination. Qed.
Print Assumptions C60_by_types_after_load_refuted.

(** C59, defect: occupancies are ignored; with all occupancies 1/2 the gradient of the total differs. *)
Theorem C59_occupancy_refuted : let S := abc (1/2) in let r := radius_of S rad in
  forall c, let c' := orun S rad (resetValue S rad c) [CMerge two] in
  ~ derivable_pt_lim (fun t => moved_total S r two 2 (vscale t (V3 1 0 0))) 0 (vdot (nth 2 (gradients S c') vzero) (V3 1 0 0)).
Proof. exact half_gradient. Qed.
Print Assumptions C59_occupancy_refuted.

(** The hypotheses are met by three atoms, one pair of which overlaps, and a calculator that is queried and saved. *)
Example C28_nonvacuous : let ops := [CAdd (xbond 0 2 (3/2)); CAdd (xbond 2 0 (- (3/2))); CQuery; CReload; CQuery] in
  Forall (call_ok (abc 1)) ops /\ no_late_bonds false ops /\ counted ops = two /\ balanced (abc 1) two /\
  Permutation (map arrow two) (map flipped two) /\ (forall b, In b two -> b_distance b = vnorm (b_r01 b) /\ 0 < b_distance b) /\
  total_square (abc 1) (radius_of (abc 1) rad) two = 1 / 4 /\ total_square (abc 1) (swap (radius_of (abc 1) rad) 0 1) two = 9 / 4.
Proof.
  cbv zeta. split; [repeat constructor|]. split; [cbn; auto|]. split; [reflexivity|]. split; [apply two_balanced|].
  split; [apply two_reversible|]. split; [apply two_dist|]. split; [apply total_two|apply total_two_swapped].
Qed.
Example C29_nonvacuous : linked (radius_of (abc 1) rad) two 0 2 /\ ~ (exists y, linked (radius_of (abc 1) rad) two 1 y).
Proof.
  split.
  - exists (xbond 0 2 (3/2)). split; [now left|]. split; [reflexivity|]. split; [reflexivity|].
    unfold overlap, xbond, radius_of, abc. cbn [b_site0 b_site1 b_distance o_type Nat.eqb]. rewrite rad_A, abs1, Rmax_right; lra.
  - intros (y & b & [<-|[<-|[]]] & E & _); discriminate.
Qed.
Example C60_nonvacuous : let ops := [CMerge two; CQuery] in
  Forall (call_ok (abc 1)) ops /\ no_late_bonds false ops /\ no_late_save false ops.
Proof. cbv zeta. split; [repeat constructor|]. cbn. auto. Qed.
