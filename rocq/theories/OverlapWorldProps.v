(** Property C91: OverlapCalculator on structures. [overlap_merged .. N order] is the calculator after N workers evaluated the
    structure x and reported in the given order, whatever was calculated before; [asked q]: after queries or before any. *)
From Coq Require Import String Relations Sorting.Sorted.
From Verif Require Import RBase R3 Sums Lattice Crystal CrystalExample StructDiff StructDiffSpec Evaluator BondGen BondGenSpec World WorldSpec OrbitSpec OrbitExample Visited VisitedSpec VisitedProps Shares SiteSums
  BvsWorldExample Overlap OverlapSpec OverlapProofs OverlapFlip OverlapNbh OverlapWorld OverlapWorldSpec OverlapWorldProofs OverlapWorldGrad OverlapWorldSym.
Import ListNotations.
Open Scope R_scope.
Notation length := List.length.

(** A serial evaluation is one worker with the whole work. *)
Theorem C91_serial outer lk rmin rmax masked mask x c ws : overlap_on outer lk rmin rmax masked mask x c 0 1 = overlap_merged outer lk rmin rmax masked mask x c ws 1 [0%nat].
Proof.
  unfold overlap_merged. cbn [fold_left]. rewrite (on_value outer lk rmin rmax masked mask x c 1 (ws O) 0). unfold overlap_on. rewrite fold_add. reflexivity.
Qed.
Print Assumptions C91_serial.
(** The values of atom i are sums over its neighbours within the user's limits [rmin], [rmax], also in crystals with symmetry
    operations: number of overlapping neighbours, also by type, and squared overlaps. The total is that of the whole cell. *)
Theorem C91_values outer lk rmin rmax masked mask x c ws N order q P : good_env (env_of x) -> (masked = false -> forall i j, mask i j = true) ->
  (1 <= N)%nat -> Permutation order (seq 0 N) -> neighbours_in rmin rmax x P ->
  let c' := asked q (overlap_merged outer lk rmin rmax masked mask x c ws N order) in
  let S := overlap_view x in
  let r := table_radius lk x in
  length (coordinations S c') = length (atoms_of x) /\ length (siteSquareOverlaps S c') = length (atoms_of x) /\
  (forall i, (i < length (atoms_of x))%nat ->
    nth i (coordinations S c') 0 = coordination_number x r mask P i /\
    (forall tp, match tpget tp (snd (coordinationByTypes S c' i)) with Some v => v | None => 0 end = coordination_type x r mask P tp i) /\
    nth i (siteSquareOverlaps S c') 0 = square_at x r mask P i) /\
  totalSquareOverlap S c' = square_cell x r mask P /\ meanSquareOverlap S c' = square_mean x r mask P.
Proof.
  intros GE HM H1 HO HN c' S r. subst c' S. rewrite merged_run. set (S := overlap_view x) in *.
  pose proof (ops_ok outer lk rmin rmax masked mask x c N order q GE H1 HO) as OK. destruct (no_late outer lk rmin rmax masked mask x c N order q) as [L1 L2].
  destruct (coordination_main S lk c _ OK) as [C1 C2]. destruct (totals_main S lk c _ OK) as (T1 & T2 & T3 & T4).
  split; [exact C1|]. split; [exact T1|]. split; [|split].
  - intros i Hi. split; [|split].
    + rewrite C2. apply coordination_spec; assumption.
    + intros tp. pose proof (by_types_main S lk c _ OK L1 L2 i tp) as B. pose proof (by_type_spec outer lk rmin rmax masked mask x c N order q GE HM H1 HO P HN tp i Hi) as E.
      destruct (tpget tp _); [rewrite B|rewrite <- B]; exact E.
    + rewrite T2. apply square_spec; assumption.
  - rewrite T3. apply total_spec; try assumption. apply radii_small.
  - rewrite T4. unfold square_mean. rewrite <- (occ_cell x). fold S. rewrite <- (total_spec outer lk rmin rmax masked mask x c N order q GE HM H1 HO P HN r (radii_small lk x c)). reflexivity.
Qed.
Print Assumptions C91_values.
(** flipDiffTotal(i, j) and flipDiffMean(i, j) are the changes of total and mean when atoms i and j, each with all its
    equivalents, exchange their radii: in molecules, crystals, and crystals with a space group. *)
Theorem C91_exchange outer lk rmin rmax masked mask x c ws N order q P i j : good_env (env_of x) -> orderly false x -> good_mask masked mask ->
  (1 <= N)%nat -> Permutation order (seq 0 N) -> neighbours_in rmin rmax x P -> (i < length (atoms_of x))%nat -> (j < length (atoms_of x))%nat ->
  let c' := asked q (overlap_merged outer lk rmin rmax masked mask x c ws N order) in
  let S := overlap_view x in
  let r := table_radius lk x in
  exists c1 c2, flipDiffTotal S c' (Z.of_nat i) (Z.of_nat j) = Ok (c1, square_cell x (exchanged r i j) mask P - square_cell x r mask P) /\
    flipDiffMean S c' (Z.of_nat i) (Z.of_nat j) = Ok (c2, square_mean x (exchanged r i j) mask P - square_mean x r mask P).
Proof.
  intros GE OR [MS HM] H1 HO HN Hi Hj c' S r. subst c' S. rewrite merged_run. set (S := overlap_view x) in *.
  pose proof (ops_ok outer lk rmin rmax masked mask x c N order q GE H1 HO) as OK. destruct (no_late outer lk rmin rmax masked mask x c N order q) as [L1 _].
  pose proof (counted_balanced outer lk rmin rmax masked mask x c ws N order q GE HM H1 HO P HN OR MS) as B.
  destruct (flip_main S lk c _ OK L1 i j Hi Hj B) as (c1 & E1).
  set (s := swap (radius_of S lk) i j) in *. assert (ET : total_square S s (counted (ops outer lk rmin rmax masked mask x c N order q)) = square_cell x (exchanged r i j) mask P).
  { apply total_spec; try assumption. now apply exchanged_small. }
  assert (ER : total_square S (radius_of S lk) (counted (ops outer lk rmin rmax masked mask x c N order q)) = square_cell x r mask P).
  { apply total_spec; try assumption. apply radii_small. }
  rewrite ET, ER in E1. exists c1. unfold flipDiffMean. rewrite E1, occ_raw. unfold square_mean. rewrite <- (occ_cell x). fold S.
  destruct (Rltb 0 (total_occupancy S)) eqn:E.
  - exists c1. split; [reflexivity|]. do 2 f_equal. apply Rltb_true in E. field. lra.
  - eexists. split; [reflexivity|]. do 2 f_equal. ring.
Qed.
Print Assumptions C91_exchange.
(** getNeighborSites(i) are the atoms with an image that overlaps with atom i; neighborhoods() are the sets of atoms that are
    connected by chains of overlaps, and single atoms of pairs that are not masked out. *)
Theorem C91_neighborhoods outer lk rmin rmax masked mask x c ws N order q P : good_env (env_of x) -> (masked = false -> forall i j, mask i j = true) ->
  (1 <= N)%nat -> Permutation order (seq 0 N) -> neighbours_in rmin rmax x P ->
  let c' := asked q (overlap_merged outer lk rmin rmax masked mask x c ws N order) in
  let S := overlap_view x in
  let r := table_radius lk x in
  let n := length (atoms_of x) in
  let link i j := (i < n)%nat /\ (j < n)%nat /\ overlaps_with x r mask P i j in
  (forall i j, (i < n)%nat -> In j (snd (getNeighborSites c' i)) <-> (j < n)%nat /\ overlaps_with x r mask P i j) /\
  let G := neighborhoods S mask c' in
  (forall i j A B, nth_error G i = Some A -> nth_error G j = Some B -> forall k, In k A -> In k B -> i = j) /\
  (forall k, (exists A, In A G /\ In k A) <-> (k < n)%nat /\ ((exists j, link k j \/ link j k) \/ takes_part n mask k)) /\
  (forall k j A, In A G -> In k A -> (In j A <-> chained x r mask P k j)) /\
  StronglySorted (fun A B => exists a, In a A /\ forall b, In b B -> (a < b)%nat) G.
Proof.
  intros GE HM H1 HO HN c' S r n link. subst c' S. rewrite merged_run. set (S := overlap_view x) in *.
  pose proof (ops_ok outer lk rmin rmax masked mask x c N order q GE H1 HO) as OK. destruct (no_late outer lk rmin rmax masked mask x c N order q) as [L1 _].
  assert (LK : forall i j, linked (radius_of S lk) (counted (ops outer lk rmin rmax masked mask x c N order q)) i j <-> link i j).
  { intros i j. split.
    - intros H. assert (Hi : (i < n)%nat).
      { destruct H as (b & Hb & E & _). pose proof (counted_ok outer lk rmin rmax masked mask x c N order q GE H1 HO) as CO. rewrite Forall_forall in CO. destruct (CO b Hb) as [A _]. rewrite E in A. exact A. }
      apply (linked_spec outer lk rmin rmax masked mask x c N order q GE HM H1 HO P HN i j Hi) in H. destruct H. now split.
    - intros (Hi & Hj & H). apply (linked_spec outer lk rmin rmax masked mask x c N order q GE HM H1 HO P HN i j Hi). now split. }
  split; [|cbv zeta; destruct (neighborhoods_main S lk c _ mask OK) as (A1 & A2 & A3 & A4); split; [exact A1|split; [|split; [|exact A4]]]].
  - intros i j Hi. rewrite (neighbor_sites_main S lk c _ OK L1 i j), LK. unfold link. tauto.
  - intros k. rewrite A2. change (o_n S) with n. split; intros [Hk [(y & Hy)|H]]; (split; [exact Hk|]); [left|now right|left|now right]; exists y; rewrite !LK in *; exact Hy.
  - intros k j A HA Hk. rewrite (A3 k j A HA Hk). unfold connected, chained. fold n. clear - LK. revert k j.
    assert (G : forall (R1 R2 : nat -> nat -> Prop), (forall a b, R1 a b -> R2 a b) -> forall a b, clos_refl_sym_trans nat R1 a b -> clos_refl_sym_trans nat R2 a b).
    { intros R1 R2 HR a b H. induction H; [apply rst_step; auto|apply rst_refl|now apply rst_sym|eapply rst_trans; eauto]. }
    intros k j. split; apply G; intros a b H; now apply LK.
Qed.
Print Assumptions C91_neighborhoods.
(** Overlaps look the same from both ends: as many atoms are at one end as at the other. *)
Theorem C91_both_ends x mask r rmin rmax P i j : good_env (env_of x) -> orderly false x -> neighbours_in rmin rmax x P -> (forall i j, mask i j = mask j i) ->
  (i < length (atoms_of x))%nat -> (j < length (atoms_of x))%nat ->
  let m i := INR (multiplicity (env_of x) (atom_at x i)) in
  m i * over_images x P (touch r i j) i j = m j * over_images x P (touch r j i) j i /\ (overlaps_with x r mask P i j <-> overlaps_with x r mask P j i).
Proof.
  intros GE OR HN MS Hi Hj m.
  assert (B : forall i j, (i < length (atoms_of x))%nat -> (j < length (atoms_of x))%nat -> m i * over_images x P (touch r i j) i j = m j * over_images x P (touch r j i) j i).
  { intros a b Ha Hb. rewrite !over_dist. rewrite (sumf_ext (fun y => touch r b a (b_distance (the_bond x b a y))) (fun y => touch r a b (b_distance (the_bond x b a y)))) by (intros y _; unfold touch; now rewrite Rplus_comm).
    exact (both_ways x GE OR rmin rmax P HN (touch r a b) a b Ha Hb). }
  split; [now apply B|].
  assert (Q : forall a b, (a < length (atoms_of x))%nat -> (b < length (atoms_of x))%nat -> overlaps_with x r mask P a b -> overlaps_with x r mask P b a).
  { intros a b Ha Hb [Em (y & Hy & Hd)]. split; [now rewrite MS|]. specialize (B a b Ha Hb). rewrite !over_dist in B. pose proof (the_dist x) as D.
    assert (Hd' : b_distance (the_bond x a b y) < r a + r b) by (rewrite <- D; destruct (createBondGenerator x); exact Hd).
    assert (T0 : forall i j d, 0 <= touch r i j d) by (intros; unfold touch; destruct (Rltb _ _); lra).
    assert (LP : 0 < sumf (fun y => touch r a b (b_distance (the_bond x a b y))) (P a b)).
    { apply in_split in Hy as (l1 & l2 & ->). rewrite sumf_app, sumf_cons. unfold touch at 2. rewrite (proj2 (Rltb_true _ _) Hd').
      pose proof (BvsMain.sumf_nonneg (fun y => touch r a b (b_distance (the_bond x a b y))) l1 ltac:(intros; apply T0)). pose proof (BvsMain.sumf_nonneg (fun y => touch r a b (b_distance (the_bond x a b y))) l2 ltac:(intros; apply T0)). lra. }
    assert (MP : forall k, 0 < m k). { intros k. unfold m. apply lt_0_INR. pose proof (VisitedMain.mult_pos (env_of x) (atom_at x k) GE). lia. }
    assert (RP : sumf (fun y => touch r b a (b_distance (the_bond x b a y))) (P b a) <> 0).
    { intros E. rewrite E, Rmult_0_r in B. pose proof (Rmult_lt_0_compat _ _ (MP a) LP). lra. }
    assert (EX : exists z, In z (P b a) /\ b_distance (the_bond x b a z) < r b + r a).
    { clear - RP. induction (P b a) as [|z l IH]; [now destruct RP|]. rewrite sumf_cons in RP. destruct (Rltb (b_distance (the_bond x b a z)) (r b + r a)) eqn:E.
      - exists z. split; [now left|now apply Rltb_true].
      - unfold touch at 1 in RP. rewrite E, Rplus_0_l in RP. destruct (IH RP) as (w & Hw & Q). exists w. split; [now right|exact Q]. }
    destruct EX as (z & Hz & Q). exists z. split; [exact Hz|]. rewrite <- D in Q. destruct (createBondGenerator x); exact Q. }
  split; now apply Q.
Qed.
Print Assumptions C91_both_ends.
(** The number of workers, the order of their reports, earlier calculations and queries make no difference. *)
Theorem C91_workers lk rmin rmax masked mask x outer c ws N order q outer' c1 ws' N' order' q' : good_env (env_of x) -> (masked = false -> forall i j, mask i j = true) ->
  (1 <= N)%nat -> Permutation order (seq 0 N) -> (1 <= N')%nat -> Permutation order' (seq 0 N') ->
  let a := asked q (overlap_merged outer lk rmin rmax masked mask x c ws N order) in
  let b := asked q' (overlap_merged outer' lk rmin rmax masked mask x c1 ws' N' order') in
  let S := overlap_view x in
  coordinations S a = coordinations S b /\ siteSquareOverlaps S a = siteSquareOverlaps S b /\
  totalSquareOverlap S a = totalSquareOverlap S b /\ meanSquareOverlap S a = meanSquareOverlap S b.
Proof.
  intros GE HM H1 HO H1' HO' a b S. destruct (C87_neighbours rmin rmax x GE) as [P HN].
  destruct (C91_values outer lk rmin rmax masked mask x c ws N order q P GE HM H1 HO HN) as (A1 & A2 & A3 & A4 & A5).
  destruct (C91_values outer' lk rmin rmax masked mask x c1 ws' N' order' q' P GE HM H1' HO' HN) as (B1 & B2 & B3 & B4 & B5).
  fold a S in A1, A2, A3, A4, A5. fold b S in B1, B2, B3, B4, B5. split; [|split; [|split; congruence]].
  - apply (nth_ext _ _ 0 0); [congruence|]. intros i Hi. rewrite A1 in Hi. destruct (A3 i Hi) as (-> & _). destruct (B3 i Hi) as (-> & _). reflexivity.
  - apply (nth_ext _ _ 0 0); [congruence|]. intros i Hi. rewrite A2 in Hi. destruct (A3 i Hi) as (_ & _ & ->). destruct (B3 i Hi) as (_ & _ & ->). reflexivity.
Qed.
Print Assumptions C91_workers.
(** Without symmetry operations and with equal occupancies o, o^2 times gradients() is the gradient of the total of the cell. *)
Theorem C91_gradient_partial outer lk rmin rmax masked mask x c ws N order q P o : good_env (env_of x) -> ~ has_symmetry (env_of x) -> good_mask masked mask ->
  (1 <= N)%nat -> Permutation order (seq 0 N) -> neighbours_in rmin rmax x P -> (forall i, (i < length (atoms_of x))%nat -> c_occ (atom_at x i) = o) ->
  let c' := asked q (overlap_merged outer lk rmin rmax masked mask x c ws N order) in
  length (gradients (overlap_view x) c') = length (atoms_of x) /\
  forall k u, (k < length (atoms_of x))%nat ->
    derivable_pt_lim (fun t => moved_cell x (table_radius lk x) mask P k (vscale t u)) 0 (o * o * vdot (nth k (gradients (overlap_view x) c') vzero) u).
Proof.
  intros GE NS [MS HM] H1 HO HN HQ. exact (gradient_world outer lk rmin rmax masked mask x c ws N order q GE HM H1 HO P HN NS MS o HQ).
Qed.
Print Assumptions C91_gradient_partial.
(** What gradients() returns in any structure: for atom k the sum of -2 overlap/distance * direction over the overlaps of
    all atoms with the images of k, in the direction to the image. *)
Theorem C91_gradient_sum outer lk rmin rmax masked mask x c ws N order q P : good_env (env_of x) -> (masked = false -> forall i j, mask i j = true) ->
  (1 <= N)%nat -> Permutation order (seq 0 N) -> neighbours_in rmin rmax x P ->
  let G := gradients (overlap_view x) (asked q (overlap_merged outer lk rmin rmax masked mask x c ws N order)) in
  let r := table_radius lk x in
  let (cls, M) := createBondGenerator x in
  length G = length (atoms_of x) /\
  forall k u, (k < length (atoms_of x))%nat ->
    vdot (nth k G vzero) u = sumf (fun i => if mask i k then sumf (fun y =>
      let d := image_distance cls M i [k] y in -2 * (Rmax 0 (r i + r k - d) / d) * vdot (b_r01 (bond_at cls M i [k] y)) u) (P i k) else 0) (seq 0 (length (atoms_of x))).
Proof.
  intros GE HM H1 HO HN G r. pose proof (gradient_length outer lk rmin rmax masked mask x c ws N order q GE HM H1 HO P HN) as L. fold G in L.
  pose proof (fun k u H => gradient_sum outer lk rmin rmax masked mask x c ws N order q GE HM H1 HO P HN k u H) as S. fold G r in S. unfold the_bond in S.
  pose proof (fun i j y => the_dist x i j y) as D. unfold the_bond in D. destruct (createBondGenerator x) as [cls M]. cbn [fst snd] in *.
  split; [exact L|]. intros k u Hk. rewrite (S k u Hk). apply sumf_ext. intros i _. destruct (mask i k); [|reflexivity]. apply sumf_ext. intros y _. cbv zeta. now rewrite D.
Qed.
Print Assumptions C91_gradient_sum.
(** In a crystal with symmetry operations this is not the gradient of the total, also when all occupancies are 1. The crystal [ionic a] has the
    operations 1 and -1, a cation at the origin and an anion at (a, 0, 0) with its equivalent at (-a, 0, 0). When the anion is
    at 1/4 the calculator says that the gradient for it is zero; but the calculator's total changes with a. *)
Theorem C91_symmetry_gradient_refuted :
  (forall a, 3 / 16 < a < 5 / 16 -> good_env (env_of (ionic a)) /\ orderly false (ionic a) /\ atoms_of (ionic a) = [cation0; anion_at a]) /\
  forall outer c ws N order q, (1 <= N)%nat -> Permutation order (seq 0 N) ->
  let run a := asked q (overlap_merged outer ion_radii (1 / 16) (3 / 8) false (fun _ _ => true) (ionic a) c ws N order) in
  nth 1 (gradients (overlap_view (ionic (1 / 4))) (run (1 / 4))) vzero = vzero /\
  derivable_pt_lim (fun a => totalSquareOverlap (overlap_view (ionic a)) (run a)) (1 / 4) (- (1 / 2)).
Proof.
  split; [intros a HA; split; [apply ionic_good|split; [now apply ionic_orderly|reflexivity]]|].
  intros outer c ws N order q H1 HO run. split.
  - destruct (C87_neighbours (1 / 16) (3 / 8) (ionic (1 / 4)) (ionic_good _)) as [P HN]. apply (ionic_gradient (1 / 4) outer c ws N order q ltac:(lra) H1 HO P HN).
  - apply (deriv_near _ (fun a => 2 * (3 / 8 - a)²) (1 / 4) _ (1 / 16)); [lra| |].
    + intros a HA. destruct (C87_neighbours (1 / 16) (3 / 8) (ionic a) (ionic_good _)) as [P HN].
      destruct (C91_values outer ion_radii (1 / 16) (3 / 8) false (fun _ _ => true) (ionic a) c ws N order q P (ionic_good a) ltac:(reflexivity) H1 HO HN) as (_ & _ & _ & E & _).
      unfold run. rewrite E. apply ionic_total; [lra|exact HN].
    + apply (OverlapGrad.deriv_eq _ _ _ (2 * (2 * (3 / 8 - 1 / 4) * -1))); [lra|].
      apply (derivable_pt_lim_scal (fun a => (3 / 8 - a)²)). apply (derivable_pt_lim_comp (fun a => 3 / 8 - a) Rsqr).
      * replace (-1) with (0 - 1) by ring. apply derivable_pt_lim_minus; [apply derivable_pt_lim_const|apply derivable_pt_lim_id].
      * apply derivable_pt_lim_Rsqr.
Qed.
Print Assumptions C91_symmetry_gradient_refuted.

(** The hypotheses are met by a crystal of a cation and several equivalent anions, which overlap. *)
Definition salt_radii (t : string) : R := if string_dec t "Na+" then 1 / 8 else 1 / 4.
Example C91_nonvacuous : exists P, neighbours_in 0 100 salt P /\ good_env (env_of salt) /\ orderly false salt /\ good_mask false (fun _ _ => true) /\
  let r := table_radius salt_radii salt in
  r 0%nat <> r 1%nat /\ overlaps_with salt r (fun _ _ => true) P 0 1 /\ (2 <= multiplicity (env_of salt) (atom_at salt 1))%nat /\
  0 < coordination_number salt r (fun _ _ => true) P 0.
Proof.
  destruct (C87_neighbours 0 100 salt salt_good) as [P HN]. exists P. split; [exact HN|]. split; [exact salt_good|]. split; [exact salt_orderly|]. split; [split; reflexivity|]. cbv zeta.
  assert (R0 : table_radius salt_radii salt 0 = 1 / 8) by reflexivity. assert (R1 : table_radius salt_radii salt 1 = 1 / 4) by reflexivity.
  split; [rewrite R0, R1; lra|]. destruct (salt_image 0 100 P ltac:(lra) HN) as (y & Hy & HD).
  split; [|split; [exact anion_more|]].
  - split; [reflexivity|]. exists y. split; [exact Hy|]. destruct (createBondGenerator salt) as [cls M]. cbn [fst snd] in HD. rewrite HD, R0, R1. lra.
  - unfold coordination_number. change (length (atoms_of salt)) with 2%nat. cbn [seq]. rewrite !sumf_cons, sumf_nil. change (c_occ (atom_at salt 0)) with 1. change (c_occ (atom_at salt 1)) with 1.
    assert (T0 : forall i j, 0 <= over_images salt P (touch (table_radius salt_radii salt) i j) i j) by (intros; rewrite over_dist; apply BvsMain.sumf_nonneg; intros; unfold touch; destruct (Rltb _ _); lra).
    assert (T1 : 0 < over_images salt P (touch (table_radius salt_radii salt) 0 1) 0 1).
    { rewrite over_dist. rewrite the_dist in HD. apply in_split in Hy as (l1 & l2 & ->). rewrite sumf_app, sumf_cons. unfold touch at 2. rewrite HD, R0, R1, (proj2 (Rltb_true _ _)) by lra.
      match goal with |- 0 < sumf ?f ?l + (1 + sumf ?f ?m) => pose proof (BvsMain.sumf_nonneg f l) as U; pose proof (BvsMain.sumf_nonneg f m) as V end.
      assert (W : forall d, 0 <= touch (table_radius salt_radii salt) 0 1 d) by (intros; unfold touch; destruct (Rltb _ _); lra).
      specialize (U ltac:(intros; apply W)). specialize (V ltac:(intros; apply W)). lra. }
    pose proof (T0 0%nat 0%nat). lra.
Qed.
