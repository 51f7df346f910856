(** Property C84: PairCounter counts each pair of atoms once. *)
From Coq Require Import String.
From Verif Require Import RBase R3 Trig Sphere Lattice LatticeSpec Crystal CrystalSpec StructDiff StructDiffSpec Evaluator EvaluatorSpec AList Masks MasksSpec
  BondGen BondGenSpec World WorldSpec WorldAtoms WorldTotal WorldProps PairCount PairCountSpec PairCountProofs.
Import ListNotations.
Open Scope R_scope.
Notation length := List.length.

(** C84: isolated and periodic structures, after any history of evaluations and settings, half or full sums: the number of
    pairs seen from both ends is even, and the value is exactly half of it, so that the conversion to int is exact. *)
Theorem C84_count : forall (objs : adp -> Prop) (sortf : list (catom * Z) -> list (catom * Z)),
  program objs -> (forall x, objs x -> ~ has_symmetry (env_of x)) -> sorts sortf ->
  forall (close : R -> R -> bool) (fixed : bool) (c : kcfg) (e : wstru objs) (t : evtype) (full : bool) (ops : list (op (wstru objs) kcfg)) (s : wstru objs),
  Forall safe_op ops ->
  let K := pair_calc objs sortf counter in
  let x := run K close (ops ++ [OpEval s])%list (init K c e t full fixed 0 1) in
  (exists P, neighbours counter (cf x) (wadp objs s) P) /\
  forall P, neighbours counter (cf x) (wadp objs s) P ->
  exists m, ordered_pairs (cf x) (wadp objs s) P = (2 * m)%nat /\ val x = INR m /\ int_of (val x) = Z.of_nat m.
Proof.
  intros objs sortf HO NS HS close fixed c e t full ops s Hs K x. split.
  { apply neighbours_exist. destruct s as [y Hy]. now apply (p_good _ HO). }
  intros P HN.
  destruct (ordered_even (cf x) (wadp objs s) ltac:(destruct s as [y Hy]; now apply NS) P HN) as [m Hm]. exists m. split; [exact Hm|].
  assert (val x = INR m) as ->; [|split; [reflexivity|apply int_of_nat]].
  unfold x, K. rewrite (C85_any_sum kcfg R counter Ropp counter_ok counter_reversible objs sortf HO NS HS close fixed c e t full ops s (or_intror counter_by_type) Hs P HN).
  rewrite sum_all_count. change (run (pair_calc objs sortf counter) close (ops ++ [OpEval s])%list (init (pair_calc objs sortf counter) c e t full fixed 0 1)) with x.
  rewrite Hm, mult_INR. cbn [INR]. lra.
Qed.
Print Assumptions C84_count.

(** C84: a group of isolated atoms (also a crystal without its symmetry): the number of pairs i < j that are not masked
    and whose distance is in the limits. *)
Theorem C84_isolated : forall (objs : adp -> Prop) (sortf : list (catom * Z) -> list (catom * Z)),
  program objs -> (forall x, objs x -> env_of x = Isolated) -> sorts sortf ->
  forall (close : R -> R -> bool) (fixed : bool) (c : kcfg) (e : wstru objs) (t : evtype) (full : bool) (ops : list (op (wstru objs) kcfg)) (s : wstru objs),
  Forall safe_op ops ->
  let K := pair_calc objs sortf counter in
  let x := run K close (ops ++ [OpEval s])%list (init K c e t full fixed 0 1) in
  int_of (val x) = Z.of_nat (length (filter (counts (cf x) (atoms_of (wadp objs s))) (pairs_below (length (atoms_of (wadp objs s)))))).
Proof.
  intros objs sortf HO HI HS close fixed c e t full ops s Hs K x.
  assert (NS : forall y, objs y -> ~ has_symmetry (env_of y)) by (intros y Hy; rewrite (HI y Hy); cbn; auto).
  destruct (C84_count objs sortf HO NS HS close fixed c e t full ops s Hs) as [[P HP] H]. fold K x in HP, H.
  destruct (H P HP) as (m & Hm & _ & ->). f_equal.
  assert (HIs : env_of (wadp objs s) = Isolated) by (destruct s as [y Hy]; now apply HI).
  rewrite (iso_ordered (cf x) (wadp objs s) HIs P HP) in Hm. lia.
Qed.
Print Assumptions C84_isolated.

(** C84: n atoms in different places, nothing masked, all distances in the limits: n (n - 1) / 2. *)
Theorem C84_all_pairs : forall (objs : adp -> Prop) (sortf : list (catom * Z) -> list (catom * Z)),
  program objs -> (forall x, objs x -> env_of x = Isolated) -> sorts sortf ->
  forall (close : R -> R -> bool) (fixed : bool) (c : kcfg) (e : wstru objs) (t : evtype) (full : bool) (ops : list (op (wstru objs) kcfg)) (s : wstru objs),
  Forall safe_op ops ->
  let K := pair_calc objs sortf counter in
  let x := run K close (ops ++ [OpEval s])%list (init K c e t full fixed 0 1) in
  let l := atoms_of (wadp objs s) in
  hasMask (k_pq (cf x)) = false ->
  (forall i j, (i < j < length l)%nat -> let d := vdist (c_xyz (nth i l catom0)) (c_xyz (nth j l catom0)) in
     / 67108864 < d /\ k_rmin (cf x) <= d <= k_rmax (cf x)) ->
  (2 * int_of (val x) = Z.of_nat (length l) * (Z.of_nat (length l) - 1))%Z.
Proof.
  intros objs sortf HO HI HS close fixed c e t full ops s Hs K x l HM HD. unfold x, K. rewrite (C84_isolated objs sortf HO HI HS close fixed c e t full ops s Hs).
  fold K x l. replace (filter (counts (cf x) l) (pairs_below (length l))) with (pairs_below (length l)).
  - pose proof (pairs_below_length (length l)). destruct (length l) as [|n] eqn:E; [reflexivity|]. nia.
  - symmetry. assert (HA : forall p, In p (pairs_below (length l)) -> counts (cf x) l p = true).
    { intros [i j] Hp. apply pairs_below_In in Hp. destruct (HD i j Hp) as (D1 & D2 & D3). unfold counts. cbn [fst snd].
      rewrite !andb_true_iff, Rltb_iff, !Rleb_iff. repeat split; auto. apply (qo_mask counter Ropp counter_ok (cf x) i (nth i l catom0) j (nth j l catom0) HM). }
    revert HA. generalize (pairs_below (length l)). intros q. induction q as [|p q IH]; intros HA; [reflexivity|]. cbn [filter]. rewrite HA by now left. f_equal. apply IH. intros; apply HA; now right.
Qed.
Print Assumptions C84_all_pairs.
(** C84: a new counter counts all pairs of a group of isolated atoms that are apart and within 1000 A. *)
Theorem C84_new_counter : forall (objs : adp -> Prop) (sortf : list (catom * Z) -> list (catom * Z)),
  program objs -> (forall x, objs x -> env_of x = Isolated) -> sorts sortf ->
  forall (close : R -> R -> bool) (fixed : bool) (e s : wstru objs),
  let K := pair_calc objs sortf counter in
  let l := atoms_of (wadp objs s) in
  (forall i j, (i < j < length l)%nat -> / 67108864 < vdist (c_xyz (nth i l catom0)) (c_xyz (nth j l catom0)) <= 1000) ->
  (2 * int_of (val (run K close [OpEval s] (init K counter0 e EvBasic false fixed 0 1))) = Z.of_nat (length l) * (Z.of_nat (length l) - 1))%Z.
Proof.
  intros objs sortf HO HI HS close fixed e s K l HD. pose proof (C84_all_pairs objs sortf HO HI HS close fixed counter0 e EvBasic false [] s (Forall_nil _)) as H. cbv zeta in H. apply H; [reflexivity|].
  intros i j Hij. change (cf _) with counter0. cbn [k_rmin k_rmax counter0]. specialize (HD i j Hij). fold l. cbv zeta. split; [apply HD|]. split; [apply Rlt_le; lra|apply HD].
Qed.
Print Assumptions C84_new_counter.

(** C84: the masks that count are those which getPairMask shows after setStructure. *)
Theorem C84_masks : forall (s : pq) (l : list catom) so to (i j : nat) (a b : catom),
  reach s -> Permutation (siteall s) so -> Permutation (tmask s) to -> no_conflict s l -> ~ In ALLATOMSSTR (map c_type l) ->
  nth_error l i = Some a -> nth_error l j = Some b ->
  getPairMask (setStructure s (map c_type l) so to) (Z.of_nat i) (Z.of_nat j) = shown_mask s i (c_type a) j (c_type b).
Proof. exact shown_mask_ok. Qed.
Print Assumptions C84_masks.

(** C84: three atoms make three pairs, one of them with the pair (0, 1) masked makes two; the default settings and a program. *)
Lemma dist_sq u v q : 0 <= q -> vdot (vsub u v) (vsub u v) = q * q -> vdist u v = q.
Proof. intros H E. unfold vdist, vnorm. rewrite E. now apply sqrt_square. Qed.
Example C84_nonvacuous :
  let big : wstru clusters := exist _ (Adp 1 (Atomic [carbon vzero; carbon (V3 1 0 0); carbon (V3 0 2 0)])) (or_intror eq_refl) in
  let small : wstru clusters := exist _ (Adp 0 (Atomic [carbon vzero; carbon (V3 1 0 0)])) (or_introl eq_refl) in
  let K := pair_calc clusters isort counter in
  int_of (val (run K (fun _ _ => true) [OpEval small; OpEval big] (init K counter0 small EvBasic false false 0 1))) = 3%Z /\
  (forall x, clusters x -> env_of x = Isolated) /\
  no_conflict (mstep pq0 (SetType "C" "all" false)) [carbon vzero].
Proof.
  cbv zeta. split; [|split].
  - assert (E : (2 * 3 = Z.of_nat 3 * (Z.of_nat 3 - 1))%Z) by reflexivity.
    assert (HI : forall x, clusters x -> env_of x = Isolated) by (intros x [-> | ->]; reflexivity).
    set (small := exist _ _ _ : wstru clusters). set (big := exist _ _ _ : wstru clusters).
    pose proof (C84_all_pairs clusters isort (proj1 (proj2 C85_nonvacuous)) HI isort_sorts (fun _ _ => true) false counter0 small EvBasic false [OpEval small] big) as H.
    cbv zeta in H. match type of H with Forall _ _ -> ?p -> _ => assert (M : p) by reflexivity end.
    specialize (H ltac:(repeat constructor) M). clear M.
    match type of H with ?p -> _ => assert (D : p) end.
    { change (cf _) with counter0. unfold wadp, big. cbn [proj1_sig atoms_of length]. cbn [counter0 k_rmin k_rmax]. intros i j Hij.
      assert (C : ((i = 0 /\ j = 1) \/ (i = 0 /\ j = 2) \/ (i = 1 /\ j = 2))%nat) by lia.
      destruct C as [[-> ->]|[[-> ->]|[-> ->]]]; cbn [nth carbon c_xyz]; unfold vzero.
      - rewrite (dist_sq _ _ 1); [lra|lra|]. unfold vdot, vsub; cbn [vx vy vz]; lra.
      - rewrite (dist_sq _ _ 2); [lra|lra|]. unfold vdot, vsub; cbn [vx vy vz]; lra.
      - rewrite (dist_sq _ _ (sqrt 5)); [|apply sqrt_pos|rewrite sqrt_sqrt by lra; unfold vdot, vsub; cbn [vx vy vz]; lra].
        assert (1 < sqrt 5) by (rewrite <- sqrt_1; apply sqrt_lt_1; lra). assert (sqrt 5 < 5) by (rewrite <- (sqrt_square 5) at 2 by lra; apply sqrt_lt_1; lra). lra. }
    specialize (H D). clear D. change (length (atoms_of (wadp clusters big))) with 3%nat in H. cbn [app] in H.
    revert H. generalize (int_of (val (run (pair_calc clusters isort counter) (fun _ _ => true) [OpEval small; OpEval big] (init (pair_calc clusters isort counter) counter0 small EvBasic false false 0 1)))).
    intros z H. change (Z.of_nat 3) with 3%Z in H. lia.
  - intros x [-> | ->]; reflexivity.
  - split; [intros i j m m' []|]. intros a b _ _ (m & H1 & H2 & H3). vm_compute in H2. cbn in H2. destruct H2 as [H2|[]], H3 as [H3|[]].
    injection H2 as H2 H2'. injection H3 as H3 H3'. rewrite <- H2' in H3'. discriminate.
Qed.
