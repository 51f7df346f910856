(** Proofs about PairCounter. *)
From Coq Require Import String.
From Verif Require Import RBase R3 Trig TrigProofs Sphere SphereSpec SphereProofs Lattice LatticeSpec LatticeProofs Crystal CrystalSpec
  StructDiff StructDiffSpec StructDiffProofs Evaluator EvaluatorSpec EvaluatorProofs EvaluatorRun EvaluatorMore AList Masks MasksSpec MasksProofs
  BondGen BondGenSpec BondGenProofs BondGenMain OverlapGen World WorldSpec WorldAtoms WorldProofs WorldMain WorldFlip WorldTotal PairCount PairCountSpec.
Import ListNotations.
Open Scope R_scope.
Notation length := List.length.

(** ** the counter is a pair quantity *)
Lemma shown_mask_sym s i a j b : shown_mask s i a j b = shown_mask s j b i a.
Proof. unfold shown_mask. now rewrite (ssort2_comm a b), (sort2_comm (Z.of_nat i)). Qed.
Lemma counter_ok : quantity_ok counter Ropp.
Proof.
  split; cbn [counter q_zero q_add q_contrib q_hasmask q_mask]; intros; try lra.
  - rewrite opp_IZR. lra.
  - destruct (hasMask_false _ H) as (H1 & H2 & H3 & H4). unfold shown_mask, hasTypeMask. rewrite H4. cbn [is_nil negb]. unfold site_mask. rewrite H3. cbn [afind].
    unfold getPairMask. now rewrite H2, H1.
Qed.
Lemma counter_reversible : reversible counter.
Proof. split; cbn [counter q_zero q_add q_contrib q_hasmask q_mask]; intros; try lra. apply shown_mask_sym. Qed.
Lemma counter_by_type : mask_by_type counter.
Proof.
  intros c i a j b i' j'. cbn [counter q_haspairmask q_mask]. unfold hasPairMask, shown_mask. destruct (hasTypeMask (k_pq c)) eqn:E; [reflexivity|].
  rewrite andb_true_r. intros H. destruct (hasMask_false _ H) as (H1 & H2 & H3 & H4). unfold site_mask. rewrite H3. cbn [afind].
  unfold getPairMask. now rewrite H2, H1.
Qed.

(** ** sums *)
Lemma lsum_cons a l : list_sum (a :: l) = (a + list_sum l)%nat. Proof. reflexivity. Qed.
Lemma lsum_one a : list_sum [a] = a. Proof. cbn. lia. Qed.
Lemma list_sum_add {X} (f g : X -> nat) l : list_sum (map (fun x => f x + g x)%nat l) = (list_sum (map f l) + list_sum (map g l))%nat.
Proof. induction l as [|x l IH]; [reflexivity|]. cbn [map]. rewrite !lsum_cons, IH. lia. Qed.
Lemma double_sum (f : nat -> nat -> nat) : (forall i j, f i j = f j i) -> forall n,
  list_sum (map (fun i => list_sum (map (f i) (seq 0 n))) (seq 0 n)) =
  (2 * list_sum (map (fun j => list_sum (map (fun i => f i j) (seq 0 j))) (seq 0 n)) + list_sum (map (fun i => f i i) (seq 0 n)))%nat.
Proof.
  intros HF. induction n as [|n IH]; [reflexivity|].
  rewrite seq_S, !map_app, !list_sum_app. cbn [map Nat.add]. rewrite !lsum_one, !map_app, !list_sum_app. cbn [map]. rewrite lsum_one.
  rewrite (map_ext (fun i => list_sum (map (f i) (seq 0 n ++ [n]))) (fun i => list_sum (map (f i) (seq 0 n)) + f i n)%nat).
  2:{ intros i. rewrite map_app, list_sum_app. cbn [map]. now rewrite lsum_one. }
  rewrite list_sum_add, IH. rewrite (map_ext (f n) (fun i => f i n)) by auto. lia.
Qed.
Lemma pair_sum_count c x P i j : pair_sum counter c x P 1 i j =
  INR (if shown_mask (k_pq c) i (c_type (atom_at x i)) j (c_type (atom_at x j)) then length (P i j) else 0%nat) / 2.
Proof.
  unfold pair_sum. destruct (createBondGenerator x) as [cls M]. cbn [counter q_mask q_zero]. destruct (shown_mask _ _ _ _ _); [|cbn; lra].
  generalize (P i j). intros v. cbn [counter q_contrib]. induction v as [|y v IH]; [cbn; lra|].
  cbn [map]. unfold qsum in *. cbn [fold_right]. rewrite IH. cbn [counter q_add length]. rewrite S_INR. lra.
Qed.
Lemma sum_all_count c x P : sum_all counter c x P = INR (ordered_pairs c x P) / 2.
Proof.
  unfold sum_all, ordered_pairs. set (n := length (atoms_of x)).
  assert (G : forall (f : nat -> R) (g : nat -> nat) l, (forall i, f i = INR (g i) / 2) -> qsum counter (map f l) = INR (list_sum (map g l)) / 2).
  { intros f g l H. induction l as [|i l IH]; [cbn; lra|]. cbn [map]. unfold qsum in *. cbn [fold_right]. rewrite IH, H. change (list_sum (g i :: map g l)) with (g i + list_sum (map g l))%nat.
    rewrite plus_INR. cbn [counter q_add]. lra. }
  apply (G _ (fun i => list_sum (map (fun j => if shown_mask (k_pq c) i (c_type (atom_at x i)) j (c_type (atom_at x j)) then length (P i j) else 0%nat) (seq 0 n)))).
  intros i. apply (G _ (fun j => if shown_mask (k_pq c) i (c_type (atom_at x i)) j (c_type (atom_at x j)) then length (P i j) else 0%nat)). intros j. apply pair_sum_count.
Qed.

(** ** pairs are counted from both ends *)
Lemma even_involution {X} (eqd : forall x y : X, {x = y} + {x <> y}) (f : X -> X) : (forall x, f (f x) = x) -> forall n l, (length l <= n)%nat -> NoDup l ->
  (forall x, In x l -> In (f x) l /\ f x <> x) -> exists m, length l = (2 * m)%nat.
Proof.
  intros FF. induction n as [|n IH]; intros l Hn ND H; [exists O; lia|].
  destruct l as [|x l]; [exists O; reflexivity|]. destruct (H x (or_introl eq_refl)) as [[E|HI] NE]; [congruence|].
  inversion ND as [|? ? Nx ND']; subst.
  destruct (in_split _ _ HI) as (l1 & l2 & ->). pose proof (NoDup_remove_1 _ _ _ ND') as ND2. pose proof (NoDup_remove_2 _ _ _ ND') as NI.
  destruct (IH (l1 ++ l2)%list) as [m Hm].
  - cbn in Hn. rewrite app_length in *. cbn in Hn. lia.
  - exact ND2.
  - intros y Hy. assert (Hy' : In y (x :: l1 ++ f x :: l2)%list) by (right; rewrite in_app_iff in *; cbn; tauto).
    destruct (H y Hy') as [HF NF]. split; auto. assert (f y <> x) by (intros E; apply NI; now rewrite <- E, FF).
    assert (f y <> f x). { intros E. apply (f_equal f) in E. rewrite !FF in E. subst y. apply Nx. rewrite in_app_iff in *. cbn. tauto. }
    destruct HF as [HF|HF]; [congruence|]. rewrite in_app_iff in *. cbn in HF. destruct HF as [HF|[HF|HF]]; auto; congruence.
  - exists (Datatypes.S m). cbn [length]. rewrite app_length in *. cbn [length]. lia.
Qed.
Lemma image_eqd (x y : image) : {x = y} + {x <> y}.
Proof. repeat decide equality. Qed.
Section Ends.
  Context (c : kcfg) (x : adp) (NS : ~ has_symmetry (env_of x)) (P : nat -> nat -> list image) (HN : neighbours counter c x P).
  Let n := length (atoms_of x).
  Lemma at_some i : (i < n)%nat -> nth_error (atoms_of x) i = Some (atom_at x i).
  Proof. intros H. now apply nth_error_nth'. Qed.
  Lemma exact_P i j : (i < n)%nat -> (j < n)%nat -> exact_images (fst (gview (env_of x) (atoms_of x))) (snd (gview (env_of x) (atoms_of x))) (k_rmin c) (k_rmax c) i [j] (P i j).
  Proof. intros Hi Hj. unfold neighbours in HN. rewrite create_view in HN. destruct (gview (env_of x) (atoms_of x)) as [cls M]. exact (HN i j Hi Hj). Qed.
  Lemma same_length i j : (i < n)%nat -> (j < n)%nat -> length (P i j) = length (P j i).
  Proof.
    intros Hi Hj. pose proof (turn_perm (env_of x) (atoms_of x) i j _ _ _ _ _ _ NS (at_some i Hi) (at_some j Hj) (exact_P i j Hi Hj) (exact_P j i Hj Hi)) as H.
    apply Permutation_length in H. now rewrite map_length in H.
  Qed.
  Lemma even_diag i : (i < n)%nat -> exists m, length (P i i) = (2 * m)%nat.
  Proof.
    intros Hi. pose proof (exact_P i i Hi Hi) as HE.
    pose proof (turn_perm (env_of x) (atoms_of x) i i _ _ _ _ _ _ NS (at_some i Hi) (at_some i Hi) HE HE) as H.
    apply (even_involution image_eqd turn turn_turn (length (P i i))); auto; [apply HE|].
    intros y Hy. split.
    - apply (Permutation_in _ (Permutation_sym H)). now apply in_map.
    - intros E. destruct HE as [_ HE]. destruct y as [[k s] T]. apply HE in Hy as [HY [_ HR]]. destruct HY as [HK HI]. cbn in HK. assert (k = O) as -> by lia.
      assert (T = (0, 0, 0)%Z) as ->. { destruct T as [[t1 t2] t3]. cbn in E. injection E as E1 E2 E3. repeat f_equal; lia. }
      unfold image_distance in HR. cbn [nth] in HR.
      assert (image_pos (fst (gview (env_of x) (atoms_of x))) (snd (gview (env_of x) (atoms_of x))) i s (0, 0, 0)%Z = home (fst (gview (env_of x) (atoms_of x))) (snd (gview (env_of x) (atoms_of x))) i 0) as E0.
      { unfold image_pos, home. destruct (env_of x) as [|L|L p ops]; [| |exfalso; now apply NS]; cbn [gview fst snd slat] in *; [reflexivity|].
        unfold translation. generalize (Lva L) (Lvb L) (Lvc L) (ucvCartesian L (site_pos {| spos := map c_xyz (atoms_of x); suij := map c_uij (atoms_of x); slat := L; ssym := [] |} i)).
        intros p q r t. clear. destruct p, q, r, t. vring. }
      rewrite E0 in HR. unfold vdist in HR. replace (vsub _ _) with vzero in HR by vring. unfold vnorm in HR. replace (vdot vzero vzero) with 0 in HR by (unfold vdot, vzero; cbn; ring).
      rewrite sqrt_0 in HR. apply (Rlt_irrefl 0). eapply Rlt_trans; [|exact HR]. apply Rinv_0_lt_compat. lra.
  Qed.
  Definition cnt (i j : nat) : nat :=
    if (Nat.ltb i n && Nat.ltb j n)%bool then (if shown_mask (k_pq c) i (c_type (atom_at x i)) j (c_type (atom_at x j)) then length (P i j) else 0%nat) else 0%nat.
  Lemma cnt_sym i j : cnt i j = cnt j i.
  Proof.
    unfold cnt. rewrite andb_comm. destruct (Nat.ltb_spec j n), (Nat.ltb_spec i n); cbn [andb]; auto. rewrite shown_mask_sym. destruct (shown_mask _ _ _ _ _); auto. now apply same_length.
  Qed.
  Lemma ordered_cnt : ordered_pairs c x P = list_sum (map (fun i => list_sum (map (cnt i) (seq 0 n))) (seq 0 n)).
  Proof.
    unfold ordered_pairs. fold n. f_equal. apply map_ext_in. intros i Hi. apply in_seq in Hi. f_equal. apply map_ext_in. intros j Hj. apply in_seq in Hj.
    unfold cnt. replace (i <? n)%nat with true by (symmetry; apply Nat.ltb_lt; lia). replace (j <? n)%nat with true by (symmetry; apply Nat.ltb_lt; lia). reflexivity.
  Qed.
  Lemma ordered_even : exists m, ordered_pairs c x P = (2 * m)%nat.
  Proof.
    rewrite ordered_cnt, (double_sum cnt cnt_sym n).
    assert (exists m, list_sum (map (fun i => cnt i i) (seq 0 n)) = (2 * m)%nat) as [m ->].
    { assert (H : forall l, exists m, list_sum (map (fun i => cnt i i) l) = (2 * m)%nat).
      { induction l as [|i l [m IH]]; [exists O; reflexivity|]. cbn [map]. rewrite lsum_cons, IH.
        assert (exists k, cnt i i = (2 * k)%nat) as [k ->]; [|exists (k + m)%nat; lia].
        unfold cnt. destruct (Nat.ltb_spec i n); cbn [andb]; [|exists O; reflexivity]. destruct (shown_mask _ _ _ _ _); [|exists O; reflexivity]. now apply even_diag. }
      apply H. }
    eexists. rewrite <- Nat.mul_add_distr_l. reflexivity.
  Qed.
End Ends.
Lemma int_of_nat m : int_of (INR m) = Z.of_nat m.
Proof.
  unfold int_of. destruct (Rltb (INR m) 0) eqn:E; [apply Rltb_true in E; pose proof (pos_INR m); lra|].
  rewrite INR_IZR_INZ. apply Z.le_antisymm.
  - assert (Rfloor (IZR (Z.of_nat m)) < Z.of_nat m + 1)%Z; [|lia]. apply Rfloor_lt. rewrite plus_IZR. lra.
  - apply Rfloor_le. lra.
Qed.

(** ** isolated atoms *)
Section Isolated.
  Context (c : kcfg) (x : adp) (HI : env_of x = Isolated) (P : nat -> nat -> list image) (HN : neighbours counter c x P).
  Let n := length (atoms_of x).
  Lemma iso_ns : ~ has_symmetry (env_of x). Proof. rewrite HI. cbn. auto. Qed.
  Lemma Rleb_iff a b : Rleb a b = true <-> a <= b.
  Proof. split; [apply Rleb_true|]. intros H. destruct (Rleb a b) eqn:E; auto. apply Rleb_false in E. lra. Qed.
  Lemma Rltb_iff a b : Rltb a b = true <-> a < b.
  Proof. split; [apply Rltb_true|]. intros H. destruct (Rltb a b) eqn:E; auto. apply Rltb_false in E. lra. Qed.
  Lemma iso_dist i j s T : (i < n)%nat -> (j < n)%nat -> image_distance (fst (gview (env_of x) (atoms_of x))) (snd (gview (env_of x) (atoms_of x))) i [j] (O, s, T) = vdist (c_xyz (atom_at x i)) (c_xyz (atom_at x j)).
  Proof.
    intros Hi Hj. rewrite HI. cbn [gview fst snd]. unfold image_distance, image_pos, home, site_pos, plain. cbn [nth spos].
    rewrite (nth_map_some c_xyz _ i _ vzero (at_some x i Hi)), (nth_map_some c_xyz _ j _ vzero (at_some x j Hj)). apply vdist_sym.
  Qed.
  Lemma iso_len i j : (i < n)%nat -> (j < n)%nat -> cnt c x P i j = if counts c (atoms_of x) (i, j) then 1%nat else 0%nat.
  Proof.
    intros Hi Hj. unfold cnt, counts. cbn [fst snd]. fold n. replace (i <? n)%nat with true by (symmetry; now apply Nat.ltb_lt). replace (j <? n)%nat with true by (symmetry; now apply Nat.ltb_lt). cbn [andb].
    change (nth i (atoms_of x) catom0) with (atom_at x i). change (nth j (atoms_of x) catom0) with (atom_at x j).
    destruct (shown_mask _ _ _ _ _); cbn [andb]; auto. destruct (exact_P c x P HN i j Hi Hj) as [ND HE].
    pose proof (iso_dist i j O (0, 0, 0)%Z Hi Hj) as D. set (d := vdist _ _) in *.
    assert (HC : forall y, In y (P i j) <-> y = (O, O, (0, 0, 0)%Z) /\ in_range (k_rmin c) (k_rmax c) d).
    { intros [[k s] T]. rewrite HE. split.
      - intros [HY HR]. destruct HY as [HK HY]. cbn in HK. assert (k = O) as -> by lia. rewrite HI in HY. cbn [gview fst] in HY. destruct HY as [-> ->]. split; [reflexivity|]. now rewrite D in HR.
      - intros [[= -> -> ->] HR]. rewrite D. split; [|exact HR]. split; [cbn; lia|]. rewrite HI. cbn [gview fst]. auto. }
    destruct (Rltb (/ 67108864) d && Rleb (k_rmin c) d && Rleb d (k_rmax c)) eqn:B.
    - rewrite !andb_true_iff, Rltb_iff, !Rleb_iff in B. destruct B as [[B1 B2] B3].
      assert (PP : Permutation (P i j) [(O, O, (0, 0, 0)%Z)]).
      { apply NoDup_Permutation; auto; [constructor; [easy|constructor]|]. intros y. rewrite HC. cbn. unfold in_range. split; [intros [-> _]; auto|intros [<-|[]]; tauto]. }
      now apply Permutation_length in PP.
    - destruct (P i j) as [|y v]; [reflexivity|exfalso]. assert (HR : in_range (k_rmin c) (k_rmax c) d) by (eapply HC; now left).
      destruct HR as [[R1 R2] R3]. assert (B' : Rltb (/ 67108864) d && Rleb (k_rmin c) d && Rleb d (k_rmax c) = true); [|congruence].
      rewrite !andb_true_iff, Rltb_iff, !Rleb_iff. auto.
  Qed.
  Lemma counts_diag i : counts c (atoms_of x) (i, i) = false.
  Proof.
    unfold counts. cbn [fst snd]. replace (Rltb _ _) with false; [now rewrite andb_false_r|]. symmetry. destruct (Rltb _ _) eqn:E; auto. apply Rltb_true in E.
    unfold vdist in E. replace (vsub _ _) with vzero in E by vring. unfold vnorm in E. replace (vdot vzero vzero) with 0 in E by (unfold vdot, vzero; cbn; ring).
    rewrite sqrt_0 in E. exfalso. apply (Rlt_irrefl 0). eapply Rlt_trans; [|exact E]. apply Rinv_0_lt_compat. lra.
  Qed.
  Lemma iso_ordered : ordered_pairs c x P = (2 * length (filter (counts c (atoms_of x)) (pairs_below n)))%nat.
  Proof.
    rewrite (ordered_cnt c x P). fold n. rewrite (double_sum (cnt c x P) (cnt_sym c x iso_ns P HN) n).
    replace (list_sum (map (fun i => cnt c x P i i) (seq 0 n))) with 0%nat.
    2:{ symmetry. assert (H : forall l, (forall i, In i l -> (i < n)%nat) -> list_sum (map (fun i => cnt c x P i i) l) = 0%nat).
        { induction l as [|i l IH]; intros H; [reflexivity|]. cbn [map]. rewrite lsum_cons, iso_len, counts_diag by (apply H; now left). apply IH. intros; apply H; now right. }
        apply H. intros i Hi. apply in_seq in Hi. lia. }
    rewrite Nat.add_0_r. f_equal. unfold pairs_below.
    assert (H : forall l, (forall j, In j l -> (j < n)%nat) -> list_sum (map (fun j => list_sum (map (fun i => cnt c x P i j) (seq 0 j))) l) =
      length (filter (counts c (atoms_of x)) (flat_map (fun j => map (fun i => (i, j)) (seq 0 j)) l))).
    { induction l as [|j l IH]; intros H; [reflexivity|]. cbn [map flat_map]. rewrite lsum_cons, filter_app, app_length, <- IH by (intros; apply H; now right). f_equal.
      assert (Hj : (j < n)%nat) by (apply H; now left).
      assert (G : forall m, (forall i, In i m -> (i < j)%nat) -> list_sum (map (fun i => cnt c x P i j) m) = length (filter (counts c (atoms_of x)) (map (fun i => (i, j)) m))).
      { induction m as [|i m IHm]; intros Hm; [reflexivity|]. cbn [map filter]. rewrite lsum_cons. assert (i < j)%nat by (apply Hm; now left). rewrite iso_len by lia.
        rewrite IHm by (intros; apply Hm; now right). destruct (counts c (atoms_of x) (i, j)); cbn [length]; lia. }
      apply G. intros i Hi. apply in_seq in Hi. lia. }
    apply H. intros j Hj. apply in_seq in Hj. lia.
  Qed.
End Isolated.
Lemma pairs_below_length n : (2 * length (pairs_below n) = n * (n - 1))%nat.
Proof.
  induction n as [|n IH]; [reflexivity|]. unfold pairs_below in *. rewrite seq_S, flat_map_app, app_length. cbn [flat_map]. rewrite app_nil_r, map_length, seq_length.
  cbn [Nat.add]. nia.
Qed.
Lemma pairs_below_In n i j : In (i, j) (pairs_below n) <-> (i < j < n)%nat.
Proof.
  unfold pairs_below. rewrite in_flat_map. split.
  - intros (k & Hk & H). apply in_map_iff in H as (m & [= <- <-] & Hm). apply in_seq in Hk, Hm. lia.
  - intros H. exists j. split; [apply in_seq; lia|]. apply in_map_iff. exists i. split; [reflexivity|]. apply in_seq. lia.
Qed.

(** ** masks *)
Lemma shown_mask_ok s l so to i j a b : reach s -> Permutation (siteall s) so -> Permutation (tmask s) to -> no_conflict s l ->
  ~ In ALLATOMSSTR (map c_type l) -> nth_error l i = Some a -> nth_error l j = Some b ->
  getPairMask (setStructure s (map c_type l) so to) (Z.of_nat i) (Z.of_nat j) = shown_mask s i (c_type a) j (c_type b).
Proof.
  intros HR Hso Hto [HCs HCt] HA Ha Hb. unfold shown_mask.
  assert (ST : forall k d, nth_error l k = Some d -> site_type (map c_type l) (Z.of_nat k) (c_type d)).
  { intros k d H. split; [lia|]. rewrite Nat2Z.id. now apply map_nth_error. }
  destruct (hasTypeMask s) eqn:T.
  - assert (tmask s <> []) by (unfold hasTypeMask in T; intros E; rewrite E in T; discriminate).
    rewrite (types_determine s (map c_type l) so to (Z.of_nat i) (Z.of_nat j) (c_type a) (c_type b)); auto.
    + cbv zeta. destruct (ssort2_cases (c_type a) (c_type b)) as [-> | ->]; cbn [fst snd]; [reflexivity|]. apply typemask_sym; auto. apply HCt; eapply nth_error_In; eauto.
    + apply HCt; eapply nth_error_In; eauto.
  - assert (TN : tmask s = []) by (unfold hasTypeMask in T; destruct (tmask s); [reflexivity|discriminate]).
    cbv zeta. set (s' := setStructure s (map c_type l) so to).
    assert (HL : forall k d, nth_error l k = Some d -> (0 <= Z.of_nat k < Z.of_nat (length (map c_type l)))%Z).
    { intros k d H. rewrite map_length. assert (k < length l)%nat by (apply nth_error_Some; congruence). lia. }
    assert (MAIN : forall i j, (0 <= i < Z.of_nat (length (map c_type l)))%Z -> (0 <= j < Z.of_nat (length (map c_type l)))%Z -> getPairMask s' i j = site_mask s i j).
    { clear -HR Hso Hto HCs TN. intros i j Hi Hj. unfold site_mask. destruct (afind Z.eq_dec i (siteall s)) as [m|] eqn:Ei.
      - apply afind_Some_In in Ei. apply (sites_persist s _ so to i j m HR TN Hso Ei Hj). intros m' Hm'. eapply HCs; eauto.
      - destruct (afind Z.eq_dec j (siteall s)) as [m|] eqn:Ej.
        + apply afind_Some_In in Ej. rewrite getPairMask_sym. apply (sites_persist s _ so to j i m HR TN Hso Ej Hi). intros m' Hm'. eapply HCs; eauto.
        + apply (sites_unaffected s _ so to i j TN Hso); eapply afind_None; eassumption. }
    unfold sort2. destruct (_ >? _)%Z; cbn [fst snd]; [rewrite getPairMask_sym|]; apply MAIN; eauto.
Qed.
