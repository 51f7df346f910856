(** Final statements about PointsInSphere. *)
From Verif Require Import RBase Sphere SphereSpec SphereProofs SphereGeom SphereRecip.
From Coq Require Import Sorting.Sorted.
Open Scope R_scope.

Lemma sqrt_lt_iff x y : 0 <= x -> (sqrt x < y <-> 0 < y /\ x < y * y).
Proof.
  intros Hx. pose proof (sqrt_pos x). pose proof (sqrt_sqrt x Hx). split.
  - intros H1. split; nra.
  - intros [H1 H2]. nra.
Qed.
Lemma sqrt_ge_iff x y : 0 <= x -> 0 <= y -> (y <= sqrt x <-> y * y <= x).
Proof. intros Hx Hy. pose proof (sqrt_pos x). pose proof (sqrt_sqrt x Hx). split; intros; nra. Qed.
Lemma sqrt_eq_iff x y : 0 <= x -> 0 <= y -> (sqrt x = y <-> x = y * y).
Proof. intros Hx Hy. pose proof (sqrt_pos x). pose proof (sqrt_sqrt x Hx). split; intros; nra. Qed.

Lemma lex_irrefl p : ~ lex p p.
Proof. destruct p as [[i j] k]. cbn. lia. Qed.
Lemma SSorted_NoDup {A} (R : A -> A -> Prop) l : (forall x, ~ R x x) -> StronglySorted R l -> NoDup l.
Proof.
  intros HR H. induction H as [|x l Hs IH Hf]; constructor; auto. intros Hin. rewrite Forall_forall in Hf. exact (HR _ (Hf _ Hin)).
Qed.

Section S.
  Context (C : cell) (OK : cell_ok C) (Rmin Rmax : R).

  Theorem sphere_total : exists l, (exists f0, forall f, (f0 <= f)%nat -> points Rmin Rmax (lp C) f = Some l) /\
    StronglySorted lex l /\ NoDup l.
  Proof.
    exists (all_points Rmin Rmax (lp C)). split; [apply points_all|].
    pose proof (all_sorted Rmin Rmax C OK) as H. split; auto. eapply SSorted_NoDup; eauto. apply lex_irrefl.
  Qed.
  Lemma points_det f l : points Rmin Rmax (lp C) f = Some l -> l = all_points Rmin Rmax (lp C).
  Proof.
    intros H. destruct (points_all Rmin Rmax (lp C)) as [f0 H0].
    assert (HM : points Rmin Rmax (lp C) (max f f0) = Some l).
    { unfold points in *. destruct (rewind Rmin Rmax (lp C) f) as [s|] eqn:E; [|discriminate].
      unfold rewind in *. rewrite (next_o_mono _ _ _ _ _ _ E) by lia. eapply collect_mono; eauto. lia. }
    rewrite H0 in HM by lia. congruence.
  Qed.
  Theorem sphere_sorted f l : points Rmin Rmax (lp C) f = Some l -> StronglySorted lex l /\ NoDup l.
  Proof.
    intros H. rewrite (points_det _ _ H). pose proof (all_sorted Rmin Rmax C OK) as HS. split; auto. eapply SSorted_NoDup; eauto. apply lex_irrefl.
  Qed.
  Theorem sphere_exact f l p : points Rmin Rmax (lp C) f = Some l ->
    (In p l <-> sqrt (norm2 C p) < Rmax /\
       (Rmin <= sqrt (norm2 C p) \/
        exists o', (o' < snd p)%Z /\ sqrt (norm2 C (fst p, o')) = Rmin)).
  Proof.
    intros H. rewrite (points_det _ _ H). destruct p as [[i j] k]. cbn [fst snd].
    pose proof (norm2_nonneg C (i, j, k) OK) as HN. rewrite (sqrt_lt_iff _ _ HN).
    destruct (Rle_or_lt Rmin 0) as [HR|HR].
    - rewrite (all_In_noexcl C OK _ _ _ HR). split; [|tauto]. intros HH. split; auto. left. pose proof (sqrt_pos (norm2 C (i, j, k))). lra.
    - rewrite (all_In_excl C OK _ _ _ _ _ HR).
      rewrite (sqrt_ge_iff _ _ HN) by lra. rewrite and_assoc.
      enough (HE : (exists o', (o' < k)%Z /\ norm2 C (i, j, o') = Rmin * Rmin) <-> (exists o', (o' < k)%Z /\ sqrt (norm2 C (i, j, o')) = Rmin)) by (rewrite HE; tauto).
      split; intros (o' & A & B); exists o'; (split; auto); apply sqrt_eq_iff; auto; try lra; apply norm2_nonneg; auto.
  Qed.
  Theorem sphere_inside f l p : points Rmin Rmax (lp C) f = Some l -> In p l -> sqrt (norm2 C p) < Rmax.
  Proof. intros H Hp. now apply (sphere_exact _ _ _ H) in Hp. Qed.
  Theorem sphere_complete f l p : points Rmin Rmax (lp C) f = Some l -> Rmin <= sqrt (norm2 C p) < Rmax -> In p l.
  Proof. intros H Hp. apply (sphere_exact _ _ _ H). tauto. Qed.
  Theorem sphere_excl f l : points Rmin Rmax (lp C) f = Some l ->
    (forall q, sqrt (norm2 C q) <> Rmin) ->
    forall p, In p l <-> Rmin <= sqrt (norm2 C p) < Rmax.
  Proof.
    intros H Hq p. rewrite (sphere_exact _ _ _ H). split; [|tauto]. intros [H1 [H2|(o' & _ & H2)]]; auto. now apply Hq in H2.
  Qed.
End S.

Lemma cell_cubic_ok : cell_ok cell_cubic.
Proof. split; cbn; try lra. unfold gram; cbn. lra. Qed.
Lemma cell_ex_ok : cell_ok cell_ex.
Proof. split; cbn; try lra. unfold gram; cbn. lra. Qed.

Theorem sphere_excl_refuted : exists (C : cell) (Rmin Rmax : R), cell_ok C /\ 0 < Rmin < Rmax /\
  exists f0, forall f, (f0 <= f)%nat -> exists l p, points Rmin Rmax (lp C) f = Some l /\ In p l /\ sqrt (norm2 C p) < Rmin.
Proof.
  exists cell_cubic, 1, 2. split; [apply cell_cubic_ok|]. split; [lra|].
  destruct (sphere_total cell_cubic cell_cubic_ok 1 2) as (l & (f0 & H) & _). exists f0. intros f Hf.
  exists l, (0, 0, 0)%Z. split; [auto|].
  assert (HN : norm2 cell_cubic (0, 0, 0)%Z = 0) by (unfold norm2; cbn; ring).
  rewrite HN, sqrt_0. split; [|lra].
  apply (sphere_exact cell_cubic cell_cubic_ok 1 2 f l); auto. rewrite HN, sqrt_0. split; [lra|]. right.
  exists (-1)%Z. split; [cbn; lia|]. cbn [fst]. replace (norm2 cell_cubic (0, 0, -1)%Z) with 1 by (unfold norm2; cbn; ring).
  apply sqrt_1.
Qed.

(** *** reflections *)
Section Refl.
  Context (C : cell) (OK : cell_ok C).
  Lemma Q_of_norm h : Q_of (lp C) h = 2 * PI * sqrt (norm2 (rec_cell C) h).
  Proof. unfold Q_of. now rewrite (reciprocal_lp C OK), r_of_norm. Qed.
  Lemma d_of_norm h : d_of (lp C) h = 1 / sqrt (norm2 (rec_cell C) h).
  Proof. unfold d_of. now rewrite (reciprocal_lp C OK), r_of_norm. Qed.

  Theorem reflections_spec qmin qmax : exists l,
    (exists f0, forall f, (f0 <= f)%nat -> reflections qmin qmax (lp C) f = Some l) /\ NoDup l /\
    (forall h, In h l -> Q_of (lp C) h < qmax) /\
    (forall h, qmin <= Q_of (lp C) h < qmax -> In h l) /\
    ((forall h, Q_of (lp C) h <> qmin) -> forall h, In h l -> qmin <= Q_of (lp C) h).
  Proof.
    pose proof (rec_ok C OK) as OKr. unfold reflections. rewrite (reciprocal_lp C OK).
    set (a := qmin * (1 / PI) / 2). set (b := qmax * (1 / PI) / 2).
    destruct (sphere_total _ OKr a b) as (l & (f0 & H) & HS & HN). exists l. split; [eauto|]. split; auto.
    pose proof PI_RGT_0 as HP.
    assert (Ea : qmin = 2 * PI * a) by (unfold a; field; lra). assert (Eb : qmax = 2 * PI * b) by (unfold b; field; lra).
    pose proof (H f0 (le_n _)) as H0.
    repeat split.
    - intros h Hh. rewrite Q_of_norm, Eb. apply (sphere_inside _ OKr _ _ _ _ _ H0) in Hh. nra.
    - intros h Hh. rewrite Q_of_norm, Ea, Eb in Hh. apply (sphere_complete _ OKr _ _ _ _ _ H0). split; nra.
    - intros Hne h Hh. rewrite Q_of_norm, Ea.
      apply (sphere_excl _ OKr _ _ _ _ H0) in Hh; [nra|].
      intros q Hq. apply (Hne q). rewrite Q_of_norm, Hq. auto.
  Qed.
  Lemma Qd h : h <> (0, 0, 0)%Z -> Q_of (lp C) h * d_of (lp C) h = 2 * PI.
  Proof.
    intros Hh. rewrite Q_of_norm, d_of_norm. pose proof (rec_ok C OK) as OKr.
    assert (0 < sqrt (norm2 (rec_cell C) h)).
    { apply sqrt_lt_R0. destruct (norm2_nonneg _ h OKr) as [H|H]; auto. exfalso. apply Hh. eapply norm2_zero; eauto. }
    field. lra.
  Qed.
  Theorem reflections_d_spec dmax dmin : 0 < dmin -> 0 < dmax -> exists l,
    (exists f0, forall f, (f0 <= f)%nat -> reflections_d dmax dmin (lp C) f = Some l) /\ NoDup l /\
    forall h, h <> (0, 0, 0)%Z ->
      (In h l -> dmin < d_of (lp C) h) /\ (dmin < d_of (lp C) h <= dmax -> In h l).
  Proof.
    intros Hd HD. unfold reflections_d. destruct (reflections_spec (2 * PI / dmax) (2 * PI / dmin)) as (l & HT & HN & H1 & H2 & _).
    exists l. split; auto. split; auto. intros h Hh. pose proof (Qd h Hh) as HQ. pose proof PI_RGT_0 as HP.
    pose proof (rec_ok C OK) as OKr.
    assert (Hs : 0 < sqrt (norm2 (rec_cell C) h)).
    { apply sqrt_lt_R0. destruct (norm2_nonneg _ h OKr) as [H|H]; auto. exfalso. apply Hh. eapply norm2_zero; eauto. }
    assert (Hdp : 0 < d_of (lp C) h) by (rewrite d_of_norm; apply Rdiv_lt_0_compat; lra).
    assert (EQ : Q_of (lp C) h = 2 * PI / d_of (lp C) h) by (rewrite <- HQ; field; lra).
    split.
    - intros Hin. apply H1 in Hin. rewrite EQ in Hin. apply Rnot_le_lt. intros Hle.
      assert (2 * PI / dmin <= 2 * PI / d_of (lp C) h); [|lra].
      apply Rmult_le_compat_l; [lra|]. now apply Rinv_le_contravar.
    - intros [Ha Hb]. apply H2. rewrite EQ. split.
      + apply Rmult_le_compat_l; [lra|]. now apply Rinv_le_contravar.
      + apply Rmult_lt_compat_l; [lra|]. apply Rinv_lt_contravar; nra.
  Qed.
End Refl.
