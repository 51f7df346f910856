(** The LU decomposition gives the determinant and the inverse *)
From Verif Require Import RBase R3 Trig Sphere Lattice R3Ref.
From Coq Require Import Psatz.
Import ListNotations.
Open Scope R_scope.

Definition state_det (x : lu) : R := signum x * det (rows (lu0 x) (lu1 x) (lu2 x)).
Lemma pivot0_det x : state_det (pivot0 x) = state_det x.
Proof.
  destruct x as [[a b c] [d e f] [g h i] [[p q] r] s]. unfold pivot0, state_det. cbn [perm lu0 lu1 lu2 vx vy vz signum].
  repeat destruct (Rltb _ _); cbn [lu0 lu1 lu2 signum]; unfold rows, det; cbn [vx vy vz x00 x01 x02 x10 x11 x12 x20 x21 x22]; ring.
Qed.
Lemma pivot0_max x : let y := pivot0 x in Rabs (vx (lu1 y)) <= Rabs (vx (lu0 y)) /\ Rabs (vx (lu2 y)) <= Rabs (vx (lu0 y)).
Proof.
  destruct x as [[a b c] [d e f] [g h i] [[p q] r] s]. unfold pivot0. cbn [perm lu0 lu1 lu2 vx vy vz signum].
  destruct (Rltb (Rabs a) (Rabs d)) eqn:E1; [destruct (Rltb (Rabs d) (Rabs g)) eqn:E2 | destruct (Rltb (Rabs a) (Rabs g)) eqn:E2];
    cbn [lu0 lu1 lu2 vx]; repeat match goal with H : Rltb _ _ = true |- _ => apply Rltb_true in H | H : Rltb _ _ = false |- _ => apply Rltb_false in H end; lra.
Qed.
Lemma abs_le_0 x : Rabs x <= Rabs 0 -> x = 0.
Proof. rewrite Rabs_R0. unfold Rabs. destruct (Rcase_abs x); lra. Qed.
Lemma pivot1_max x : let y := pivot1 x in Rabs (vy (lu2 y)) <= Rabs (vy (lu1 y)).
Proof.
  destruct x as [[a b c] [d e f] [g h i] [[p q] r] s]. unfold pivot1. cbn [perm lu0 lu1 lu2 vx vy vz signum].
  destruct (Rltb (Rabs e) (Rabs h)) eqn:E1; cbn [lu1 lu2 vy]; [apply Rltb_true in E1|apply Rltb_false in E1]; lra.
Qed.
Definition minor_det (x : lu) : R := signum x * (vx (lu0 x) * (vy (lu1 x) * vz (lu2 x) - vz (lu1 x) * vy (lu2 x))).
Lemma eliminate0_det x : Rabs (vx (lu1 x)) <= Rabs (vx (lu0 x)) -> Rabs (vx (lu2 x)) <= Rabs (vx (lu0 x)) -> minor_det (eliminate0 x) = state_det x.
Proof.
  destruct x as [[a b c] [d e f] [g h i] p s]. cbn [lu0 lu1 lu2 vx]. intros H1 H2. unfold eliminate0, minor_det, state_det. cbn [lu0 lu1 lu2 vx].
  destruct (Reqb a 0) eqn:E; unfold rows, det; cbn [lu0 lu1 lu2 vx vy vz signum x00 x01 x02 x10 x11 x12 x20 x21 x22].
  - apply Reqb_true in E. subst a. apply abs_le_0 in H1. apply abs_le_0 in H2. subst. ring.
  - apply Reqb_false in E. field. auto.
Qed.
Lemma pivot1_det x : minor_det (pivot1 x) = minor_det x.
Proof.
  destruct x as [[a b c] [d e f] [g h i] [[p q] r] s]. unfold pivot1, minor_det. cbn [perm lu0 lu1 lu2 vx vy vz signum].
  destruct (Rltb _ _); cbn [lu0 lu1 lu2 signum vx vy vz]; ring.
Qed.
Lemma eliminate1_det x : Rabs (vy (lu2 x)) <= Rabs (vy (lu1 x)) ->
  let y := eliminate1 x in signum y * (vx (lu0 y) * vy (lu1 y) * vz (lu2 y)) = minor_det x.
Proof.
  destruct x as [[a b c] [d e f] [g h i] p s]. cbn [lu0 lu1 lu2 vy]. intros H1. unfold eliminate1, minor_det. cbn [lu0 lu1 lu2 vx vy vz].
  destruct (Reqb e 0) eqn:E; cbn [lu0 lu1 lu2 vx vy vz signum].
  - apply Reqb_true in E. subst e. apply abs_le_0 in H1. subst. ring.
  - apply Reqb_false in E. field. auto.
Qed.
Lemma determinant_det A : determinant A = det A.
Proof.
  unfold determinant, LU_decomp. set (x := pivot0 _).
  rewrite eliminate1_det by apply pivot1_max. rewrite pivot1_det.
  rewrite eliminate0_det by apply pivot0_max. unfold x. rewrite pivot0_det. unfold state_det. cbn [signum lu0 lu1 lu2]. rewrite rows_eq. ring.
Qed.

(** the rows of the original matrix, in the order of the permutation *)
Definition pick (p : nat) (u v w : vec) : vec := match p with O => u | S O => v | _ => w end.
Definition good_perm (p : nat * nat * nat) : Prop :=
  In p [(0, 1, 2); (0, 2, 1); (1, 0, 2); (1, 2, 0); (2, 0, 1); (2, 1, 0)]%nat.
Definition at0 (A : mat) (p : nat) : vec := pick p (row0 A) (row1 A) (row2 A).
Lemma LU_solve x A : good_perm (perm x) -> vx (lu0 x) <> 0 -> vy (lu1 x) <> 0 -> vz (lu2 x) <> 0 ->
  (let '(p, q, r) := perm x in
   at0 A p = lu0 x /\
   at0 A q = V3 (vx (lu1 x) * vx (lu0 x)) (vx (lu1 x) * vy (lu0 x) + vy (lu1 x)) (vx (lu1 x) * vz (lu0 x) + vz (lu1 x)) /\
   at0 A r = V3 (vx (lu2 x) * vx (lu0 x)) (vx (lu2 x) * vy (lu0 x) + vy (lu2 x) * vy (lu1 x)) (vx (lu2 x) * vz (lu0 x) + vy (lu2 x) * vz (lu1 x) + vz (lu2 x))) ->
  mm A (cols (LU_column x 0) (LU_column x 1) (LU_column x 2)) = mid.
Proof.
  destruct x as [[a b c] [d e f] [g h i] [[p q] r] s]. cbn [perm lu0 lu1 lu2 vx vy vz]. intros HP Ha He Hi. unfold LU_column. cbn [perm lu0 lu1 lu2 vx vy vz].
  destruct A as [m0 m1 m2 m3 m4 m5 m6 m7 m8]. unfold at0, row0, row1, row2. cbn [x00 x01 x02 x10 x11 x12 x20 x21 x22].
  unfold mm, mid, cols. cbn [x00 x01 x02 x10 x11 x12 x20 x21 x22 vx vy vz].
  cbn [In good_perm] in HP. unfold good_perm in HP. cbn [In] in HP.
  repeat destruct HP as [HP|HP]; try contradiction; injection HP as <- <- <-; cbn [pick Nat.eqb]; intros (H1 & H2 & H3);
    injection H1; injection H2; injection H3; intros; subst; f_equal; field; auto.
Qed.
(** the decomposition as products of rows *)
Lemma decomposed A : let x := LU_decomp A in vx (lu0 x) <> 0 -> vy (lu1 x) <> 0 ->
  good_perm (perm x) /\
  let '(p, q, r) := perm x in
   at0 A p = lu0 x /\
   at0 A q = V3 (vx (lu1 x) * vx (lu0 x)) (vx (lu1 x) * vy (lu0 x) + vy (lu1 x)) (vx (lu1 x) * vz (lu0 x) + vz (lu1 x)) /\
   at0 A r = V3 (vx (lu2 x) * vx (lu0 x)) (vx (lu2 x) * vy (lu0 x) + vy (lu2 x) * vy (lu1 x)) (vx (lu2 x) * vz (lu0 x) + vy (lu2 x) * vz (lu1 x) + vz (lu2 x)).
Proof.
  cbn zeta. unfold LU_decomp. unfold pivot0. cbn [perm]. unfold at0. cbn [lu0 lu1 lu2].
  generalize (row0 A) (row1 A) (row2 A). intros [a b c] [d e f] [g h i]. cbn [vx vy vz].
  assert (K : forall (p q r : nat) s u v w, good_perm (p, q, r) -> good_perm (p, r, q) ->
    pick p (V3 a b c) (V3 d e f) (V3 g h i) = u -> pick q (V3 a b c) (V3 d e f) (V3 g h i) = v -> pick r (V3 a b c) (V3 d e f) (V3 g h i) = w ->
    let x := eliminate1 (pivot1 (eliminate0 (mkLU u v w (p, q, r) s))) in vx (lu0 x) <> 0 -> vy (lu1 x) <> 0 ->
    good_perm (perm x) /\
    let '(p, q, r) := perm x in
     pick p (V3 a b c) (V3 d e f) (V3 g h i) = lu0 x /\
     pick q (V3 a b c) (V3 d e f) (V3 g h i) = V3 (vx (lu1 x) * vx (lu0 x)) (vx (lu1 x) * vy (lu0 x) + vy (lu1 x)) (vx (lu1 x) * vz (lu0 x) + vz (lu1 x)) /\
     pick r (V3 a b c) (V3 d e f) (V3 g h i) = V3 (vx (lu2 x) * vx (lu0 x)) (vx (lu2 x) * vy (lu0 x) + vy (lu2 x) * vy (lu1 x)) (vx (lu2 x) * vz (lu0 x) + vy (lu2 x) * vz (lu1 x) + vz (lu2 x))).
  { intros p q r s [u0 u1 u2] [v0 v1 v2] [w0 w1 w2] P1 P2 EP EQ ER. unfold eliminate0. cbn [lu0 lu1 lu2 vx vy vz perm].
    destruct (Reqb u0 0) eqn:E.
    - apply Reqb_true in E. subst u0. intros H. exfalso. apply H. unfold pivot1. cbn [perm lu0 lu1 lu2 vx vy vz].
      destruct (Rltb _ _); unfold eliminate1; cbn [lu0 lu1 lu2 vx vy vz]; destruct (Reqb _ _); reflexivity.
    - apply Reqb_false in E. unfold pivot1. cbn [perm lu0 lu1 lu2 vx vy vz signum].
      destruct (Rltb _ _); unfold eliminate1; cbn [lu0 lu1 lu2 vx vy vz signum];
        destruct (Reqb _ 0) eqn:E2; cbn [lu0 lu1 lu2 vx vy vz perm]; intros HX HY;
        try (apply Reqb_true in E2; contradiction); apply Reqb_false in E2;
        (split; [assumption|]); rewrite EP, EQ, ER; (split; [reflexivity|]); split; f_equal; field; repeat split; auto; (contradict E2; apply (Rmult_eq_reg_l u0); [rewrite Rmult_0_r, <- E2; field; auto|auto]). }
  destruct (Rltb (Rabs a) (Rabs d)); [destruct (Rltb (Rabs d) (Rabs g)) | destruct (Rltb (Rabs a) (Rabs g))];
    apply K; try reflexivity; unfold good_perm; cbn [In]; tauto.
Qed.
Lemma LU_invert_spec A : LU_invert (LU_decomp A) = if Reqb (det A) 0 then None else Some (minv A).
Proof.
  pose proof (determinant_det A) as HD. unfold determinant in HD. cbn zeta in HD. unfold LU_invert.
  assert (Z : forall x, Reqb x 0 = true -> x = 0) by (intros x; apply Reqb_true).
  assert (N : forall x, Reqb x 0 = false -> x <> 0) by (intros x; apply Reqb_false).
  destruct (Reqb (vx (lu0 (LU_decomp A))) 0 || Reqb (vy (lu1 (LU_decomp A))) 0 || Reqb (vz (lu2 (LU_decomp A))) 0) eqn:E.
  { replace (Reqb (det A) 0) with true; [reflexivity|]. symmetry. apply Reqb_true. rewrite <- HD.
    apply orb_prop in E. destruct E as [E|E]; [apply orb_prop in E; destruct E as [E|E]|]; apply Z in E; rewrite E; ring. }
  apply orb_false_elim in E. destruct E as [E E2]. apply orb_false_elim in E. destruct E as [E0 E1].
  apply N in E0. apply N in E1. apply N in E2. clear Z N.
  assert (HS : det A <> 0).
  { destruct (decomposed A E0 E1) as [HP HX]. pose proof (LU_solve (LU_decomp A) A HP E0 E1 E2 HX) as HI.
    intro Z. pose proof (det_mm A (cols (LU_column (LU_decomp A) 0) (LU_column (LU_decomp A) 1) (LU_column (LU_decomp A) 2))) as K.
    rewrite HI, det_id, Z in K. lra. }
  replace (Reqb (det A) 0) with false by (symmetry; apply Reqb_false; exact HS). f_equal.
  destruct (decomposed A E0 E1) as [HP HX]. pose proof (LU_solve (LU_decomp A) A HP E0 E1 E2 HX) as HI.
  rewrite <- (mm_id_l (cols _ _ _)), <- (inv_l A HS), <- mm_assoc, HI. apply mm_id_r.
Qed.
