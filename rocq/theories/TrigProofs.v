(** Proofs for Trig.v. *)
From Verif Require Import RBase Trig.
Open Scope R_scope.

Lemma is_multiple_iff x y : 0 < y -> is_multiple x y = true <-> exists k : Z, x = y * IZR k.
Proof.
  intros Hy. unfold is_multiple. rewrite Reqb_true. split.
  - intros H. exists (Rfloor (x / y)). auto.
  - intros [k ->]. replace (y * IZR k / y) with (IZR k) by (field; lra).
    do 2 f_equal. destruct (Rfloor_spec (IZR k)) as [H1 H2].
    apply le_IZR in H1. rewrite <- plus_IZR in H2. apply lt_IZR in H2. lia.
Qed.
Lemma Rround_IZR k : Rround (IZR k) = k.
Proof.
  unfold Rround. destruct (Rleb 0 (IZR k)).
  - destruct (Rfloor_spec (IZR k + 1/2)) as [H1 H2]. rewrite <- plus_IZR in H2.
    assert ((k < Rfloor (IZR k + 1/2) + 1)%Z) by (apply lt_IZR; lra).
    assert ((Rfloor (IZR k + 1/2) < k + 1)%Z) by (apply lt_IZR; rewrite plus_IZR; lra). lia.
  - destruct (Rceil_spec (IZR k - 1/2)) as [H1 H2].
    assert ((k <= Rceil (IZR k - 1/2))%Z) by (apply Z.lt_pred_le, lt_IZR; rewrite <- Z.sub_1_r, minus_IZR; lra).
    assert ((Rceil (IZR k - 1/2) < k + 1)%Z) by (apply lt_IZR; rewrite plus_IZR; lra). lia.
Qed.

Lemma cos_period_Z x k : cos (x + 2 * PI * IZR k) = cos x.
Proof.
  destruct k as [|p|p].
  - f_equal. ring.
  - rewrite <- (cos_period x (Pos.to_nat p)). f_equal. rewrite INR_IZR_INZ, positive_nat_Z. ring.
  - rewrite <- (cos_period (x + 2 * PI * IZR (Z.neg p)) (Pos.to_nat p)). f_equal.
    rewrite INR_IZR_INZ, positive_nat_Z. change (IZR (Z.neg p)) with (- IZR (Z.pos p)). ring.
Qed.
Lemma cos_abs x : cos (Rabs x) = cos x.
Proof. unfold Rabs. destruct (Rcase_abs x); auto. apply cos_neg. Qed.

Lemma fmod_360 x : 0 <= fmod (Rabs x) 360 < 360 /\ cos (fmod (Rabs x) 360 / 180 * PI) = cos (x / 180 * PI).
Proof.
  unfold fmod. set (k := Rfloor (Rabs x / 360)). destruct (Rfloor_spec (Rabs x / 360)) as [H1 H2]. fold k in H1, H2.
  split; [split; lra|].
  rewrite <- (cos_period_Z ((Rabs x - 360 * IZR k) / 180 * PI) k).
  replace ((Rabs x - 360 * IZR k) / 180 * PI + 2 * PI * IZR k) with (Rabs x / 180 * PI) by field.
  rewrite <- (cos_abs (x / 180 * PI)). f_equal.
  rewrite Rabs_mult. unfold Rdiv. rewrite Rabs_mult.
  rewrite (Rabs_pos_eq (/180)) by lra. rewrite (Rabs_pos_eq PI) by (pose proof PI_RGT_0; lra). ring.
Qed.

Lemma cos_special (z : Z) (v : R) : (z = 0%Z /\ v = 1) \/ ((z = 60%Z \/ z = 300%Z) /\ v = 1/2) \/ ((z = 90%Z \/ z = 270%Z) /\ v = 0) \/
  ((z = 120%Z \/ z = 240%Z) /\ v = - (1/2)) \/ (z = 180%Z /\ v = -1) -> cos (IZR z / 180 * PI) = v.
Proof.
  intros H. assert (HP : forall x, cos (2 * PI - x) = cos x).
  { intros x. rewrite <- (cos_neg x). rewrite <- (cos_period_Z (-x) 1). f_equal. ring. }
  assert (HM : forall x, cos (PI - x) = - cos x) by (intros x; replace (PI - x) with (- x + PI) by ring; rewrite neg_cos, cos_neg; auto).
  assert (H60 : cos (60 / 180 * PI) = 1/2) by (replace (60 / 180 * PI) with (PI/3) by field; apply cos_PI3).
  assert (H90 : cos (90 / 180 * PI) = 0) by (replace (90 / 180 * PI) with (PI/2) by field; apply cos_PI2).
  assert (H120 : cos (120 / 180 * PI) = - (1/2)) by (replace (120 / 180 * PI) with (PI - 60/180 * PI) by field; rewrite HM, H60; auto).
  destruct H as [[-> ->] | [[[-> | ->] ->] | [[[-> | ->] ->] | [[[-> | ->] ->] | [-> ->]]]]].
  - replace (0 / 180 * PI) with 0 by field. apply cos_0.
  - exact H60.
  - replace (300 / 180 * PI) with (2 * PI - 60 / 180 * PI) by field. now rewrite HP.
  - exact H90.
  - replace (270 / 180 * PI) with (2 * PI - 90 / 180 * PI) by field. now rewrite HP.
  - exact H120.
  - replace (240 / 180 * PI) with (2 * PI - 120 / 180 * PI) by field. now rewrite HP.
  - replace (180 / 180 * PI) with PI by field. apply cos_PI.
Qed.

Theorem cosd_cos x : cosd x = cos (x / 180 * PI).
Proof.
  unfold cosd. destruct (fmod_360 x) as [HB HC]. set (xp := fmod (Rabs x) 360) in *.
  destruct (is_multiple xp 60 || is_multiple xp 90) eqn:E; auto.
  assert (HZ : exists z, xp = IZR z).
  { apply orb_prop in E. destruct E as [E|E]; apply is_multiple_iff in E; try lra; destruct E as [k Ek].
    - exists (60 * k)%Z. rewrite mult_IZR. auto.
    - exists (90 * k)%Z. rewrite mult_IZR. auto. }
  destruct HZ as [z Hz]. rewrite Hz, Rround_IZR in *.
  rewrite <- HC.
  destruct (Z.eq_dec z 0); [subst z; symmetry; apply (cos_special 0); tauto|].
  destruct (Z.eq_dec z 60); [subst z; symmetry; apply (cos_special 60); tauto|].
  destruct (Z.eq_dec z 300); [subst z; symmetry; apply (cos_special 300); tauto|].
  destruct (Z.eq_dec z 90); [subst z; symmetry; apply (cos_special 90); tauto|].
  destruct (Z.eq_dec z 270); [subst z; symmetry; apply (cos_special 270); tauto|].
  destruct (Z.eq_dec z 120); [subst z; symmetry; apply (cos_special 120); tauto|].
  destruct (Z.eq_dec z 240); [subst z; symmetry; apply (cos_special 240); tauto|].
  destruct (Z.eq_dec z 180); [subst z; symmetry; apply (cos_special 180); tauto|].
  repeat match goal with |- context [match ?x with _ => _ end] => destruct x; try congruence; try reflexivity end.
Qed.
Theorem sind_sin x : sind x = sin (x / 180 * PI).
Proof. unfold sind. rewrite cosd_cos. rewrite <- cos_shift. f_equal. field. Qed.

Lemma acos_cos' x y : 0 <= y <= PI -> cos y = x -> acos x = y.
Proof. intros H <-. apply acos_cos; auto. Qed.

Theorem acosd_acos x : -1 <= x <= 1 -> acosd x = acos x / PI * 180.
Proof.
  intros Hx. unfold acosd. destruct (is_multiple x (1/2)) eqn:E; auto.
  apply is_multiple_iff in E; [|lra]. destruct E as [k ->].
  replace (1 / 2 * IZR k / (1 / 2)) with (IZR k) by field. rewrite Rround_IZR.
  assert (Hk : (-2 <= k <= 2)%Z) by (split; apply le_IZR; lra).
  pose proof PI_RGT_0 as HP.
  assert (HH : forall (z : Z) (v : R), 0 <= IZR z <= 180 -> cos (IZR z / 180 * PI) = v -> IZR z = acos v / PI * 180).
  { intros z v Hz Hv. rewrite (acos_cos' v (IZR z / 180 * PI)); auto; [field; lra|]. split; nra. }
  assert (Hc : (k = 0 \/ k = 1 \/ k = -1 \/ k = 2 \/ k = -2)%Z) by lia.
  destruct Hc as [-> | [-> | [-> | [-> | ->]]]].
  - replace (1/2 * IZR 0) with 0 by ring. apply (HH 90%Z); [lra|]. apply cos_special. tauto.
  - replace (1/2 * 1) with (1/2) by ring. apply (HH 60%Z); [lra|]. apply cos_special. tauto.
  - replace (1/2 * -1) with (-(1/2)) by field. apply (HH 120%Z); [lra|]. apply cos_special. tauto.
  - replace (1/2 * 2) with 1 by field. apply (HH 0%Z); [lra|]. apply cos_special. tauto.
  - replace (1/2 * -2) with (-1) by field. apply (HH 180%Z); [lra|]. apply cos_special. tauto.
Qed.
Theorem acosd_cosd t : 0 <= t <= 180 -> acosd (cosd t) = t.
Proof.
  intros Ht. rewrite acosd_acos by (rewrite cosd_cos; apply COS_bound).
  pose proof PI_RGT_0 as HP. rewrite cosd_cos, acos_cos by (split; nra). field. lra.
Qed.
Theorem asind_special k : (-2 <= k <= 2)%Z -> asind (1/2 * IZR k) = asin (1/2 * IZR k) / PI * 180.
Proof.
  intros Hk. unfold asind. replace (is_multiple (1/2 * IZR k) (1/2)) with true by (symmetry; apply is_multiple_iff; [lra|eauto]).
  replace (1 / 2 * IZR k / (1 / 2)) with (IZR k) by field. rewrite Rround_IZR.
  pose proof PI_RGT_0 as HP.
  assert (HH : forall (z : Z) (v : R), -90 <= IZR z <= 90 -> sin (IZR z / 180 * PI) = v -> IZR z = asin v / PI * 180).
  { intros z v Hz Hv. rewrite <- Hv, asin_sin; [field; lra|]. split; nra. }
  assert (S30 : sin (30 / 180 * PI) = 1/2) by (replace (30/180*PI) with (PI/6) by field; apply sin_PI6).
  assert (S90 : sin (90 / 180 * PI) = 1) by (replace (90/180*PI) with (PI/2) by field; apply sin_PI2).
  assert (Hc : (k = 0 \/ k = 1 \/ k = -1 \/ k = 2 \/ k = -2)%Z) by lia.
  destruct Hc as [-> | [-> | [-> | [-> | ->]]]].
  - replace (1/2 * IZR 0) with 0 by ring. apply (HH 0%Z); [lra|]. replace (0 / 180 * PI) with 0 by field. apply sin_0.
  - replace (1/2 * 1) with (1/2) by ring. apply (HH 30%Z); [lra|]. exact S30.
  - replace (1/2 * -1) with (-(1/2)) by field. apply (HH (-30)%Z); [lra|].
    replace (-30 / 180 * PI) with (- (30/180*PI)) by field. rewrite sin_neg, S30. auto.
  - replace (1/2 * 2) with 1 by field. apply (HH 90%Z); [lra|]. exact S90.
  - replace (1/2 * -2) with (-1) by field. apply (HH (-90)%Z); [lra|].
    replace (-90 / 180 * PI) with (- (90/180*PI)) by field. rewrite sin_neg, S90. auto.
Qed.
(** what asind computes elsewhere *)
Theorem asind_other x : (forall k : Z, x <> 1/2 * IZR k) -> asind x = acos x / PI * 180.
Proof.
  intros H. unfold asind. destruct (is_multiple x (1/2)) eqn:E; auto. apply is_multiple_iff in E; [|lra]. destruct E as [k Ek]. now apply H in Ek.
Qed.
Lemma asin_acos_diff x : 0 < x < 1 -> asin x + acos x = PI / 2.
Proof.
  intros Hx. rewrite acos_asin by lra. ring.
Qed.
Theorem asind_wrong x : -1 <= x <= 1 -> (forall k : Z, x <> 1/2 * IZR k) -> x <> sin (PI / 4) -> asind x <> asin x / PI * 180.
Proof.
  intros Hx Hk Hs. rewrite (asind_other x Hk). pose proof PI_RGT_0 as HP. intros H.
  assert (HE : acos x = asin x) by (apply (Rmult_eq_reg_r (/ PI * 180)); [unfold Rdiv in H; lra|apply Rmult_integral_contrapositive_currified; [apply Rinv_neq_0_compat|]; lra]).
  destruct (Req_dec x 1) as [E1|E1]; [apply (Hk 2%Z); lra|]. destruct (Req_dec x (-1)) as [E2|E2]; [apply (Hk (-2)%Z); lra|].
  rewrite acos_asin in HE by lra. assert (asin x = PI / 4) by lra. apply Hs. rewrite <- H0. symmetry. apply sin_asin. lra.
Qed.

(** *** comparisons *)
Theorem eps_trichotomy x y eps : 0 <= eps ->
  (eps_lt x y eps = true /\ eps_eq x y eps = false /\ eps_gt x y eps = false) \/
  (eps_lt x y eps = false /\ eps_eq x y eps = true /\ eps_gt x y eps = false) \/
  (eps_lt x y eps = false /\ eps_eq x y eps = false /\ eps_gt x y eps = true).
Proof.
  intros He. unfold eps_lt, eps_eq, eps_gt.
  destruct (Rlt_or_le x (y - eps)) as [H|H]; [|destruct (Rlt_or_le (y + eps) x) as [H2|H2]].
  - left. repeat split; [now apply Rltb_true| |apply Rltb_false; lra]. apply Rleb_false. unfold Rabs. destruct (Rcase_abs (x - y)); lra.
  - right; right. repeat split; [apply Rltb_false; lra| |now apply Rltb_true]. apply Rleb_false. unfold Rabs. destruct (Rcase_abs (x - y)); lra.
  - right; left. repeat split; [apply Rltb_false; lra| |apply Rltb_false; lra]. apply Rleb_true. unfold Rabs. destruct (Rcase_abs (x - y)); lra.
Qed.
Theorem eps_lt_order eps : 0 <= eps ->
  (forall x, eps_lt x x eps = false) /\
  (forall x y, eps_lt x y eps = true -> eps_lt y x eps = false) /\
  (forall x y z, eps_lt x y eps = true -> eps_lt y z eps = true -> eps_lt x z eps = true) /\
  (forall x y, eps_lt x y eps = eps_gt y x eps).
Proof.
  intros He. unfold eps_lt, eps_gt. repeat split; intros.
  - apply Rltb_false; lra.
  - apply Rltb_true in H. apply Rltb_false; lra.
  - apply Rltb_true in H, H0. apply Rltb_true; lra.
  - destruct (Rltb (x + eps) y) eqn:E; [apply Rltb_true in E; apply Rltb_true|apply Rltb_false in E; apply Rltb_false]; lra.
Qed.
(** the equivalence induced by EpsilonLess is not transitive: no strict weak ordering *)
Theorem eps_lt_not_weak eps : 0 < eps -> exists x y z,
  eps_lt x y eps = false /\ eps_lt y x eps = false /\ eps_lt y z eps = false /\ eps_lt z y eps = false /\ eps_lt x z eps = true.
Proof.
  intros He. exists 0, eps, (2 * eps). unfold eps_lt. repeat split; try (apply Rltb_false; lra). apply Rltb_true; lra.
Qed.
