(** A concrete pair: no displacement along the bond, but a positive width. *)
From Flocq Require Import Core.
From Coq Require Import Reals Lra Lia ZArith.
From Verif Require Import RBase R3 Peaks PeakWidth PeakWidthSpec Fp FpConcrete FpAngle FpSphere FpWidth FpWidthSpec FpWidthProofs FpWidthMain.
Open Scope R_scope.

Definition flat_U : mat := M3 1 (-17) 0 (-17) 289 0 0 0 0.
Definition zero_U : mat := M3 0 0 0 0 0 0 0 0 0.
Definition flat_bond : ubond := mkUB (V3 17 1 0) flat_U true zero_U true.

Lemma flat_valid : valid_tensor flat_U.
Proof.
  split; [reflexivity|]. intros [x y z]. unfold flat_U, mv, row0, row1, row2, vdot. cbn [vx vy vz x00 x01 x02 x10 x11 x12 x20 x21 x22].
  match goal with |- 0 <= ?t => replace t with ((x - 17 * y) * (x - 17 * y)) by ring end. apply FpAngleProofs.sq_nonneg.
Qed.
Lemma zero_valid : valid_tensor zero_U.
Proof. split; [reflexivity|]. intros [x y z]. unfold zero_U, mv, row0, row1, row2, vdot. cbn [vx vy vz x00 x01 x02 x10 x11 x12 x20 x21 x22]. lra. Qed.
Lemma flat_spread : spread flat_bond = 0.
Proof. unfold spread, flat_bond, flat_U, zero_U, mv, row0, row1, row2, vdot, vadd. cbn. lra. Qed.
Lemma rnd_sqrt n m e : (0 <= n)%Z -> (-1074 <= e <= 0)%Z -> (2 ^ 52 < m < 2 ^ 53)%Z -> ((2 * m - 1) * (2 * m - 1) < 4 * n * 2 ^ (- 2 * e) < (2 * m + 1) * (2 * m + 1))%Z ->
  rnd (sqrt (IZR n)) = D m e.
Proof.
  intros Hn He Hm [H1 H2]. unfold D. apply rnd_at; [lia|exact Hm|]. assert (N0 : 0 <= IZR n) by (apply IZR_le; exact Hn). assert (M1 : 1 <= IZR m) by (apply IZR_le; lia).
  pose proof (sqrt_pos (IZR n)) as S0. pose proof (sqrt_sqrt _ N0) as SS. set (s := sqrt (IZR n)) in *. set (p := bpow radix2 (- e)). assert (P : 0 < p) by apply bpow_gt_0.
  assert (PP : p * p = IZR (2 ^ (- 2 * e))) by (rewrite pow2 by lia; unfold p; rewrite <- bpow_plus; f_equal; lia).
  apply IZR_lt in H1. apply IZR_lt in H2. rewrite !mult_IZR, minus_IZR, !mult_IZR in H1. rewrite !mult_IZR, plus_IZR, !mult_IZR in H2. rewrite <- PP, <- SS in H1, H2. set (M := IZR m) in *. clearbody M s p. clear PP SS.
  assert (Q : (2 * (s * p)) * (2 * (s * p)) = 4 * (s * s) * (p * p)) by ring. rewrite <- Q in H1, H2. assert (T : 0 <= s * p) by (apply Rmult_le_pos; lra). set (t := s * p) in *. clearbody t. assert (G : forall a b, 0 <= b -> a * a < b * b -> a < b) by (intros a b Hb Hab; destruct (Rle_lt_dec b a) as [L|L]; [nra|exact L]). pose proof (G (2 * M - 1) (2 * t) ltac:(lra) H1). pose proof (G (2 * t) (2 * M + 1) ltac:(lra) H2). apply Rabs_def1; lra.
Qed.
Lemma len290 : rnd (sqrt 290) = D 4793346130745897 (-48). Proof. apply rnd_sqrt; [lia|lia|lia|]. cbn. lia. Qed.
Lemma one_D : 1 = D 1 0. Proof. unfold D. cbn. lra. Qed.
Lemma Z_D n : IZR n = D n 0. Proof. unfold D. cbn. lra. Qed.

Lemma flat_msd : fp_msd flat_bond = bpow radix2 (-52).
Proof.
  unfold fp_msd, flat_bond, fp_usq. cbn [b_U0 b_U1 b_r01 b_a0 b_a1]. cbv zeta.
  assert (N : fp_norm (V3 17 1 0) = D 4793346130745897 (-48)).
  { unfold fp_norm, fp_dot. cbn [vx vy vz]. replace (17 * 17) with 289 by ring. replace (1 * 1) with 1 by ring. replace (0 * 0) with 0 by ring.
    rewrite (rnd_id 289) by (apply (dbl_Z 289); lia). rewrite (rnd_id 1) by (apply (dbl_Z 1); lia). rewrite rnd_0. replace (289 + 1) with 290 by ring. rewrite (rnd_id 290) by (apply (dbl_Z 290); lia). rewrite Rplus_0_r, (rnd_id 290) by (apply (dbl_Z 290); lia). apply len290. }
  rewrite N. unfold fp_over, flat_U, zero_U. cbn [vx vy vz x00 x01 x02 x11 x12 x22].
  assert (A : rnd (17 / D 4793346130745897 (-48)) = D 8991656190088853 (-53)) by (rewrite (Z_D 17); apply rnd_quot; cbn; lia).
  assert (B : rnd (1 / D 4793346130745897 (-48)) = D 8462735237730686 (-57)) by (rewrite (Z_D 1); apply rnd_quot; cbn; lia).
  assert (C : rnd (0 / D 4793346130745897 (-48)) = 0) by (unfold Rdiv; rewrite Rmult_0_l; apply rnd_0).
  rewrite A, B, C. rewrite !Rmult_0_r, !Rmult_0_l, !rnd_0, !Rmult_0_l, !rnd_0, !Rmult_0_l, !rnd_0, !Rplus_0_r, !rnd_0, !Rplus_0_r. rewrite !(rnd_id (rnd _)) by apply rnd_dbl.
  assert (P0 : rnd (1 * D 8991656190088853 (-53)) = D 8991656190088853 (-53)) by (rewrite Rmult_1_l; apply rnd_id, D_dbl; lia).
  assert (P1 : rnd (289 * D 8462735237730686 (-57)) = D 4776817350984704 (-48)) by (rewrite (Z_D 289), D_mul; apply (rnd_D _ (-57) _ 9); cbn; lia).
  assert (P2 : rnd (2 * -17) = D (-34) 0) by (replace (2 * -17) with (-34) by ring; rewrite rnd_id by (apply (dbl_Z (-34)); lia); apply Z_D).
  assert (P3 : rnd (D (-34) 0 * D 8991656190088853 (-53)) = - D 4776817350984703 (-47)).
  { rewrite D_mul. replace (-34 * 8991656190088853)%Z with (- (34 * 8991656190088853))%Z by lia. rewrite <- D_opp, rnd_opp. f_equal. apply (rnd_D _ (-53) _ 6); cbn; lia. }
  rewrite P0, P1, P2, P3.
  assert (T0 : rnd (D 8991656190088853 (-53) * D 8991656190088853 (-53)) = D 8976139946966021 (-53)) by (rewrite D_mul; apply (rnd_D _ (-106) _ 53); cbn; lia).
  assert (T1 : rnd (D 4776817350984704 (-48) * D 8462735237730686 (-57)) = D 8976139946966023 (-53)) by (rewrite D_mul; apply (rnd_D _ (-105) _ 52); cbn; lia).
  assert (T3 : rnd (- D 4776817350984703 (-47) * D 8462735237730686 (-57)) = - D 8976139946966021 (-52)).
  { replace (- D 4776817350984703 (-47) * D 8462735237730686 (-57)) with (- (D 4776817350984703 (-47) * D 8462735237730686 (-57))) by ring. rewrite rnd_opp. f_equal. rewrite D_mul. apply (rnd_D _ (-104) _ 52); cbn; lia. }
  rewrite T0, T1, T3.
  assert (S1 : rnd (D 8976139946966021 (-53) + D 8976139946966023 (-53)) = D 8976139946966022 (-52)) by (rewrite D_add; apply (rnd_D _ (-53) _ 1); cbn; lia).
  rewrite S1. rewrite D_opp, D_add. replace (8976139946966022 + - (8976139946966021))%Z with 1%Z by lia. unfold D. rewrite Rmult_1_l. repeat rewrite (rnd_id (bpow radix2 (-52))) by (apply dbl_bpow; lia). reflexivity.
Qed.
Lemma flat_width : / 100000000 < fp_dw flat_bond.
Proof.
  unfold fp_dw. cbv zeta. rewrite flat_msd. pose proof (bpow_gt_0 radix2 (-52)) as P. rewrite (proj2 (Rltb_false _ 0)) by lra. pose proof fwhm_range as [_ F].
  change (-52)%Z with (2 * (-26))%Z. rewrite bpow_sqrt. rewrite (rnd_id (bpow radix2 (-26))) by (apply dbl_bpow; lia). apply Rlt_le_trans with (bpow radix2 (-25)); [change (bpow radix2 (-25)) with (/ 33554432); lra|].
  apply rnd_ge_dbl; [|apply dbl_bpow; lia]. change (bpow radix2 (-26)) with (/ 67108864). change (bpow radix2 (-25)) with (/ 33554432). lra.
Qed.
