(** Proofs for FpWidth.v: the widths. *)
From Flocq Require Import Core.
From Coq Require Import Reals Lra Lia.
From Verif Require Import RBase R3 Peaks PeakWidth PeakWidthSpec PeakWidthProofs Fp FpAngle FpAngleProofs FpSphere FpSphereProofs FpBondsExample FpLn2 FpWidth FpWidthSpec FpWidthProofs.
Open Scope R_scope.

Lemma spread_along b : spread b = along (b_U0 b) (b_r01 b) + along (b_U1 b) (b_r01 b).
Proof. unfold spread, along, Rdiv. cbv zeta. rewrite <- Rmult_plus_distr_r. f_equal. unfold vdot, vadd. cbn [vx vy vz]. ring. Qed.
Lemma msd_err m b : bpow radix2 (-300) <= m -> bond_up_to m b ->
  Rabs (fp_msd b - spread b) <= bpow radix2 (-40) * m /\ 0 <= spread b <= 18 * m.
Proof.
  intros Hm (D & HN & T0 & T1). rewrite spread_along. destruct (usq_err _ _ _ _ D HN Hm T0) as [E0 B0]. destruct (usq_err _ _ _ _ D HN Hm T1) as [E1 B1]. split; [|lra].
  unfold fp_msd. set (f0 := fp_usq (b_U0 b) (b_r01 b) (b_a0 b)) in *. set (f1 := fp_usq (b_U1 b) (b_r01 b) (b_a1 b)) in *. set (a0 := along (b_U0 b) (b_r01 b)) in *. set (a1 := along (b_U1 b) (b_r01 b)) in *. clearbody f0 f1 a0 a1. pose proof (bpow_gt_0 radix2 (-300)) as P.
  change (bpow radix2 (-42)) with (/ 4398046511104) in *. change (bpow radix2 (-40)) with (/ 1099511627776).
  assert (S : Rabs (f0 + f1) <= 19 * m). { apply Rabs_le. apply Rabs_le_inv in E0. apply Rabs_le_inv in E1. lra. }
  assert (L : bpow radix2 (-1000) <= 19 * m). { assert (bpow radix2 (-1000) <= bpow radix2 (-300)) by (apply bpow_le; lia). lra. }
  pose proof (rb _ _ S L) as RR. apply Rabs_le. apply Rabs_le_inv in E0, E1, RR. lra.
Qed.

(** *** the constant *)
Lemma fwhm_near : Rabs (FP_FWHM - sqrt (8 * ln 2)) <= 3 * v.
Proof.
  unfold FP_FWHM. assert (HL : rnd (2 * FP_LN2) = 2 * FP_LN2).
  { apply rnd_id. unfold FP_LN2. replace (2 * (IZR 6243314768165359 * bpow radix2 (-53))) with (IZR 6243314768165359 * bpow radix2 (-52)) by (change (bpow radix2 (-52)) with (/ 4503599627370496); change (bpow radix2 (-53)) with (/ 9007199254740992); lra). apply dbl_form; lia. }
  rewrite HL. pose proof ln2_near as L. assert (Q : Rabs (2 * FP_LN2 - 2 * ln 2) <= / 2 * v).
  { unfold FP_LN2. change (bpow radix2 (-53)) with (/ 9007199254740992). apply Rabs_le. apply Rabs_le_inv in L. lra. }
  assert (B : 138 / 100 <= 2 * FP_LN2 <= 139 / 100) by (unfold FP_LN2; change (bpow radix2 (-53)) with (/ 9007199254740992); lra).
  replace (sqrt (8 * ln 2)) with (2 * sqrt (2 * ln 2)). 2:{ replace (8 * ln 2) with (2 * 2 * (2 * ln 2)) by ring. rewrite (sqrt_mult_alt (2 * 2)) by lra. rewrite sqrt_square by lra. reflexivity. }
  set (x := 2 * FP_LN2) in *. set (y := 2 * ln 2) in *. clearbody x y. apply Rabs_le_inv in Q. clear L HL.
  assert (X2 : sqrt x * sqrt x = x) by (apply sqrt_sqrt; lra). assert (Y2 : sqrt y * sqrt y = y) by (apply sqrt_sqrt; lra).
  assert (X1 : 1 <= sqrt x) by (rewrite <- sqrt_1 at 1; apply sqrt_le_1_alt; lra). assert (Y1 : 1 <= sqrt y) by (rewrite <- sqrt_1 at 1; apply sqrt_le_1_alt; lra).
  assert (X3 : sqrt x <= 12 / 10). { apply Rsqr_incr_0_var; [unfold Rsqr; lra|lra]. }
  set (p := sqrt x) in *. set (q := sqrt y) in *. clearbody p q.
  assert (D : - (/ 4 * v) <= p - q <= / 4 * v). { assert (F : (p - q) * (p + q) = x - y) by (rewrite <- X2, <- Y2; ring). split; nra. }
  assert (E1 : Rabs (rnd p - p) <= u * (12 / 10) + / 1000000000000000000000000).
  { pose proof (rnd_err p) as E. rewrite (Rabs_pos_eq p) in E by lra. assert (bpow radix2 (-1074) <= bpow radix2 (-100)) by (apply bpow_le; lia). change (bpow radix2 (-100)) with (/ 1267650600228229401496703205376) in *. unfold u in *. lra. }
  apply Rabs_le_inv in E1. set (p' := rnd p) in *. clearbody p'.
  assert (E2 : Rabs (rnd (2 * p') - 2 * p') <= u * (25 / 10) + / 1000000000000000000000000).
  { pose proof (rnd_err (2 * p')) as E. rewrite (Rabs_pos_eq (2 * p')) in E by (unfold u in *; lra). assert (bpow radix2 (-1074) <= bpow radix2 (-100)) by (apply bpow_le; lia). change (bpow radix2 (-100)) with (/ 1267650600228229401496703205376) in *. unfold u in *. lra. }
  apply Rabs_le_inv in E2. apply Rabs_le. unfold u in *. lra.
Qed.
Lemma fwhm_range : 235 / 100 <= sqrt (8 * ln 2) <= 236 / 100 /\ 235 / 100 <= FP_FWHM <= 236 / 100.
Proof.
  pose proof fwhm_near as H. pose proof ln2_near as L. apply Rabs_le_inv in H, L.
  assert (A : 23548 / 10000 <= sqrt (8 * ln 2)). { replace (23548 / 10000) with (sqrt (23548 / 10000 * (23548 / 10000))) by (apply sqrt_square; lra). apply sqrt_le_1_alt. lra. }
  assert (B : sqrt (8 * ln 2) <= 23549 / 10000). { replace (23549 / 10000) with (sqrt (23549 / 10000 * (23549 / 10000))) by (apply sqrt_square; lra). apply sqrt_le_1_alt. lra. }
  split; lra.
Qed.
Lemma width_eq x : 0 <= x -> width_of x = sqrt (8 * ln 2) * sqrt x.
Proof. intros H. pose proof ln2_near as L. apply Rabs_le_inv in L. unfold width_of. apply sqrt_mult_alt. lra. Qed.

(** *** rounding of a root times the constant *)
Lemma root_err x y e : 0 <= x -> 0 <= y -> Rabs (x - y) <= e -> Rabs (sqrt x - sqrt y) <= sqrt e.
Proof.
  intros Hx Hy He. pose proof (sqrt_pos x) as Sx. pose proof (sqrt_pos y) as Sy. pose proof (sqrt_sqrt x Hx) as X. pose proof (sqrt_sqrt y Hy) as Y.
  apply Rabs_le_inv in He. apply Rabs_le. assert (G : forall a b, 0 <= a -> 0 <= b -> a * a - b * b <= e -> a - b <= sqrt e).
  { intros a b Ha Hb H. destruct (Rle_lt_dec a b) as [L|L]; [pose proof (sqrt_pos e); lra|]. replace (a - b) with (sqrt ((a - b) * (a - b))) by (apply sqrt_square; lra). apply sqrt_le_1_alt. nra. }
  pose proof (G (sqrt x) (sqrt y) Sx Sy ltac:(lra)). pose proof (G (sqrt y) (sqrt x) Sy Sx ltac:(lra)). lra.
Qed.
Lemma root_rnd x : bpow radix2 (-400) <= x -> Rabs (rnd (FP_FWHM * rnd (sqrt x)) - sqrt (8 * ln 2) * sqrt x) <= 9 * v * sqrt x.
Proof.
  intros Hx. pose proof (bpow_gt_0 radix2 (-400)) as P. assert (Sx : bpow radix2 (-200) <= sqrt x).
  { replace (bpow radix2 (-200)) with (sqrt (bpow radix2 (-400))). - now apply sqrt_le_1_alt. - replace (bpow radix2 (-400)) with (bpow radix2 (-200) * bpow radix2 (-200)) by (rewrite <- bpow_plus; reflexivity). apply sqrt_square, bpow_ge_0. }
  pose proof (bpow_gt_0 radix2 (-200)) as P2. pose proof fwhm_near as F. pose proof fwhm_range as [GF GF2]. set (G := sqrt (8 * ln 2)) in *. clearbody G. set (g := FP_FWHM) in *. clearbody g.
  set (r := sqrt x) in *. clearbody r. assert (L : bpow radix2 (-1000) <= bpow radix2 (-200)) by (apply bpow_le; lia).
  assert (E1 : Rabs (rnd r - r) <= v * r) by (apply rb; [rewrite Rabs_pos_eq; lra|lra]). apply Rabs_le_inv in E1. set (s := rnd r) in *. clearbody s. apply Rabs_le_inv in F.
  assert (G1 : g * s <= 240 / 100 * r). { apply Rle_trans with (236 / 100 * ((1 + v) * r)); [apply Rmult_le_compat; lra|lra]. }
  assert (G0 : 0 <= g * s) by (apply Rmult_le_pos; lra).
  assert (E2 : Rabs (rnd (g * s) - g * s) <= v * (240 / 100 * r)) by (apply rb; [rewrite Rabs_pos_eq; lra|lra]). apply Rabs_le_inv in E2.
  assert (E3 : Rabs (g * s - G * r) <= 6 * v * r).
  { replace (g * s - G * r) with ((g - G) * s + G * (s - r)) by ring. eapply Rle_trans; [apply Rabs_triang|].
    assert (X1 : Rabs ((g - G) * s) <= 3 * v * (101 / 100 * r)) by (apply absmul; apply Rabs_le; lra). assert (X2 : Rabs (G * (s - r)) <= 236 / 100 * (v * r)) by (apply absmul; apply Rabs_le; lra). lra. }
  apply Rabs_le_inv in E3. apply Rabs_le. lra.
Qed.

Lemma bpow_sqrt e : sqrt (bpow radix2 (2 * e)) = bpow radix2 e.
Proof. replace (2 * e)%Z with (e + e)%Z by ring. rewrite bpow_plus. apply sqrt_square, bpow_ge_0. Qed.
Lemma fwhm_dbl : dbl FP_FWHM. Proof. apply rnd_dbl. Qed.
Lemma root_mono x y : x <= y -> rnd (FP_FWHM * rnd (sqrt x)) <= rnd (FP_FWHM * rnd (sqrt y)).
Proof. intros H. pose proof fwhm_range as [_ F]. apply rnd_le, Rmult_le_compat_l; [lra|]. apply rnd_le. now apply sqrt_le_1_alt. Qed.
Lemma root_pos x : 0 <= rnd (FP_FWHM * rnd (sqrt x)).
Proof. pose proof fwhm_range as [_ F]. apply rnd_nonneg, Rmult_le_pos; [lra|]. apply rnd_nonneg, sqrt_pos. Qed.
Lemma root_tiny x : x <= bpow radix2 (-400) -> rnd (FP_FWHM * rnd (sqrt x)) <= 4 * bpow radix2 (-200).
Proof.
  intros H. eapply Rle_trans; [apply root_mono; exact H|]. change (-400)%Z with (2 * (-200))%Z. rewrite bpow_sqrt. rewrite (rnd_id (bpow radix2 (-200))) by (apply dbl_bpow; lia).
  replace (4 * bpow radix2 (-200)) with (bpow radix2 (-198)) by (change 4 with (bpow radix2 2); rewrite <- bpow_plus; reflexivity). apply rnd_le_dbl; [|apply dbl_bpow; lia].
  replace (bpow radix2 (-198)) with (4 * bpow radix2 (-200)) by (change 4 with (bpow radix2 2); rewrite <- bpow_plus; reflexivity). apply Rmult_le_compat_r; [apply bpow_ge_0|]. pose proof fwhm_range as [_ F]. lra.
Qed.

Lemma dw_err m b : bpow radix2 (-300) <= m -> bond_up_to m b -> Rabs (fp_dw b - width_of (spread b)) <= bpow radix2 (-18) * sqrt m.
Proof.
  intros Hm HB. destruct (msd_err m b Hm HB) as [E [Y0 Y1]]. rewrite width_eq by exact Y0. unfold fp_dw. cbv zeta. set (x := fp_msd b) in *. set (y := spread b) in *. clearbody x y.
  assert (P : 0 < bpow radix2 (-300)) by apply bpow_gt_0. assert (SM : bpow radix2 (-150) <= sqrt m) by (rewrite <- (bpow_sqrt (-150)); now apply sqrt_le_1_alt).
  pose proof fwhm_range as [G _]. set (g := sqrt (8 * ln 2)) in *.
  assert (RE : sqrt (bpow radix2 (-40) * m) = bpow radix2 (-20) * sqrt m) by (rewrite sqrt_mult_alt by apply bpow_ge_0; f_equal; apply (bpow_sqrt (-20))).
  assert (SS : bpow radix2 (-200) <= / 1000000000000 * sqrt m).
  { apply Rle_trans with (bpow radix2 (-40) * bpow radix2 (-150)); [rewrite <- bpow_plus; apply bpow_le; lia|]. change (bpow radix2 (-40)) with (/ 1099511627776). apply Rmult_le_compat; [lra|apply bpow_ge_0|lra|exact SM]. }
  assert (YY : 0 <= sqrt y) by apply sqrt_pos. change (bpow radix2 (-18)) with (/ 262144). change (bpow radix2 (-20)) with (/ 1048576) in RE.
  unfold Rltb; destruct (Rlt_dec x 0) as [N|N].
  - replace (0 - g * sqrt y) with (- (g * sqrt y)) by ring. rewrite Rabs_Ropp, Rabs_pos_eq by (apply Rmult_le_pos; lra).
    assert (sqrt y <= / 1048576 * sqrt m). { rewrite <- RE. apply sqrt_le_1_alt. apply Rabs_le_inv in E. lra. }
    apply Rle_trans with (236 / 100 * (/ 1048576 * sqrt m)); [apply Rmult_le_compat; lra|]. pose proof (sqrt_pos m). lra.
  - assert (X0 : 0 <= x) by lra. pose proof (root_err x y _ X0 Y0 E) as R1. rewrite RE in R1.
    assert (GD : Rabs (g * sqrt x - g * sqrt y) <= 236 / 100 * (/ 1048576 * sqrt m)) by (rewrite <- Rmult_minus_distr_l; apply absmul; [apply Rabs_le; lra|exact R1]).
    assert (XS : 0 <= sqrt x) by apply sqrt_pos. destruct (Rle_lt_dec (bpow radix2 (-400)) x) as [L|L].
    + pose proof (root_rnd x L) as R2. fold g in R2. assert (X5 : sqrt x <= 5 * sqrt m).
      { replace (5 * sqrt m) with (sqrt (25 * m)) by (rewrite sqrt_mult_alt by lra; f_equal; replace 25 with (5 * 5) by ring; apply sqrt_square; lra). apply sqrt_le_1_alt. apply Rabs_le_inv in E. change (bpow radix2 (-40)) with (/ 1099511627776) in E. lra. }
      apply Rabs_le_inv in R2, GD. apply Rabs_le. lra.
    + pose proof (root_tiny x ltac:(lra)) as R2. pose proof (root_pos x) as R3.
      assert (X5 : sqrt x <= bpow radix2 (-200)) by (apply Rle_trans with (sqrt (bpow radix2 (-400))); [apply sqrt_le_1_alt; lra|right; exact (bpow_sqrt (-200))]).
      assert (GX : 0 <= g * sqrt x <= 236 / 100 * bpow radix2 (-200)) by (split; [apply Rmult_le_pos; lra|apply Rmult_le_compat; lra]).
      apply Rabs_le_inv in GD. apply Rabs_le. lra.
Qed.
Lemma ratio_err x y K : 0 <= x -> 0 < y -> Rabs (x - y) <= K * y -> Rabs (sqrt x - sqrt y) <= K * sqrt y.
Proof.
  intros Hx Hy H. pose proof (sqrt_pos x) as Sx. pose proof (sqrt_lt_R0 y Hy) as Sy. pose proof (sqrt_sqrt x Hx) as X. pose proof (sqrt_sqrt y ltac:(lra)) as Y.
  set (p := sqrt x) in *. set (q := sqrt y) in *. assert (F : (p - q) * (p + q) = x - y) by (rewrite <- X, <- Y; ring).
  assert (H2 : Rabs (p - q) * (p + q) <= K * q * q). { rewrite <- (Rabs_pos_eq (p + q)) by lra. rewrite <- Rabs_mult, F, Rmult_assoc, Y. exact H. }
  apply Rmult_le_reg_r with q; [exact Sy|]. apply Rle_trans with (Rabs (p - q) * (p + q)); [|exact H2]. apply Rmult_le_compat_l; [apply Rabs_pos|lra].
Qed.
Lemma dw_rel m K b : bpow radix2 (-300) <= m -> bond_up_to m b -> m <= K * spread b -> K <= bpow radix2 20 ->
  Rabs (fp_dw b - width_of (spread b)) <= bpow radix2 (-38) * K * width_of (spread b).
Proof.
  intros Hm HB HK K1. destruct (msd_err m b Hm HB) as [E [Y0 Y1]]. rewrite width_eq by exact Y0. unfold fp_dw. cbv zeta. set (x := fp_msd b) in *. set (y := spread b) in *. clearbody x y.
  assert (P : 0 < bpow radix2 (-300)) by apply bpow_gt_0. change (bpow radix2 20) with 1048576 in K1.
  assert (YP : 0 < y). { destruct (Req_dec y 0) as [Z|Z]; [rewrite Z in HK; lra|lra]. }
  assert (K0 : / 18 <= K). { apply Rmult_le_reg_r with y; [exact YP|]. lra. }
  assert (HR : Rabs (x - y) <= bpow radix2 (-40) * K * y) by (rewrite Rmult_assoc; eapply Rle_trans; [exact E|]; apply Rmult_le_compat_l; [apply bpow_ge_0|exact HK]).
  change (bpow radix2 (-40)) with (/ 1099511627776) in *. change (bpow radix2 (-38)) with (/ 274877906944).
  assert (YB : m <= 1048576 * y). { eapply Rle_trans; [exact HK|]. apply Rmult_le_compat_r; lra. }
  assert (XB : x >= / 2 * y). { apply Rabs_le_inv in E. lra. }
  unfold Rltb; destruct (Rlt_dec x 0) as [N|N]; [exfalso; lra|]. assert (X0 : 0 <= x) by lra.
  pose proof (ratio_err x y _ X0 YP HR) as R1. assert (LX : bpow radix2 (-400) <= x).
  { assert (bpow radix2 (-400) <= bpow radix2 (-22) * bpow radix2 (-300)) by (rewrite <- bpow_plus; apply bpow_le; lia). change (bpow radix2 (-22)) with (/ 4194304) in *. lra. }
  pose proof (root_rnd x LX) as R2. pose proof fwhm_range as [G _]. set (g := sqrt (8 * ln 2)) in *. clearbody g. pose proof (sqrt_lt_R0 y YP) as SY. pose proof (sqrt_pos x) as SX.
  set (p := sqrt x) in *. set (q := sqrt y) in *. set (w := rnd (FP_FWHM * rnd p)) in *. clearbody p q w. clear E HR HB HK.
  assert (XQ : p <= 2 * q). { apply Rabs_le_inv in R1. assert (/ 1099511627776 * K * q <= 1 * q) by (apply Rmult_le_compat_r; lra). lra. }
  assert (GD : Rabs (g * p - g * q) <= g * (/ 1099511627776 * K * q)). { rewrite <- Rmult_minus_distr_l. apply absmul; [rewrite Rabs_pos_eq; lra|exact R1]. }
  assert (KG : 235 / 100 * (/ 18 * q) <= g * (K * q)) by (apply Rmult_le_compat; [lra| |lra|]; [apply Rmult_le_pos; lra|apply Rmult_le_compat_r; lra]).
  replace (g * (/ 1099511627776 * K * q)) with (/ 1099511627776 * (g * (K * q))) in GD by ring. replace (/ 274877906944 * K * (g * q)) with (/ 274877906944 * (g * (K * q))) by ring.
  set (z := g * (K * q)) in *. clearbody z. apply Rabs_le_inv in GD, R2. apply Rabs_le. lra.
Qed.
Lemma dw_iso b : b_a0 b = false -> b_a1 b = false -> 0 <= x00 (b_U0 b) -> 0 <= x00 (b_U1 b) -> let y := x00 (b_U0 b) + x00 (b_U1 b) in
  bpow radix2 (-390) <= y -> Rabs (fp_dw b - width_of y) <= bpow radix2 (-49) * width_of y.
Proof.
  intros A0 A1 P0 P1 y Hy. unfold fp_dw, fp_msd, fp_usq. rewrite A0, A1. cbv zeta. fold y. clearbody y. pose proof (bpow_gt_0 radix2 (-390)) as P. rewrite width_eq by lra.
  assert (E : Rabs (rnd y - y) <= v * y). { apply rb; [rewrite Rabs_pos_eq; lra|]. assert (bpow radix2 (-1000) <= bpow radix2 (-390)) by (apply bpow_le; lia). lra. }
  set (x := rnd y) in *. clearbody x. apply Rabs_le_inv in E. unfold Rltb; destruct (Rlt_dec x 0) as [N|N]; [exfalso; lra|].
  assert (R1 : Rabs (sqrt x - sqrt y) <= v * sqrt y) by (apply ratio_err; [lra|lra|apply Rabs_le; lra]).
  assert (LX : bpow radix2 (-400) <= x). { assert (bpow radix2 (-400) = bpow radix2 (-10) * bpow radix2 (-390)) by (rewrite <- bpow_plus; reflexivity). change (bpow radix2 (-10)) with (/ 1024) in *. lra. }
  pose proof (root_rnd x LX) as R2. pose proof fwhm_range as [G _]. set (g := sqrt (8 * ln 2)) in *. clearbody g. pose proof (sqrt_lt_R0 y ltac:(lra)) as SY.
  set (p := sqrt x) in *. set (q := sqrt y) in *. set (w := rnd (FP_FWHM * rnd p)) in *. clearbody p q w.
  assert (GD : Rabs (g * p - g * q) <= 236 / 100 * (v * q)) by (rewrite <- Rmult_minus_distr_l; apply absmul; [rewrite Rabs_pos_eq; lra|exact R1]).
  assert (KG : 235 / 100 * q <= g * q) by (apply Rmult_le_compat_r; lra). change (bpow radix2 (-49)) with (/ 562949953421312). apply Rabs_le_inv in GD, R1, R2. apply Rabs_le. lra.
Qed.

(** *** exact relations *)
Lemma fp_norm_opp s : fp_norm (vscale (-1) s) = fp_norm s.
Proof. unfold fp_norm, fp_dot, vscale. cbn [vx vy vz]. do 2 f_equal. replace (-1 * vx s * (-1 * vx s)) with (vx s * vx s) by ring. replace (-1 * vy s * (-1 * vy s)) with (vy s * vy s) by ring. replace (-1 * vz s * (-1 * vz s)) with (vz s * vz s) by ring. reflexivity. Qed.
Lemma usq_opp U s a : fp_usq U (vscale (-1) s) a = fp_usq U s a.
Proof.
  unfold fp_usq. destruct a; [|reflexivity]. cbv zeta. rewrite fp_norm_opp. unfold fp_over, vscale. cbn [vx vy vz].
  assert (O : forall x n, rnd (-1 * x / n) = - rnd (x / n)) by (intros x n; rewrite <- rnd_opp; f_equal; unfold Rdiv; ring). rewrite !O.
  assert (T : forall w c e, rnd (rnd (w * - c) * - e) = rnd (rnd (w * c) * e)). { intros w c e. replace (w * - c) with (- (w * c)) by ring. rewrite rnd_opp. f_equal. ring. }
  now rewrite !T.
Qed.
Lemma dw_reversed b : fp_dw (reversed b) = fp_dw b.
Proof. unfold fp_dw, fp_msd, reversed. cbn [b_U0 b_U1 b_r01 b_a0 b_a1]. rewrite !usq_opp. now rewrite (Rplus_comm (fp_usq (b_U1 b) _ _)). Qed.
Lemma jeong_reversed j b : fp_jeong j (reversed b) = fp_jeong j b.
Proof. unfold fp_jeong. rewrite dw_reversed. unfold reversed. cbn [b_r01]. now rewrite fp_norm_opp. Qed.
Lemma dw_dbl b : dbl (fp_dw b). Proof. unfold fp_dw. cbv zeta. destruct (Rltb _ _); [apply dbl_0|apply rnd_dbl]. Qed.
Lemma dw_pos b : 0 <= fp_dw b. Proof. unfold fp_dw. cbv zeta. destruct (Rltb _ _); [lra|apply root_pos]. Qed.
Lemma rnd_one' : rnd 1 = 1. Proof. apply rnd_id, (dbl_Z 1). lia. Qed.
Lemma jeong_none b : DOUBLE_EPS <= fp_norm (b_r01 b) -> fp_jeong (mkJ 0 0 0 0) b = fp_dw b.
Proof.
  intros H. assert (R0 : fp_ratio (mkJ 0 0 0 0) (fp_norm (b_r01 b)) = 1).
  { unfold fp_ratio. cbn [j_delta1 j_delta2 j_qbroad]. rewrite (proj2 (Rltb_false _ _) H). unfold fp_sq, Rdiv. rewrite !Rmult_0_l, !rnd_0, Rmult_0_l, rnd_0, !Rminus_0_r, Rplus_0_r, !rnd_one'. reflexivity. }
  unfold fp_jeong. cbv zeta. rewrite R0. cbn [j_qbroad_sep]. rewrite (proj2 (Rleb_false 1 0)) by lra. unfold fp_sq. rewrite sqrt_1, rnd_one', Rmult_0_l, Rmult_1_l, rnd_0, Rmult_0_l, rnd_0, Rplus_0_r. rewrite (rnd_id (fp_dw b)) by apply dw_dbl. apply rnd_id, dw_dbl.
Qed.

(** *** the largest width *)
Lemma max_step_ge rv w : rv <= max_step rv w /\ w <= max_step rv w.
Proof. unfold max_step, Rltb. destruct (Rlt_dec rv w); lra. Qed.
Lemma maxUii_fold l : forall m, m <= fold_left (fun rv s => max_step (max_step (max_step rv (x00 (s_U s))) (x11 (s_U s))) (x22 (s_U s))) l m /\
  forall s, List.In s l -> x00 (s_U s) <= fold_left (fun rv s => max_step (max_step (max_step rv (x00 (s_U s))) (x11 (s_U s))) (x22 (s_U s))) l m.
Proof.
  induction l as [|a l IH]; intros m; cbn [fold_left List.In]; [split; [lra|intros s []]|].
  set (m' := max_step (max_step (max_step m (x00 (s_U a))) (x11 (s_U a))) (x22 (s_U a))). destruct (IH m') as [I1 I2].
  assert (M : m <= m' /\ x00 (s_U a) <= m').
  { pose proof (max_step_ge m (x00 (s_U a))). pose proof (max_step_ge (max_step m (x00 (s_U a))) (x11 (s_U a))). pose proof (max_step_ge (max_step (max_step m (x00 (s_U a))) (x11 (s_U a))) (x22 (s_U a))). unfold m'. lra. }
  split; [lra|]. intros s [<-|Hs]; [lra|now apply I2].
Qed.
Lemma dw_max l s0 s1 b : List.In s0 l -> List.In s1 l -> s_aniso s0 = false -> s_aniso s1 = false ->
  b_U0 b = s_U s0 -> b_U1 b = s_U s1 -> b_a0 b = s_aniso s0 -> b_a1 b = s_aniso s1 -> fp_dw b <= fp_dw_max (Some l).
Proof.
  intros I0 I1 F0 F1 E0 E1 A0 A1. unfold fp_dw, fp_dw_max, fp_msd, fp_usq. rewrite A0, A1, F0, F1, E0, E1. cbv zeta.
  pose proof (proj2 (maxUii_fold l 0) s0 I0) as M0. pose proof (proj2 (maxUii_fold l 0) s1 I1) as M1. change (fold_left _ l 0) with (maxUii (Some l)) in M0, M1. set (M := maxUii (Some l)) in *. clearbody M.
  assert (L : rnd (x00 (s_U s0) + x00 (s_U s1)) <= rnd (2 * M)) by (apply rnd_le; lra). set (x := rnd (x00 _ + _)) in *. set (y := rnd (2 * M)) in *. clearbody x y.
  unfold Rltb, Rleb. destruct (Rlt_dec x 0) as [N|N]; destruct (Rle_dec y 0) as [N'|N'].
  - lra. 
  - apply root_pos.
  - replace x with 0 by lra. rewrite sqrt_0, rnd_0, Rmult_0_r, rnd_0. lra.
  - now apply root_mono.
Qed.
Lemma dw_max_pos l : 0 <= fp_dw_max l.
Proof. unfold fp_dw_max. cbv zeta. destruct (Rleb _ _); [lra|apply root_pos]. Qed.
Lemma sq_pos x : 0 <= fp_sq x. Proof. apply rnd_nonneg, sq_nonneg. Qed.
Lemma sq_mono x y : Rabs x <= Rabs y -> fp_sq x <= fp_sq y.
Proof.
  intros H. apply rnd_le. assert (A : forall z, z * z = Rabs z * Rabs z) by (intros z; rewrite <- Rabs_mult; symmetry; apply Rabs_pos_eq, sq_nonneg).
  rewrite (A x), (A y). apply Rmult_le_compat; auto using Rabs_pos.
Qed.
Lemma rnd_abs x : Rabs (rnd x) = rnd (Rabs x).
Proof.
  unfold Rabs at 2. destruct (Rcase_abs x) as [N|N].
  - rewrite rnd_opp. pose proof (rnd_le x 0 ltac:(lra)) as L. rewrite rnd_0 in L. apply Rabs_left1. exact L.
  - apply Rabs_pos_eq, rnd_nonneg. lra.
Qed.
Lemma rnd_abs_le x y : Rabs x <= Rabs y -> Rabs (rnd x) <= Rabs (rnd y).
Proof. intros H. rewrite !rnd_abs. now apply rnd_le. Qed.
Lemma fp_sq_lower r : DOUBLE_EPS <= r -> 0 < fp_sq r.
Proof.
  intros H. apply Rlt_le_trans with (bpow radix2 (-104)); [apply bpow_gt_0|]. apply rnd_ge_dbl; [|apply dbl_bpow; lia].
  replace (bpow radix2 (-104)) with (DOUBLE_EPS * DOUBLE_EPS) by (unfold DOUBLE_EPS; change (bpow radix2 (-104)) with (/ 20282409603651670423947251286016); lra). unfold DOUBLE_EPS in *. apply Rmult_le_compat; lra.
Qed.
Lemma quot_mono d x y : 0 <= d -> 0 < x -> x <= y -> d / y <= d / x.
Proof. intros Hd Hx Hy. unfold Rdiv. apply Rmult_le_compat_l; [exact Hd|]. apply Rinv_le_contravar; lra. Qed.
Lemma ratio_mono j r r' : 0 <= j_delta1 j -> 0 <= j_delta2 j -> DOUBLE_EPS <= r -> r <= r' -> fp_ratio j r <= fp_ratio j r'.
Proof.
  intros D1 D2 Hr Hr'. unfold fp_ratio. rewrite (proj2 (Rltb_false r _)) by exact Hr. rewrite (proj2 (Rltb_false r' _)) by lra. assert (E : 0 < DOUBLE_EPS) by (unfold DOUBLE_EPS; lra).
  assert (S : fp_sq r <= fp_sq r') by (apply sq_mono; rewrite !Rabs_pos_eq; lra). pose proof (fp_sq_lower r Hr) as S0.
  assert (Q : fp_sq (rnd (j_qbroad j * r)) <= fp_sq (rnd (j_qbroad j * r'))).
  { apply sq_mono, rnd_abs_le. rewrite !Rabs_mult. apply Rmult_le_compat_l; [apply Rabs_pos|]. rewrite !Rabs_pos_eq; lra. }
  assert (L1 : rnd (j_delta1 j / r') <= rnd (j_delta1 j / r)) by (apply rnd_le, quot_mono; lra).
  assert (L2 : rnd (j_delta2 j / fp_sq r') <= rnd (j_delta2 j / fp_sq r)) by (apply rnd_le, quot_mono; lra).
  apply rnd_le, Rplus_le_compat; [|exact Q]. apply rnd_le. apply Rplus_le_compat; [apply rnd_le; lra|lra].
Qed.
Lemma jeong_max j l b rmin rmax : 0 <= j_delta1 j -> 0 <= j_delta2 j -> fp_dw b <= fp_dw_max l -> fp_norm (b_r01 b) <= rmax -> fp_jeong j b <= fp_jeong_max j l rmin rmax.
Proof.
  intros D1 D2 HW Hr. unfold fp_jeong, fp_jeong_max. cbv zeta. set (r := fp_norm (b_r01 b)) in *. assert (R0 : 0 <= r) by (apply rnd_nonneg, sqrt_pos).
  set (sharp := Rmax (fp_ratio j rmin) (fp_ratio j rmax)). pose proof (dw_pos b) as W0. pose proof (dw_max_pos l) as W1.
  assert (K : 0 <= rnd (rnd (fp_dw_max l * rnd (sqrt (Rmax 1 sharp))) + fp_sq (rnd (j_qbroad_sep j * rmax)))).
  { apply rnd_nonneg, Rplus_le_le_0_compat; [|apply sq_pos]. apply rnd_nonneg, Rmult_le_pos; [exact W1|]. apply rnd_nonneg, sqrt_pos. }
  unfold Rleb. destruct (Rle_dec (fp_ratio j r) 0) as [N|N]; [exact K|]. apply rnd_le, Rplus_le_compat.
  - apply rnd_le. rewrite (Rmult_comm (fp_dw_max l)). apply Rmult_le_compat; [apply rnd_nonneg, sqrt_pos|exact W0| |exact HW]. apply rnd_le, sqrt_le_1_alt.
    assert (HE : DOUBLE_EPS <= r). { unfold fp_ratio in N. destruct (Rltb r DOUBLE_EPS) eqn:E; [lra|]. now apply Rltb_false. }
    pose proof (ratio_mono j r rmax D1 D2 HE Hr) as Q1. pose proof (Rmax_r (fp_ratio j rmin) (fp_ratio j rmax)) as Q2. pose proof (Rmax_r 1 sharp) as Q3. change (Rmax (fp_ratio j rmin) (fp_ratio j rmax)) with sharp in Q2. lra.
  - apply sq_mono, rnd_abs_le. rewrite !Rabs_mult. apply Rmult_le_compat_l; [apply Rabs_pos|]. rewrite !Rabs_pos_eq; lra.
Qed.
