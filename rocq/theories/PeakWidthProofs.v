From Coq Require Import Reals Lra Psatz.
From Verif Require Import Base RBase R3 Peaks PeaksProofs PeakWidth PeakWidthSpec.
Open Scope R_scope.

Lemma gauss_factor_pos : 0 < GAUSS_SIGMA_TO_FWHM.
Proof. unfold GAUSS_SIGMA_TO_FWHM. pose proof ln2_pos. pose proof (sqrt_lt_R0 (2 * ln 2)). lra. Qed.

(** maxUii *)
Lemma max_step_ge rv u : rv <= max_step rv u /\ u <= max_step rv u.
Proof. unfold max_step. destruct (Rltb rv u) eqn:E; [apply Rltb_true in E|apply Rltb_false in E]; lra. Qed.
Definition ustep rv s := max_step (max_step (max_step rv (x00 (s_U s))) (x11 (s_U s))) (x22 (s_U s)).
Lemma ustep_ge rv s : rv <= ustep rv s /\ x00 (s_U s) <= ustep rv s /\ x11 (s_U s) <= ustep rv s /\ x22 (s_U s) <= ustep rv s.
Proof.
  unfold ustep. pose proof (max_step_ge rv (x00 (s_U s))). pose proof (max_step_ge (max_step rv (x00 (s_U s))) (x11 (s_U s))).
  pose proof (max_step_ge (max_step (max_step rv (x00 (s_U s))) (x11 (s_U s))) (x22 (s_U s))). lra.
Qed.
Lemma maxUii_fold l rv : rv <= fold_left ustep l rv /\ forall s, In s l ->
  x00 (s_U s) <= fold_left ustep l rv /\ x11 (s_U s) <= fold_left ustep l rv /\ x22 (s_U s) <= fold_left ustep l rv.
Proof.
  revert rv. induction l as [|a l IH]; intros rv; cbn [fold_left]; [split; [lra|intros s []]|].
  destruct (IH (ustep rv a)) as [H1 H2]. pose proof (ustep_ge rv a). split; [lra|].
  intros s [<-|Hs]; [lra|auto].
Qed.
Lemma maxUii_ge l s : In s l -> 0 <= maxUii (Some l) /\ x00 (s_U s) <= maxUii (Some l) /\ x11 (s_U s) <= maxUii (Some l) /\ x22 (s_U s) <= maxUii (Some l).
Proof. intros H. destruct (maxUii_fold l 0) as [H1 H2]. change (maxUii (Some l)) with (fold_left ustep l 0). specialize (H2 s H). lra. Qed.

(** unit direction *)
Lemma unit_dir s : 0 < vnorm s -> let sn := vscale (/ vnorm s) s in vx sn * vx sn + vy sn * vy sn + vz sn * vz sn = 1.
Proof.
  cbv zeta. intros H. assert (Hq : vnorm s * vnorm s = vdot s s). { unfold vnorm. apply sqrt_sqrt. unfold vdot. nra. }
  unfold vscale. cbn [vx vy vz]. set (n := vnorm s) in *.
  replace (/ n * vx s * (/ n * vx s) + / n * vy s * (/ n * vy s) + / n * vz s * (/ n * vz s)) with (vdot s s / (n * n)) by (unfold vdot; field; lra).
  rewrite <- Hq. field. lra.
Qed.
Lemma msd_diag U s a M : 0 < vnorm s -> (a = true -> x01 U = 0 /\ x02 U = 0 /\ x12 U = 0) ->
  x00 U <= M -> x11 U <= M -> x22 U <= M -> meanSquareDisplacement U s a <= M.
Proof.
  intros Hs Hd H0 H1 H2. unfold meanSquareDisplacement. destruct a; auto. destruct (Hd eq_refl) as (-> & -> & ->).
  cbv zeta. pose proof (unit_dir s Hs) as Hu. cbv zeta in Hu. set (sn := vscale _ _) in *. clearbody sn. clear Hs s Hd.
  set (a := vx sn) in *. set (b := vy sn) in *. set (c := vz sn) in *.
  assert (0 <= a * a /\ 0 <= b * b /\ 0 <= c * c) by nra.
  replace (x00 U * a * a) with (x00 U * (a * a)) by ring. replace (x11 U * b * b) with (x11 U * (b * b)) by ring. replace (x22 U * c * c) with (x22 U * (c * c)) by ring.
  set (aa := a * a) in *. set (bb := b * b) in *. set (cc := c * c) in *.
  assert (x00 U * aa <= M * aa) by (apply Rmult_le_compat_r; lra). assert (x11 U * bb <= M * bb) by (apply Rmult_le_compat_r; lra).
  assert (x22 U * cc <= M * cc) by (apply Rmult_le_compat_r; lra).
  assert (M * aa + M * bb + M * cc = M) by (replace M with (M * (aa + bb + cc)) at 4 by (rewrite Hu; ring); ring). lra.
Qed.

Lemma dw_bound l b M : 0 <= M -> msd b <= 2 * M -> M <= maxUii (Some l) -> forall rmin rmax, dw_calculate b <= dw_maxWidth (Some l) rmin rmax.
Proof.
  intros HM H1 H2 rmin rmax. unfold dw_calculate, dw_maxWidth. cbv zeta. pose proof gauss_factor_pos as G.
  destruct (Rltb (msd b) 0) eqn:E1; destruct (Rleb (2 * maxUii (Some l)) 0) eqn:E2;
    [lra|apply Rmult_le_pos; [lra|apply sqrt_pos]| |].
  - apply Rltb_false in E1. apply Rleb_true in E2. assert (msd b = 0) as -> by lra. rewrite sqrt_0. lra.
  - apply Rltb_false in E1. apply Rmult_le_compat_l; [lra|]. apply sqrt_le_1_alt. lra.
Qed.

Lemma mm_tr_comm Q : orthogonal Q -> mm Q (tr Q) = mid.
Proof.
  unfold orthogonal. intros H. assert (Hd : det Q <> 0). { intros Z. assert (Hx : det (mm (tr Q) Q) = det mid) by now rewrite H. rewrite det_mm, Z in Hx. unfold det, mid in Hx; cbn in Hx. lra. }
  assert (tr Q = minv Q) as ->. { rewrite <- (mm_id_r (tr Q)), <- (inv_r Q Hd), mm_assoc, H. apply mm_id_l. }
  now apply inv_r.
Qed.
Lemma rotate_spherical Q u : orthogonal Q -> mm Q (mm (mscale u mid) (tr Q)) = mscale u mid.
Proof.
  intros H. apply mm_tr_comm in H.
  replace (mm Q (mm (mscale u mid) (tr Q))) with (mscale u (mm Q (tr Q))) by vring. rewrite H. auto.
Qed.
Lemma mm_mid_conj U : mm mid (mm U (tr mid)) = U.
Proof. vring. Qed.

(** Debye-Waller, tensors without off-diagonal terms *)
Lemma dw_spherical l Q b : bond_of l Q b -> (forall s, In s l -> spherical (s_U s)) -> forall rmin rmax, dw_calculate b <= dw_maxWidth (Some l) rmin rmax.
Proof.
  intros (HQ & s0 & s1 & I0 & I1 & E0 & A0 & E1 & A1 & Hd) Hs. pose proof (maxUii_ge l s0 I0) as M0. pose proof (maxUii_ge l s1 I1) as M1.
  apply (dw_bound l b (maxUii (Some l))); [lra| |lra]. unfold msd. rewrite E0, E1.
  destruct (Hs s0 I0) as [u0 H0]. destruct (Hs s1 I1) as [u1 H1]. rewrite H1, rotate_spherical by auto. rewrite H0, H1 in *.
  apply Rle_trans with (maxUii (Some l) + maxUii (Some l)); [|lra].
  apply Rplus_le_compat; apply msd_diag; try apply Hd; try lra; intros _; unfold mscale, mid; cbn; lra.
Qed.
Lemma dw_diagonal l b : bond_of l mid b -> (forall s, In s l -> s_aniso s = true -> diagonal (s_U s)) -> forall rmin rmax, dw_calculate b <= dw_maxWidth (Some l) rmin rmax.
Proof.
  intros (HQ & s0 & s1 & I0 & I1 & E0 & A0 & E1 & A1 & Hd) Hs. pose proof (maxUii_ge l s0 I0) as M0. pose proof (maxUii_ge l s1 I1) as M1.
  apply (dw_bound l b (maxUii (Some l))); [lra| |lra]. unfold msd. rewrite E0, E1, A0, A1, mm_mid_conj.
  apply Rle_trans with (maxUii (Some l) + maxUii (Some l)); [|lra].
  apply Rplus_le_compat; apply msd_diag; try apply Hd; try lra; intros Ha; [destruct (Hs s0 I0 Ha)|destruct (Hs s1 I1 Ha)]; tauto.
Qed.

(** valid tensors: the trace bound *)
Definition trace (U : mat) : R := x00 U + x11 U + x22 U.
Lemma valid_diag U : valid_tensor U -> 0 <= x00 U /\ 0 <= x11 U /\ 0 <= x22 U.
Proof.
  intros [_ H]. pose proof (H (V3 1 0 0)) as H0. pose proof (H (V3 0 1 0)) as H1. pose proof (H (V3 0 0 1)) as H2.
  unfold vdot, mv in *. cbn in *. lra.
Qed.
Lemma valid_trace U v : valid_tensor U -> vdot v (mv U v) <= trace U * vdot v v.
Proof.
  intros [Hs H]. assert (Hs1 : x10 U = x01 U /\ x20 U = x02 U /\ x21 U = x12 U). { destruct U. unfold tr in Hs. cbn in *. injection Hs; intros; subst; auto. }
  destruct Hs1 as (S1 & S2 & S3). destruct v as [a b c].
  pose proof (H (V3 b (- a) 0)) as H0. pose proof (H (V3 c 0 (- a))) as H1. pose proof (H (V3 0 c (- b))) as H2.
  unfold vdot, mv, trace in *. cbn [vx vy vz] in *. rewrite S1, S2, S3 in *. nra.
Qed.
Lemma valid_rotate Q U : valid_tensor U -> valid_tensor (mm Q (mm U (tr Q))).
Proof.
  intros [Hs H]. split.
  - replace (tr (mm Q (mm U (tr Q)))) with (mm Q (mm (tr U) (tr Q))) by vring. now rewrite Hs.
  - intros v. replace (vdot v (mv (mm Q (mm U (tr Q))) v)) with (vdot (mv (tr Q) v) (mv U (mv (tr Q) v))) by vring. apply H.
Qed.
Lemma trace_rotate Q U : orthogonal Q -> trace (mm Q (mm U (tr Q))) = trace U.
Proof.
  intros H. replace (trace (mm Q (mm U (tr Q)))) with (trace (mm U (mm (tr Q) Q))) by (unfold trace; vring). rewrite H, mm_id_r. auto.
Qed.
Lemma msd_trace U s a : valid_tensor U -> 0 < vnorm s -> meanSquareDisplacement U s a <= trace U.
Proof.
  intros HU Hs. unfold meanSquareDisplacement. destruct a; [|pose proof (valid_diag U HU); unfold trace; lra].
  cbv zeta. pose proof (unit_dir s Hs) as Hu. cbv zeta in Hu. set (sn := vscale _ _) in *.
  pose proof (valid_trace U sn HU) as Ht. replace (vdot sn sn) with 1 in Ht by (symmetry; exact Hu). rewrite Rmult_1_r in Ht.
  destruct HU as [Hy _]. assert (Hs1 : x10 U = x01 U /\ x20 U = x02 U /\ x21 U = x12 U). { destruct U. unfold tr in Hy. cbn in *. injection Hy; intros; subst; auto. }
  destruct Hs1 as (S1 & S2 & S3). unfold vdot, mv in Ht. cbn [vx vy vz] in Ht. rewrite S1, S2, S3 in Ht. lra.
Qed.
Lemma msd_nonneg U s a : valid_tensor U -> 0 < vnorm s -> 0 <= meanSquareDisplacement U s a.
Proof.
  intros HU Hs. unfold meanSquareDisplacement. destruct a; [|apply (valid_diag U HU)]. cbv zeta. set (sn := vscale _ _).
  destruct HU as [Hy H]. assert (Hs1 : x10 U = x01 U /\ x20 U = x02 U /\ x21 U = x12 U). { destruct U. unfold tr in Hy. cbn in *. injection Hy; intros; subst; auto. }
  destruct Hs1 as (S1 & S2 & S3). specialize (H sn). unfold vdot, mv in H. cbn [vx vy vz] in H. rewrite S1, S2, S3 in H. lra.
Qed.
Lemma dw_sqrt3 l Q b : bond_of l Q b -> (forall s, In s l -> valid_tensor (s_U s)) -> forall rmin rmax, dw_calculate b <= sqrt 3 * dw_maxWidth (Some l) rmin rmax.
Proof.
  intros (HQ & s0 & s1 & I0 & I1 & E0 & A0 & E1 & A1 & Hd) Hs rmin rmax. pose proof (maxUii_ge l s0 I0) as M0. pose proof (maxUii_ge l s1 I1) as M1.
  assert (Hm : msd b <= 3 * (2 * maxUii (Some l))).
  { unfold msd. rewrite E0, E1. pose proof (msd_trace (s_U s0) (b_r01 b) (b_a0 b) (Hs s0 I0) Hd).
    pose proof (msd_trace _ (b_r01 b) (b_a1 b) (valid_rotate Q _ (Hs s1 I1)) Hd) as Ht. rewrite trace_rotate in Ht by auto.
    unfold trace in *. lra. }
  unfold dw_calculate, dw_maxWidth. cbv zeta. pose proof gauss_factor_pos as G. set (M := 2 * maxUii (Some l)) in *.
  pose proof (sqrt_pos 3) as S3.
  destruct (Rltb (msd b) 0) eqn:X1; destruct (Rleb M 0) eqn:X2; [lra| | |].
  - apply Rmult_le_pos; [auto|]. apply Rmult_le_pos; [lra|apply sqrt_pos].
  - apply Rltb_false in X1. apply Rleb_true in X2. assert (msd b = 0) as -> by lra. rewrite sqrt_0. lra.
  - apply Rltb_false in X1. apply Rleb_false in X2.
    replace (sqrt 3 * (GAUSS_SIGMA_TO_FWHM * sqrt M)) with (GAUSS_SIGMA_TO_FWHM * (sqrt 3 * sqrt M)) by ring.
    rewrite <- sqrt_mult by lra. apply Rmult_le_compat_l; [lra|]. apply sqrt_le_1_alt. lra.
Qed.

(** Jeong *)
Definition ratio (j : jeong) (r : R) : R := 1 - j_delta1 j / r - j_delta2 j / (r * r) + (j_qbroad j * r) * (j_qbroad j * r).
Lemma sharp_far j r : DOUBLE_EPS <= r -> msdSharpeningRatio j r = ratio j r.
Proof. intros H. unfold msdSharpeningRatio. destruct (Rltb r DOUBLE_EPS) eqn:E; [apply Rltb_true in E; lra|reflexivity]. Qed.
Lemma sharp_near j r : r < DOUBLE_EPS -> msdSharpeningRatio j r = 0.
Proof. intros H. unfold msdSharpeningRatio. destruct (Rltb r DOUBLE_EPS) eqn:E; auto. apply Rltb_false in E; lra. Qed.
Lemma ratio_mono j r R : 0 <= j_delta1 j -> 0 <= j_delta2 j -> 0 < r <= R -> ratio j r <= ratio j R.
Proof.
  intros H1 H2 H. unfold ratio. assert (/ R <= / r) by (apply Rinv_le_contravar; lra). assert (0 < / R) by (apply Rinv_0_lt_compat; lra).
  unfold Rdiv. assert (j_delta1 j * / R <= j_delta1 j * / r) by (apply Rmult_le_compat_l; lra).
  assert (j_delta2 j * / (R * R) <= j_delta2 j * / (r * r)). { apply Rmult_le_compat_l; [lra|]. apply Rinv_le_contravar; nra. }
  assert (j_qbroad j * r * (j_qbroad j * r) <= j_qbroad j * R * (j_qbroad j * R)).
  { replace (j_qbroad j * r * (j_qbroad j * r)) with (j_qbroad j * j_qbroad j * (r * r)) by ring. replace (j_qbroad j * R * (j_qbroad j * R)) with (j_qbroad j * j_qbroad j * (R * R)) by ring.
    apply Rmult_le_compat_l; nra. }
  lra.
Qed.
(** with the inverse distance as the variable *)
Definition fu (d1 d2 q u : R) : R := 1 - d1 * u - d2 * (u * u) + q * q * (/ u * / u).
Lemma ratio_fu j r : 0 < r -> ratio j r = fu (j_delta1 j) (j_delta2 j) (j_qbroad j) (/ r).
Proof. intros H. unfold ratio, fu. rewrite Rinv_inv by lra. field. lra. Qed.
Lemma fu_convex d1 d2 q a u b : d2 <= 0 -> 0 < b -> b <= u <= a -> fu d1 d2 q u <= Rmax (fu d1 d2 q a) (fu d1 d2 q b).
Proof.
  intros Hd Hb Hu. destruct (Rle_dec (fu d1 d2 q u) (Rmax (fu d1 d2 q a) (fu d1 d2 q b))) as [H|H]; auto. exfalso.
  assert (Ha' : fu d1 d2 q a < fu d1 d2 q u) by (pose proof (Rmax_l (fu d1 d2 q a) (fu d1 d2 q b)); lra).
  assert (Hb' : fu d1 d2 q b < fu d1 d2 q u) by (pose proof (Rmax_r (fu d1 d2 q a) (fu d1 d2 q b)); lra). clear H.
  assert (Nb : b < u) by (destruct (Req_dec b u) as [->|]; lra). assert (Na : u < a) by (destruct (Req_dec u a) as [->|]; lra).
  set (iu := / u) in *. set (ia := / a) in *. set (ib := / b) in *.
  assert (Hi : 0 < ia < iu /\ iu < ib). { unfold ia, iu, ib. split; [split; [apply Rinv_0_lt_compat; lra|]|]; apply Rinv_lt_contravar; try lra; apply Rmult_lt_0_compat; lra. }
  unfold fu in *. fold iu ia ib in Ha', Hb'.
  (* secant slopes *)
  assert (Q1 : ib * ib - iu * iu >= (u - b) * (iu * ib * (iu + ib))).
  { replace (ib * ib - iu * iu) with ((ib - iu) * (ib + iu)) by ring. replace (ib - iu) with ((u - b) * (iu * ib)) by (unfold ib, iu; field; lra). nra. }
  assert (Q2 : iu * iu - ia * ia <= (a - u) * (iu * ia * (iu + ia))).
  { replace (iu * iu - ia * ia) with ((iu - ia) * (iu + ia)) by ring. replace (iu - ia) with ((a - u) * (iu * ia)) by (unfold ia, iu; field; lra). nra. }
  set (K1 := iu * ib * (iu + ib)) in *. set (K2 := iu * ia * (iu + ia)) in *.
  assert (HK : K2 <= K1). { unfold K1, K2. assert (iu * ia <= iu * ib) by (apply Rmult_le_compat_l; lra). assert (0 <= iu * ia) by (apply Rmult_le_pos; lra). apply Rmult_le_compat; lra. }
  assert (qq : 0 <= q * q) by nra.
  assert (S1 : 0 < (u - b) * (- d1 - d2 * (u + b) - q * q * K1)).
  { assert (q * q * (ib * ib - iu * iu) >= q * q * ((u - b) * K1)) by (apply Rmult_ge_compat_l; lra). nra. }
  assert (S2 : (a - u) * (- d1 - d2 * (u + a) - q * q * K2) < 0).
  { assert (q * q * (iu * iu - ia * ia) <= q * q * ((a - u) * K2)) by (apply Rmult_le_compat_l; lra). nra. }
  assert (T1 : 0 < - d1 - d2 * (u + b) - q * q * K1) by nra.
  assert (T2 : - d1 - d2 * (u + a) - q * q * K2 < 0) by nra.
  assert (q * q * K2 <= q * q * K1) by (apply Rmult_le_compat_l; lra). nra.
Qed.
Lemma sharp_bound j r rmin rmax : 0 <= rmin -> rmin <= r <= rmax ->
  (0 <= j_delta1 j /\ 0 <= j_delta2 j) \/ (j_delta2 j <= 0 /\ DOUBLE_EPS <= rmin) ->
  msdSharpeningRatio j r <= Rmax 1 (Rmax (msdSharpeningRatio j rmin) (msdSharpeningRatio j rmax)).
Proof.
  intros H0 Hr Hc. pose proof eps_pos as Ep. set (m := Rmax (msdSharpeningRatio j rmin) (msdSharpeningRatio j rmax)).
  pose proof (Rmax_l 1 m) as M1. pose proof (Rmax_r 1 m) as M2.
  destruct (Rlt_dec r DOUBLE_EPS) as [Hn|Hf]; [rewrite (sharp_near j r) by auto; lra|].
  apply Rle_trans with m; [|auto]. unfold m. rewrite (sharp_far j r), (sharp_far j rmax) by lra.
  destruct Hc as [[D1 D2]|[D2 He]].
  - apply Rle_trans with (ratio j rmax); [|apply Rmax_r]. apply ratio_mono; lra.
  - rewrite (sharp_far j rmin) by lra. rewrite !ratio_fu by lra. apply fu_convex; auto; [apply Rinv_0_lt_compat; lra|].
    split; apply Rinv_le_contravar; lra.
Qed.
Lemma dw_nonneg b : 0 <= dw_calculate b.
Proof. unfold dw_calculate. cbv zeta. pose proof gauss_factor_pos. destruct (Rltb (msd b) 0); [lra|]. apply Rmult_le_pos; [lra|apply sqrt_pos]. Qed.
Lemma jeong_bound j l b rmin rmax : 0 <= rmin -> rmin <= b_dist b <= rmax -> dw_calculate b <= dw_maxWidth (Some l) rmin rmax ->
  (0 <= j_delta1 j /\ 0 <= j_delta2 j) \/ (j_delta2 j <= 0 /\ DOUBLE_EPS <= rmin) ->
  jeong_calculate j b <= jeong_maxWidth j (Some l) rmin rmax.
Proof.
  intros H0 Hr HD Hc. unfold jeong_calculate, jeong_maxWidth. cbv zeta. pose proof (sharp_bound j _ rmin rmax H0 Hr Hc) as Hs.
  set (W := dw_maxWidth (Some l) rmin rmax) in *. pose proof (dw_nonneg b) as HN. set (m := Rmax 1 _) in *. set (c := msdSharpeningRatio j (b_dist b)) in *.
  assert (Hq : (j_qbroad_sep j * b_dist b) * (j_qbroad_sep j * b_dist b) <= (j_qbroad_sep j * rmax) * (j_qbroad_sep j * rmax)).
  { replace (j_qbroad_sep j * b_dist b * (j_qbroad_sep j * b_dist b)) with (j_qbroad_sep j * j_qbroad_sep j * (b_dist b * b_dist b)) by ring.
    replace (j_qbroad_sep j * rmax * (j_qbroad_sep j * rmax)) with (j_qbroad_sep j * j_qbroad_sep j * (rmax * rmax)) by ring. apply Rmult_le_compat_l; nra. }
  assert (0 <= (j_qbroad_sep j * b_dist b) * (j_qbroad_sep j * b_dist b)) by nra.
  assert (0 <= W * sqrt m). { apply Rmult_le_pos; [lra|apply sqrt_pos]. }
  destruct (Rleb c 0) eqn:E; [lra|]. apply Rplus_le_compat; auto. rewrite (Rmult_comm W).
  apply Rmult_le_compat; auto; [apply sqrt_pos|]. now apply sqrt_le_1_alt.
Qed.

(** constant width *)
Lemma width_u u : 0 <= u -> GAUSS_SIGMA_TO_FWHM * sqrt (2 * u) = sqrt (16 * ln 2 * u).
Proof.
  intros H. unfold GAUSS_SIGMA_TO_FWHM. pose proof ln2_pos. replace 2 with (sqrt 4) at 1.
  - rewrite <- !sqrt_mult by nra. f_equal. ring.
  - replace 4 with (2 * 2) by ring. apply sqrt_square. lra.
Qed.
Lemma setu_width u c : cw_width (setuisowidth u c) = fwhm_of_uiso u.
Proof.
  unfold setuisowidth, fwhm_of_uiso, cw_setWidth, Rleb. cbv zeta. cbn [cw_width]. destruct (Rle_dec 0 u).
  - rewrite !Rmult_1_l. now apply width_u.
  - replace (-1 * u) with (- u) by ring. rewrite <- width_u by lra. ring.
Qed.
Lemma getu_width c : fwhm_of_uiso (getuisowidth c) = cw_width c.
Proof.
  unfold getuisowidth. cbv zeta. pose proof gauss_factor_pos as G. set (w := cw_width c). set (q := w / GAUSS_SIGMA_TO_FWHM).
  assert (Hw : w = GAUSS_SIGMA_TO_FWHM * q) by (unfold q; field; lra). unfold fwhm_of_uiso, Rleb. destruct (Rle_dec 0 q) as [Hq|Hq].
  - destruct (Rle_dec 0 (1 * (1 / 2) * q * q)) as [|N]; [|nra]. rewrite <- width_u by auto.
    replace (2 * (1 * (1 / 2) * q * q)) with (q * q) by field. rewrite sqrt_square by auto. auto.
  - destruct (Rle_dec 0 (-1 * (1 / 2) * q * q)) as [N|N]; [nra|]. rewrite <- width_u by lra.
    replace (2 * - (-1 * (1 / 2) * q * q)) with (- q * - q) by field. rewrite sqrt_square by lra. rewrite Hw. ring.
Qed.
Lemma fwhm_inj u v : fwhm_of_uiso u = fwhm_of_uiso v -> u = v.
Proof.
  unfold fwhm_of_uiso. pose proof ln2_pos as L. intros H. destruct (Rle_dec 0 u), (Rle_dec 0 v).
  - apply sqrt_inj in H; nra.
  - pose proof (sqrt_lt_R0 (16 * ln 2 * - v)). pose proof (sqrt_pos (16 * ln 2 * u)). nra.
  - pose proof (sqrt_lt_R0 (16 * ln 2 * - u)). pose proof (sqrt_pos (16 * ln 2 * v)). nra.
  - assert (sqrt (16 * ln 2 * - u) = sqrt (16 * ln 2 * - v)) as X by lra. apply sqrt_inj in X; nra.
Qed.
