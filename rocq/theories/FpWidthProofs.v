(** Proofs for FpWidth.v: rounding errors of the mean square displacement. *)
From Flocq Require Import Core.
From Coq Require Import Reals Lra Lia.
From Verif Require Import RBase R3 PeakWidth PeakWidthSpec PeakWidthProofs Fp FpAngle FpAngleProofs FpSphere FpSphereProofs FpBondsDiag FpWidth FpWidthSpec.
Open Scope R_scope.

Lemma term_err M U c a e b : bpow radix2 (-300) <= M -> Rabs U <= M -> Rabs (c - a) <= 2 * v -> Rabs (e - b) <= 2 * v -> Rabs a <= 1 -> Rabs b <= 1 ->
  Rabs (rnd (U * c) * e - U * a * b) <= 6 * v * M.
Proof.
  intros HM HU Hc He Ha Hb. pose proof (bpow_gt_0 radix2 (-300)) as P. assert (HM2 : bpow radix2 (-1000) <= 11 / 10 * M). { assert (bpow radix2 (-1000) <= bpow radix2 (-300)) by (apply bpow_le; lia). lra. }
  set (M0 := bpow radix2 (-300)) in *. set (M1 := bpow radix2 (-1000)) in *. clearbody M0.
  pose proof (abs_near c a 1 _ Hc Ha) as Ac. pose proof (abs_near e b 1 _ He Hb) as Ae.
  assert (A1 : Rabs (U * c) <= 11 / 10 * M). { apply Rle_trans with (M * (1 + 2 * v)); [apply absmul; assumption|lra]. }
  pose proof (rb _ _ A1 HM2) as E1. clearbody M1.
  assert (E2 : Rabs (c * e - a * b) <= 2 * v * (1 + 2 * v) + 1 * (2 * v)).
  { replace (c * e - a * b) with ((c - a) * e + a * (e - b)) by ring. eapply Rle_trans; [apply Rabs_triang|]. apply Rplus_le_compat; apply absmul; assumption. }
  replace (rnd (U * c) * e - U * a * b) with ((rnd (U * c) - U * c) * e + U * (c * e - a * b)) by ring.
  pose proof (absmul _ _ _ _ E1 Ae) as X1. pose proof (absmul _ _ _ _ HU E2) as X2. eapply Rle_trans; [apply Rabs_triang|]. lra.
Qed.
Lemma valid_entries m U : valid_tensor U -> x00 U <= m -> x11 U <= m -> x22 U <= m ->
  Rabs (x00 U) <= m /\ Rabs (x11 U) <= m /\ Rabs (x22 U) <= m /\ Rabs (x01 U) <= m /\ Rabs (x02 U) <= m /\ Rabs (x12 U) <= m /\ x10 U = x01 U /\ x20 U = x02 U /\ x21 U = x12 U.
Proof.
  intros HV H0 H1 H2. pose proof (valid_diag U HV) as (D0 & D1 & D2). destruct HV as [HS HP].
  assert (S1 : x10 U = x01 U) by (rewrite <- HS at 1; reflexivity).
  assert (S2 : x20 U = x02 U) by (rewrite <- HS at 1; reflexivity).
  assert (S3 : x21 U = x12 U) by (rewrite <- HS at 1; reflexivity).
  pose proof (HP (V3 1 1 0)) as P1. pose proof (HP (V3 1 (-1) 0)) as P2. pose proof (HP (V3 1 0 1)) as P3. pose proof (HP (V3 1 0 (-1))) as P4. pose proof (HP (V3 0 1 1)) as P5. pose proof (HP (V3 0 1 (-1))) as P6.
  unfold vdot, mv, row0, row1, row2 in *. cbn [vx vy vz] in *. unfold vdot in *. cbn [vx vy vz] in *.
  repeat split; try assumption; apply Rabs_le; lra.
Qed.

(** *** one tensor *)
Definition along (U : mat) (s : vec) : R := vdot s (mv U s) / vdot s s.
Lemma unit_err s : vdbl s -> bpow radix2 (-400) <= vnorm s -> let N := vnorm s in let c := fp_over s (fp_norm s) in
  Rabs (vx c - vx s / N) <= 2 * v /\ Rabs (vy c - vy s / N) <= 2 * v /\ Rabs (vz c - vz s / N) <= 2 * v /\
  Rabs (vx s / N) <= 1 /\ Rabs (vy s / N) <= 1 /\ Rabs (vz s / N) <= 1.
Proof.
  intros D HN N c. destruct (norm_err s D HN) as [_ E]. fold N in E. pose proof (bpow_gt_0 radix2 (-400)) as B. assert (N0 : 0 < N) by (unfold N; lra).
  pose proof (unit_parts s N0) as P. fold N in P.
  assert (Q1 : Rabs (vx s / N) <= 1) by (apply abs_part with (b := vy s / N) (c := vz s / N); lra).
  assert (Q2 : Rabs (vy s / N) <= 1) by (apply abs_part with (b := vx s / N) (c := vz s / N); lra).
  assert (Q3 : Rabs (vz s / N) <= 1) by (apply abs_part with (b := vx s / N) (c := vy s / N); lra).
  assert (G : forall x, Rabs (x / N) <= 1 -> Rabs (rnd (x / fp_norm s) - x / N) <= 2 * v).
  { intros x Hx. pose proof (comp_err x N _ N0 E) as C. eapply Rle_trans; [exact C|]. unfold u. lra. }
  unfold c, fp_over. cbn [vx vy vz]. auto 10.
Qed.
Lemma usq_err m U s aniso : vdbl s -> bpow radix2 (-400) <= vnorm s -> bpow radix2 (-300) <= m -> tensor_up_to m U aniso ->
  Rabs (fp_usq U s aniso - along U s) <= bpow radix2 (-42) * m /\ 0 <= along U s <= 9 * m.
Proof.
  intros D HN Hm (HV & H0 & H1 & H2 & Hs). pose proof (unit_err s D HN) as (C0 & C1 & C2 & A0 & A1 & A2). pose proof (bpow_gt_0 radix2 (-400)) as B. pose proof (bpow_gt_0 radix2 (-300)) as B3.
  pose proof (unit_parts s ltac:(lra)) as P. assert (NN : vdot s s = vnorm s * vnorm s).
  { unfold vnorm, vdot. symmetry. apply sqrt_sqrt. pose proof (sq_nonneg (vx s)). pose proof (sq_nonneg (vy s)). pose proof (sq_nonneg (vz s)). lra. }
  pose proof (valid_entries m U HV H0 H1 H2) as (U0 & U1 & U2 & U3 & U4 & U5 & S1 & S2 & S3).
  set (N := vnorm s) in *. set (a := vx s / N) in *. set (b := vy s / N) in *. set (c := vz s / N) in *.
  assert (EX : along U s = x00 U * a * a + x11 U * b * b + x22 U * c * c + 2 * x01 U * a * b + 2 * x02 U * a * c + 2 * x12 U * b * c).
  { unfold along. rewrite NN. unfold mv, row0, row1, row2, vdot. cbn [vx vy vz]. rewrite S1, S2, S3. unfold a, b, c. field. lra. }
  assert (POS : 0 <= along U s).
  { unfold along. apply Rmult_le_pos; [apply (proj2 HV)|]. left. apply Rinv_0_lt_compat. rewrite NN. apply Rmult_lt_0_compat; lra. }
  assert (BIG : along U s <= 9 * m).
  { assert (W : forall x y z, Rabs x <= m -> Rabs y <= 1 -> Rabs z <= 1 -> x * y * z <= m).
    { intros x y z Hx Hy Hz. eapply Rle_trans; [apply Rle_abs|]. pose proof (absmul _ _ _ _ (absmul _ _ _ _ Hx Hy) Hz). lra. }
    rewrite EX. pose proof (W _ _ _ U0 A0 A0). pose proof (W _ _ _ U1 A1 A1). pose proof (W _ _ _ U2 A2 A2). pose proof (W _ _ _ U3 A0 A1). pose proof (W _ _ _ U4 A0 A2). pose proof (W _ _ _ U5 A1 A2). lra. }
  split; [|split; assumption]. unfold fp_usq. destruct aniso.
  - rewrite EX. clear EX POS BIG P NN D HN Hs HV. set (e := fp_over s (fp_norm s)) in *. cbv zeta. clearbody a b c.
    set (a' := vx e) in *. set (b' := vy e) in *. set (c' := vz e) in *. clearbody a' b' c'.
    assert (M3 : bpow radix2 (-1000) <= 2 * m). { assert (bpow radix2 (-1000) <= bpow radix2 (-300)) by (apply bpow_le; lia). lra. }
    assert (TW : forall x, Rabs x <= m -> Rabs (rnd (2 * x) - 2 * x) <= 2 * v * m /\ Rabs (rnd (2 * x)) <= 21 / 10 * m).
    { intros x Hx. assert (X2 : Rabs (2 * x) <= 2 * m) by (apply Rabs_le; apply Rabs_le_inv in Hx; lra). pose proof (rb _ _ X2 M3) as E. split; [lra|]. pose proof (abs_near _ _ _ _ E X2). lra. }
    destruct (TW _ U3) as [T3 V3]. destruct (TW _ U4) as [T4 V4]. destruct (TW _ U5) as [T5 V5]. clear TW M3.
    assert (Hm2 : bpow radix2 (-300) <= 21 / 10 * m) by lra.
    pose proof (term_err _ _ _ _ _ _ Hm U0 C0 C0 A0 A0) as E0. pose proof (term_err _ _ _ _ _ _ Hm U1 C1 C1 A1 A1) as E1. pose proof (term_err _ _ _ _ _ _ Hm U2 C2 C2 A2 A2) as E2.
    pose proof (term_err _ _ _ _ _ _ Hm2 V3 C0 C1 A0 A1) as E3. pose proof (term_err _ _ _ _ _ _ Hm2 V4 C0 C2 A0 A2) as E4. pose proof (term_err _ _ _ _ _ _ Hm2 V5 C1 C2 A1 A2) as E5.
    assert (TT : forall x y z w, Rabs (x - 2 * y) <= 2 * v * m -> Rabs z <= 1 -> Rabs w <= 1 -> Rabs (x * z * w - 2 * y * z * w) <= 2 * v * m).
    { intros x y z w Hx Hz Hw. replace (x * z * w - 2 * y * z * w) with ((x - 2 * y) * z * w) by ring. pose proof (absmul _ _ _ _ (absmul _ _ _ _ Hx Hz) Hw). lra. }
    pose proof (TT _ _ _ _ T3 A0 A1) as F3. pose proof (TT _ _ _ _ T4 A0 A2) as F4. pose proof (TT _ _ _ _ T5 A1 A2) as F5. clear TT.
    assert (WW : forall M x y z, Rabs x <= M -> Rabs y <= 1 -> Rabs z <= 1 -> Rabs (x * y * z) <= M).
    { intros M x y z Hx Hy Hz. pose proof (absmul _ _ _ _ (absmul _ _ _ _ Hx Hy) Hz). lra. }
    pose proof (WW _ _ _ _ U0 A0 A0) as G0. pose proof (WW _ _ _ _ U1 A1 A1) as G1. pose proof (WW _ _ _ _ U2 A2 A2) as G2.
    pose proof (WW _ _ _ _ V3 A0 A1) as G3. pose proof (WW _ _ _ _ V4 A0 A2) as G4. pose proof (WW _ _ _ _ V5 A1 A2) as G5. clear WW.
    pose proof (abs_near _ _ _ _ E0 G0) as K0. pose proof (abs_near _ _ _ _ E1 G1) as K1. pose proof (abs_near _ _ _ _ E2 G2) as K2. pose proof (abs_near _ _ _ _ E3 G3) as K3. pose proof (abs_near _ _ _ _ E4 G4) as K4. pose proof (abs_near _ _ _ _ E5 G5) as K5.
    set (t0 := rnd (x00 U * a') * a') in *. set (t1 := rnd (x11 U * b') * b') in *. set (t2 := rnd (x22 U * c') * c') in *.
    set (t3 := rnd (rnd (2 * x01 U) * a') * b') in *. set (t4 := rnd (rnd (2 * x02 U) * a') * c') in *. set (t5 := rnd (rnd (2 * x12 U) * b') * c') in *.
    assert (S : Rabs t0 + Rabs t1 + Rabs t2 + Rabs t3 + Rabs t4 + Rabs t5 <= 10 * m) by lra.
    pose proof (six_err (10 * m) t0 t1 t2 t3 t4 t5 ltac:(lra) S) as R6. change (bpow radix2 (-42)) with (/ 4398046511104).
    set (r := rnd (rnd (rnd (rnd (rnd (rnd t0 + rnd t1) + rnd t2) + rnd t3) + rnd t4) + rnd t5)) in *. clearbody r t0 t1 t2 t3 t4 t5.
    set (y3 := rnd (2 * x01 U) * a * b) in *. set (y4 := rnd (2 * x02 U) * a * c) in *. set (y5 := rnd (2 * x12 U) * b * c) in *.
    set (z0 := x00 U * a * a) in *. set (z1 := x11 U * b * b) in *. set (z2 := x22 U * c * c) in *. set (z3 := 2 * x01 U * a * b) in *. set (z4 := 2 * x02 U * a * c) in *. set (z5 := 2 * x12 U * b * c) in *.
    clearbody y3 y4 y5 z0 z1 z2 z3 z4 z5. clear - B3 Hm E0 E1 E2 E3 E4 E5 F3 F4 F5 R6. set (q := bpow radix2 (-300)) in *. clearbody q.
    apply Rabs_le_inv in E0, E1, E2, E3, E4, E5, F3, F4, F5, R6. apply Rabs_le. lra.
  - destruct (Hs eq_refl) as [k ->]. assert (E : along (mscale k mid) s = k).
    { unfold along. replace (vdot s (mv (mscale k mid) s)) with (k * vdot s s) by (destruct s; unfold vdot, mv, row0, row1, row2, mscale, mid, vdot; cbn; ring). field. rewrite NN. apply Rmult_integral_contrapositive_currified; lra. }
    rewrite E. cbn [x00 mscale mid]. replace (k * 1 - k) with 0 by ring. rewrite Rabs_R0. apply Rmult_le_pos; [apply bpow_ge_0|lra].
Qed.
