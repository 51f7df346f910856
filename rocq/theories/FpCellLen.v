(** Proofs: the squared length that the constants of PointsInSphere describe, for a cell of any angles. *)
From Flocq Require Import Core.
From Coq Require Import Reals Lra Lia Psatz.
From Verif Require Import RBase Fp FpSphere FpSphereSpec FpSphereProofs FpCellSpec FpCell.
Open Scope R_scope.

Lemma sq_ge x : 0 <= x * x. Proof. apply Rle_0_sqr. Qed.
Lemma abs_sq x q : 0 <= q -> x * x <= q * q -> Rabs x <= q.
Proof. intros Hq H. apply Rabs_le. split; [apply Rnot_lt_le; intros K; assert (q * q < - x * - x) by (apply Rmult_le_0_lt_compat; lra); lra|apply Rnot_lt_le; intros K; assert (q * q < x * x) by (apply Rmult_le_0_lt_compat; lra); lra]. Qed.
(** an error of e q in a number of at most q *)
Lemma sq_err x y q e : 0 <= q -> 0 <= e <= 1 / 100 -> Rabs (x - y) <= e * q -> Rabs y <= q -> Rabs (x * x - y * y) <= 2.01 * e * (q * q).
Proof.
  intros Hq He H1 H2. replace (x * x - y * y) with ((x - y) * (x + y)) by ring. assert (e * q <= 1 / 100 * q) by (apply Rmult_le_compat_r; lra).
  assert (H3 : Rabs (x + y) <= 2.01 * q) by (apply Rabs_le_inv in H1, H2; apply Rabs_le; lra). pose proof (absmul _ _ _ _ H1 H3). lra.
Qed.

Section Len.
  Context (A B C Sa V a b c : R) (HA : A * A + Sa * Sa = 1) (HSa : / 16 <= Sa <= 1) (HV : / 16 <= V)
    (VV : V * V = 1 + 2 * A * B * C - A * A - B * B - C * C) (Ha : 0 < a) (Hb : 0 < b) (Hc : 0 < c).
  Context (L : fp_par).
  Context (Hr : rel 26100 (1 / ar L) (a * V / Sa)) (Hb2 : rel 73 (1 / b2r L) (b * Sa)) (Hc1 : rel 10 (1 / c1r L) c)
    (Hdn : Rabs (dn0dm L * b - (A * B - C) / (Sa * Sa) * a) <= 4920 * v * (a / Sa))
    (Hdm : Rabs (do0dm L * c - (A * C - B) / (Sa * Sa) * a) <= 4920 * v * (a / Sa))
    (Hdz : Rabs (do0dn L * c - - A * b) <= 152 * v * b).

  Lemma cell_len m n o q : 0 <= q ->
    (IZR m * a) ^ 2 + (IZR n * b) ^ 2 + (IZR o * c) ^ 2 + 2 * (IZR m * a) * (IZR n * b) * C + 2 * (IZR m * a) * (IZR o * c) * B + 2 * (IZR n * b) * (IZR o * c) * A = q * q ->
    Rabs (len2 L (m, n, o) - q * q) <= margin * (q * q).
  Proof.
    intros Hq E. set (X := IZR m * a) in *. set (Y := IZR n * b) in *. set (Z := IZR o * c) in *.
    set (D1 := (A * B - C) / (Sa * Sa)) in *. set (D2 := (A * C - B) / (Sa * Sa)) in *. set (U := Y - D1 * X). set (T1 := V / Sa * X). set (T2 := Sa * U). set (T3 := Z - D2 * X + A * U).
    assert (S0 : Sa <> 0) by lra. assert (A2 : A * A = 1 - Sa * Sa) by lra.
    assert (G : T1 * T1 + T2 * T2 + T3 * T3 = q * q).
    { rewrite <- E. assert (E3 : T3 = Z + B * X + A * Y).
      { unfold T3, U. replace (Z - D2 * X + A * (Y - D1 * X)) with (Z + A * Y - (D2 + A * D1) * X) by ring. replace (D2 + A * D1) with (- B); [ring|].
        unfold D1, D2. apply Rmult_eq_reg_r with (Sa * Sa); [|nra]. replace (((A * C - B) / (Sa * Sa) + A * ((A * B - C) / (Sa * Sa))) * (Sa * Sa)) with (A * C - B + A * (A * B - C)) by (field; exact S0). replace (A * C - B + A * (A * B - C)) with (A * A * B - B) by ring. rewrite A2. ring. }
      assert (E12 : T1 * T1 + T2 * T2 = X * X * (1 - B * B) + Y * Y * (1 - A * A) + 2 * X * Y * (C - A * B)).
      { unfold T1, T2, U, D1. apply Rmult_eq_reg_r with (Sa * Sa); [|nra].
        replace ((V / Sa * X * (V / Sa * X) + Sa * (Y - (A * B - C) / (Sa * Sa) * X) * (Sa * (Y - (A * B - C) / (Sa * Sa) * X))) * (Sa * Sa)) with (V * V * (X * X) + (Sa * Sa * Y - (A * B - C) * X) * (Sa * Sa * Y - (A * B - C) * X)) by (field; exact S0).
        rewrite VV. replace (Sa * Sa) with (1 - A * A) by lra. ring. }
      rewrite E12, E3. ring. }
    pose proof (sq_ge T1). pose proof (sq_ge T2). pose proof (sq_ge T3).
    assert (B1 : Rabs T1 <= q) by (apply abs_sq; lra). assert (B2 : Rabs T2 <= q) by (apply abs_sq; lra). assert (B3 : Rabs T3 <= q) by (apply abs_sq; lra).
    assert (BX : Rabs X / Sa <= 16 * q).
    { assert (EX : Rabs X / Sa = Rabs T1 / V). { unfold T1. rewrite Rabs_mult. rewrite (Rabs_pos_eq (V / Sa)) by (apply Rle_mult_inv_pos; lra). field. lra. }
      rewrite EX. apply Rmult_le_reg_r with V; [lra|]. replace (Rabs T1 / V * V) with (Rabs T1) by (field; lra). assert (q * (/ 16) <= q * V) by (apply Rmult_le_compat_l; lra). lra. }
    assert (BU : Rabs U <= 16 * q).
    { assert (EU : Rabs T2 = Sa * Rabs U) by (unfold T2; rewrite Rabs_mult, (Rabs_pos_eq Sa) by lra; reflexivity). pose proof (Rabs_pos U) as PU. assert (/ 16 * Rabs U <= Sa * Rabs U) by (apply Rmult_le_compat_r; lra). lra. }
    (* the foot *)
    assert (FE : forall d d', Rabs (d - d' * a) <= 4920 * v * (a / Sa) -> Rabs (IZR m * d - d' * X) <= 78720 * v * q).
    { intros d d' H2. replace (IZR m * d - d' * X) with (IZR m * (d - d' * a)) by (unfold X; ring). rewrite Rabs_mult. apply Rle_trans with (Rabs (IZR m) * (4920 * v * (a / Sa))); [apply Rmult_le_compat_l; [apply Rabs_pos|exact H2]|].
      replace (Rabs (IZR m) * (4920 * v * (a / Sa))) with (4920 * v * (Rabs X / Sa)); [lra|]. unfold X. rewrite Rabs_mult, (Rabs_pos_eq a) by lra. field. exact S0. }
    pose proof (FE _ _ Hdn) as F1. pose proof (FE _ _ Hdm) as F2. clear FE.
    set (dn := IZR n - IZR m * dn0dm L). set (do := IZR o - (IZR m * do0dm L + dn * do0dn L)). set (U' := dn * b). set (Z' := do * c).
    assert (EU : Rabs (U' - U) <= 78720 * v * q). { replace (U' - U) with (- (IZR m * (dn0dm L * b) - D1 * X)) by (unfold U', U, dn, Y; ring). rewrite Rabs_Ropp. exact F1. }
    pose proof (abs_near _ _ _ _ EU BU) as BU'. assert (BU2 : Rabs U' <= 17 * q) by lra.
    assert (EZ : Rabs (Z' - T3) <= 160100 * v * q).
    { replace (Z' - T3) with (- (IZR m * (do0dm L * c) - D2 * X) + - (dn * (do0dn L * c - - A * b)) + A * (U' - U)) by (unfold Z', T3, do, U', Z; ring).
      assert (P2 : Rabs (dn * (do0dn L * c - - A * b)) <= 152 * v * (17 * q)).
      { rewrite Rabs_mult. apply Rle_trans with (Rabs dn * (152 * v * b)); [apply Rmult_le_compat_l; [apply Rabs_pos|exact Hdz]|].
        replace (Rabs dn * (152 * v * b)) with (152 * v * Rabs U'); [apply Rmult_le_compat_l; lra|]. unfold U'. rewrite Rabs_mult, (Rabs_pos_eq b) by lra. ring. }
      assert (P3 : Rabs (A * (U' - U)) <= 1 * (78720 * v * q)). { apply absmul; [|exact EU]. apply abs_sq; [lra|]. pose proof (sq_ge Sa). lra. }
      eapply Rle_trans; [apply Rabs_triang|]. eapply Rle_trans; [apply Rplus_le_compat_r, Rabs_triang|]. rewrite !Rabs_Ropp. lra. }
    (* the three squares *)
    assert (L1 : IZR m / ar L = IZR m * (1 / ar L)) by (unfold Rdiv; ring). assert (L2 : dn / b2r L = dn * (1 / b2r L)) by (unfold Rdiv; ring). assert (L3 : do / c1r L = do * (1 / c1r L)) by (unfold Rdiv; ring).
    unfold len2. fold dn. fold do. rewrite L1, L2, L3. destruct Hr as [_ R1], Hb2 as [_ R2], Hc1 as [_ R3]. set (ia := 1 / ar L) in *. set (ib := 1 / b2r L) in *. set (ic := 1 / c1r L) in *.
    assert (Q1 : Rabs (IZR m * ia - T1) <= 26100 * v * q).
    { replace (IZR m * ia - T1) with (IZR m * (ia - a * V / Sa)) by (unfold T1, X; field; exact S0). rewrite Rabs_mult. apply Rle_trans with (Rabs (IZR m) * (26100 * v * (a * V / Sa))); [apply Rmult_le_compat_l; [apply Rabs_pos|exact R1]|].
      replace (Rabs (IZR m) * (26100 * v * (a * V / Sa))) with (26100 * v * Rabs T1); [apply Rmult_le_compat_l; lra|]. unfold T1, X. rewrite !Rabs_mult, (Rabs_pos_eq a), (Rabs_pos_eq (V / Sa)) by (try lra; apply Rle_mult_inv_pos; lra). field. exact S0. }
    assert (Q2 : Rabs (dn * ib - T2) <= 80000 * v * q).
    { replace (dn * ib - T2) with (dn * (ib - b * Sa) + Sa * (U' - U)) by (unfold T2, U'; ring). assert (P1 : Rabs (dn * (ib - b * Sa)) <= 73 * v * (17 * q)).
      { rewrite Rabs_mult. apply Rle_trans with (Rabs dn * (73 * v * (b * Sa))); [apply Rmult_le_compat_l; [apply Rabs_pos|exact R2]|].
        replace (Rabs dn * (73 * v * (b * Sa))) with (73 * v * (Rabs U' * Sa)) by (unfold U'; rewrite Rabs_mult, (Rabs_pos_eq b) by lra; ring). apply Rmult_le_compat_l; [lra|]. pose proof (Rabs_pos U'). assert (Rabs U' * Sa <= Rabs U' * 1) by (apply Rmult_le_compat_l; lra). lra. }
      assert (P2 : Rabs (Sa * (U' - U)) <= 1 * (78720 * v * q)) by (apply absmul; [rewrite Rabs_pos_eq; lra|exact EU]). eapply Rle_trans; [apply Rabs_triang|]. lra. }
    assert (Q3 : Rabs (do * ic - T3) <= 160200 * v * q).
    { replace (do * ic - T3) with (do * (ic - c) + (Z' - T3)) by (unfold Z'; ring). pose proof (abs_near _ _ _ _ EZ B3) as BZ. assert (P1 : Rabs (do * (ic - c)) <= 10 * v * (2 * q)).
      { rewrite Rabs_mult. apply Rle_trans with (Rabs do * (10 * v * c)); [apply Rmult_le_compat_l; [apply Rabs_pos|exact R3]|].
        replace (Rabs do * (10 * v * c)) with (10 * v * Rabs Z') by (unfold Z'; rewrite Rabs_mult, (Rabs_pos_eq c) by lra; ring). apply Rmult_le_compat_l; lra. }
      eapply Rle_trans; [apply Rabs_triang|]. lra. }
    pose proof (sq_err _ _ q (26100 * v) Hq ltac:(lra) Q1 B1) as Z1. pose proof (sq_err _ _ q (80000 * v) Hq ltac:(lra) Q2 B2) as Z2. pose proof (sq_err _ _ q (160200 * v) Hq ltac:(lra) Q3 B3) as Z3.
    pose proof (sq_ge q) as QQ. set (w := q * q) in *. clearbody w. rewrite <- !Rsqr_pow2. unfold Rsqr, margin. rewrite <- G in *. apply Rabs_le_inv in Z1, Z2, Z3. apply Rabs_le.
    clear - Z1 Z2 Z3 QQ. set (x1 := IZR m * ia * (IZR m * ia)) in *. set (x2 := dn * ib * (dn * ib)) in *. set (x3 := do * ic * (do * ic)) in *. clearbody x1 x2 x3. set (y1 := T1 * T1) in *. set (y2 := T2 * T2) in *. set (y3 := T3 * T3) in *. clearbody y1 y2 y3. lra.
  Qed.
End Len.
