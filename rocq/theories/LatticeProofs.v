(** Proofs for Lattice.v. *)
From Verif Require Import RBase R3 Trig TrigProofs Sphere SphereSpec SphereProofs SphereGeom SphereRecip SphereMain Lattice LatticeSpec.
Open Scope R_scope.

Definition rotation (M : mat) : Prop := mm M (tr M) = mid /\ det M = 1.

(** what both setters establish *)
Record built (L : lattice) (C : cell) : Prop := {
  b_ok : cell_ok C;
  b_sc : sc L = lp C;
  b_al : acosd (c_ca C) = alpha L; b_be : acosd (c_cb C) = beta L; b_ga : acosd (c_cg C) = gamma L;
  b_met : metrics L = mk_metrics (lp C);
  b_std : stdbase L = mk_stdbase (lp C);
  b_base : base L = mm (mk_stdbase (lp C)) (baserot L);
  b_rot : rotation (baserot L);
  b_rec : recbase L = minv (base L);
  b_nb : normbase L = mk_normbase (lp C) (base L);
  b_rnb : recnormbase L = mk_recnormbase (lp C) (recbase L);
  b_va : Lva L = row0 (base L); b_vb : Lvb L = row1 (base L); b_vc : Lvc L = row2 (base L);
  b_var : Lvar L = col0 (recbase L); b_vbr : Lvbr L = col1 (recbase L); b_vcr : Lvcr L = col2 (recbase L)
}.

Lemma cos_le_1 s c : s * s + c * c = 1 -> -1 <= c <= 1.
Proof. intros H. split; nra. Qed.

Section Cell.
  Context (C : cell) (OK : cell_ok C).
  Let pa := pos_a _ OK. Let pb := pos_b _ OK. Let pc := pos_c _ OK.
  Let qa := sin_a _ OK. Let qb := sin_b _ OK. Let qg := sin_g _ OK.
  Notation V := (sqrt (gram C)).

  Lemma sgr_val : sgr (lp C) = V / (c_sa C * c_sb C).
  Proof. now destruct (sar_rec C OK) as (_ & _ & E). Qed.
  Lemma ar_val : ar (lp C) = c_sa C / (c_a C * V).
  Proof. reflexivity. Qed.

  Lemma std01 : - cgr (lp C) / sgr (lp C) / ar (lp C) = (c_cg C - c_ca C * c_cb C) * c_a C / c_sa C.
  Proof.
    pose proof (V_pos C OK). rewrite sgr_val, ar_val. cbn [cgr lp mklatpar]. field. repeat split; lra.
  Qed.
  Lemma std00 : 1 / ar (lp C) = c_a C * V / c_sa C.
  Proof. pose proof (V_pos C OK). rewrite ar_val. field. repeat split; lra. Qed.

  Lemma stdbase_metrics : mm (mk_stdbase (lp C)) (tr (mk_stdbase (lp C))) = mk_metrics (lp C).
  Proof.
    pose proof (V_pos C OK) as HV. pose proof (V_sq C OK) as VV.
    pose proof (pow_ca C OK) as Pa.
    unfold mk_stdbase. rewrite std01, std00. unfold mm, tr, mk_metrics. cbn [x00 x01 x02 x10 x11 x12 x20 x21 x22].
    cbn [la lb lc sa ca cb cg lp mklatpar].
    assert (HS : c_sa C ^ 2 <> 0) by (apply pow_nonzero; lra).
    f_equal; try ring; try (field; lra).
    - apply (Rmult_eq_reg_r (c_sa C ^ 2)); auto.
      transitivity (c_a C * c_a C * (V * V + (c_cg C - c_ca C * c_cb C) ^ 2 + c_cb C ^ 2 * c_sa C ^ 2)); [field; lra|].
      rewrite VV, Pa. unfold gram. ring.
    - transitivity (c_b C * c_b C * (c_sa C ^ 2 + c_ca C ^ 2)); [ring|]. rewrite Pa. ring.
  Qed.
  Lemma stdbase_det : det (mk_stdbase (lp C)) = V * c_a C * c_b C * c_c C.
  Proof.
    pose proof (V_pos C OK). unfold mk_stdbase. rewrite std01, std00. unfold det. cbn [x00 x01 x02 x10 x11 x12 x20 x21 x22 la lb lc sa ca cb cg lp mklatpar]. field. lra.
  Qed.
  Lemma stdbase_det_pos : 0 < det (mk_stdbase (lp C)).
  Proof. rewrite stdbase_det. pose proof (V_pos C OK). repeat apply Rmult_lt_0_compat; auto. Qed.

  Lemma metrics_rec : mm (mk_metrics (lp C)) (mk_metrics (lp (rec_cell C))) = mid.
  Proof.
    pose proof (rec_metric C OK) as H.
    pose proof (H 0 0 ltac:(lia) ltac:(lia))%nat as H00. pose proof (H 0 1 ltac:(lia) ltac:(lia))%nat as H01. pose proof (H 0 2 ltac:(lia) ltac:(lia))%nat as H02.
    pose proof (H 1 0 ltac:(lia) ltac:(lia))%nat as H10. pose proof (H 1 1 ltac:(lia) ltac:(lia))%nat as H11. pose proof (H 1 2 ltac:(lia) ltac:(lia))%nat as H12.
    pose proof (H 2 0 ltac:(lia) ltac:(lia))%nat as H20. pose proof (H 2 1 ltac:(lia) ltac:(lia))%nat as H21. pose proof (H 2 2 ltac:(lia) ltac:(lia))%nat as H22.
    clear H. unfold mm, mk_metrics, mid. cbn [x00 x01 x02 x10 x11 x12 x20 x21 x22 la lb lc ca cb cg lp mklatpar].
    cbn [metric Nat.eqb] in *. now rewrite H00, H01, H02, H10, H11, H12, H20, H21, H22.
  Qed.
End Cell.

Section Built.
  Context (L : lattice) (C : cell) (B : built L C).
  Let OK := b_ok _ _ B.
  Let pa := pos_a _ OK. Let pb := pos_b _ OK. Let pc := pos_c _ OK.

  Lemma base_gram : mm (base L) (tr (base L)) = mk_metrics (lp C).
  Proof.
    rewrite (b_base _ _ B), tr_mm, <- mm_assoc, (mm_assoc (baserot L)), (proj1 (b_rot _ _ B)), mm_id_l.
    apply stdbase_metrics, OK.
  Qed.
  Lemma base_det : det (base L) = sqrt (gram C) * c_a C * c_b C * c_c C.
  Proof. rewrite (b_base _ _ B), det_mm, (proj2 (b_rot _ _ B)), (stdbase_det C OK). ring. Qed.
  Lemma base_det_pos : 0 < det (base L).
  Proof. rewrite base_det, <- (stdbase_det C OK). apply stdbase_det_pos, OK. Qed.
  Lemma bi_r : mm (base L) (recbase L) = mid.
  Proof. rewrite (b_rec _ _ B). apply inv_r. pose proof base_det_pos. lra. Qed.
  Lemma bi_l : mm (recbase L) (base L) = mid.
  Proof. rewrite (b_rec _ _ B). apply inv_l. pose proof base_det_pos. lra. Qed.

  Lemma ldot_met u v : ldot L u v = vdot u (mv (metrics L) v).
  Proof.
    rewrite (b_met _ _ B). unfold ldot, mk_metrics, mv, vdot. rewrite (b_met _ _ B). unfold mk_metrics.
    cbn [x00 x01 x02 x10 x11 x12 x20 x21 x22 vx vy vz]. ring.
  Qed.
  Lemma ldot_cart u v : ldot L u v = vdot (cartesian L u) (cartesian L v).
  Proof. unfold cartesian. rewrite dot_vm, base_gram, ldot_met, (b_met _ _ B). reflexivity. Qed.

  Lemma norm_nb : mm (normbase L) (recnormbase L) = mid /\ mm (recnormbase L) (normbase L) = mid.
  Proof.
    rewrite (b_nb _ _ B), (b_rnb _ _ B).
    pose proof (rec_ok C OK) as OKr.
    assert (Ha : ar (lp C) <> 0) by (change (ar (lp C)) with (c_a (rec_cell C)); pose proof (pos_a _ OKr); lra).
    assert (Hb : br (lp C) <> 0) by (change (br (lp C)) with (c_b (rec_cell C)); pose proof (pos_b _ OKr); lra).
    assert (Hc : cr (lp C) <> 0) by (change (cr (lp C)) with (c_c (rec_cell C)); pose proof (pos_c _ OKr); lra).
    set (k0 := ar (lp C)) in *. set (k1 := br (lp C)) in *. set (k2 := cr (lp C)) in *.
    pose proof bi_r as Hr. pose proof bi_l as Hl.
    unfold mk_normbase, mk_recnormbase. fold k0 k1 k2. destruct (base L) as [b00 b01 b02 b10 b11 b12 b20 b21 b22].
    destruct (recbase L) as [r00 r01 r02 r10 r11 r12 r20 r21 r22].
    unfold mm, mid, rows, cols, vscale, row0, row1, row2, col0, col1, col2 in *. cbn [x00 x01 x02 x10 x11 x12 x20 x21 x22 vx vy vz] in *.
    injection Hr as E00 E01 E02 E10 E11 E12 E20 E21 E22. injection Hl as F00 F01 F02 F10 F11 F12 F20 F21 F22.
    split; f_equal.
    - rewrite <- E00 at 1. field; auto.
    - transitivity (k0 * / k1 * (b00 * r01 + b01 * r11 + b02 * r21)); [field; auto|rewrite E01; ring].
    - transitivity (k0 * / k2 * (b00 * r02 + b01 * r12 + b02 * r22)); [field; auto|rewrite E02; ring].
    - transitivity (k1 * / k0 * (b10 * r00 + b11 * r10 + b12 * r20)); [field; auto|rewrite E10; ring].
    - rewrite <- E11 at 1. field; auto.
    - transitivity (k1 * / k2 * (b10 * r02 + b11 * r12 + b12 * r22)); [field; auto|rewrite E12; ring].
    - transitivity (k2 * / k0 * (b20 * r00 + b21 * r10 + b22 * r20)); [field; auto|rewrite E20; ring].
    - transitivity (k2 * / k1 * (b20 * r01 + b21 * r11 + b22 * r21)); [field; auto|rewrite E21; ring].
    - rewrite <- E22 at 1. field; auto.
    - rewrite <- F00 at 1. field; auto.
    - rewrite <- F01 at 1. field; auto.
    - rewrite <- F02 at 1. field; auto.
    - rewrite <- F10 at 1. field; auto.
    - rewrite <- F11 at 1. field; auto.
    - rewrite <- F12 at 1. field; auto.
    - rewrite <- F20 at 1. field; auto.
    - rewrite <- F21 at 1. field; auto.
    - rewrite <- F22 at 1. field; auto.
  Qed.

  Lemma rec_gram : mm (tr (recbase L)) (recbase L) = mk_metrics (lp (rec_cell C)).
  Proof.
    rewrite <- (mm_id_r (mm (tr (recbase L)) (recbase L))), <- (metrics_rec C OK), <- base_gram.
    rewrite (mm_assoc _ (mm (base L) (tr (base L)))), <- (mm_assoc (tr (recbase L)) (recbase L)).
    rewrite (mm_assoc (recbase L)), bi_l, mm_id_l, <- tr_mm, bi_r, tr_id. apply mm_id_l.
  Qed.

  Lemma dots :
    vdot (Lva L) (Lva L) = c_a C * c_a C /\ vdot (Lvb L) (Lvb L) = c_b C * c_b C /\ vdot (Lvc L) (Lvc L) = c_c C * c_c C /\
    vdot (Lva L) (Lvb L) = c_a C * c_b C * c_cg C /\ vdot (Lva L) (Lvc L) = c_a C * c_c C * c_cb C /\ vdot (Lvb L) (Lvc L) = c_b C * c_c C * c_ca C.
  Proof.
    pose proof base_gram as H. rewrite (b_va _ _ B), (b_vb _ _ B), (b_vc _ _ B).
    destruct (base L) as [b00 b01 b02 b10 b11 b12 b20 b21 b22]. unfold mm, tr, mk_metrics, vdot, row0, row1, row2 in *.
    cbn [x00 x01 x02 x10 x11 x12 x20 x21 x22 vx vy vz la lb lc ca cb cg lp mklatpar] in *.
    injection H as E00 E01 E02 E10 E11 E12 E20 E21 E22. repeat split; auto.
  Qed.
  Lemma dots_rec :
    vdot (Lvar L) (Lvar L) = c_a (rec_cell C) * c_a (rec_cell C) /\ vdot (Lvbr L) (Lvbr L) = c_b (rec_cell C) * c_b (rec_cell C) /\
    vdot (Lvcr L) (Lvcr L) = c_c (rec_cell C) * c_c (rec_cell C).
  Proof.
    pose proof rec_gram as H. rewrite (b_var _ _ B), (b_vbr _ _ B), (b_vcr _ _ B).
    destruct (recbase L) as [b00 b01 b02 b10 b11 b12 b20 b21 b22]. unfold mm, tr, mk_metrics, vdot, col0, col1, col2 in *.
    cbn [x00 x01 x02 x10 x11 x12 x20 x21 x22 vx vy vz la lb lc lp mklatpar] in *.
    injection H as E00 E01 E02 E10 E11 E12 E20 E21 E22. repeat split; auto.
  Qed.

  Lemma built_consistent : consistent L.
  Proof.
    destruct dots as (D1 & D2 & D3 & D4 & D5 & D6). destruct dots_rec as (R1 & R2 & R3).
    pose proof (rec_ok C OK) as OKr. destruct norm_nb as [N1 N2].
    pose proof (cos_le_1 _ _ (pyt_a _ OK)). pose proof (cos_le_1 _ _ (pyt_b _ OK)). pose proof (cos_le_1 _ _ (pyt_g _ OK)).
    assert (NA : vnorm (Lva L) = c_a C) by (unfold vnorm; rewrite D1; apply sqrt_square; lra).
    assert (NB : vnorm (Lvb L) = c_b C) by (unfold vnorm; rewrite D2; apply sqrt_square; lra).
    assert (NC : vnorm (Lvc L) = c_c C) by (unfold vnorm; rewrite D3; apply sqrt_square; lra).
    assert (HN : forall u, lnorm L u = vnorm (cartesian L u)) by (intros u; unfold lnorm, vnorm; now rewrite ldot_cart).
    assert (HV : volume L = det (base L)).
    { rewrite base_det. unfold volume. rewrite (b_sc _ _ B). reflexivity. }
    assert (HD : det (base L) = vdot (Lva L) (vcross (Lvb L) (Lvc L))).
    { rewrite (b_va _ _ B), (b_vb _ _ B), (b_vc _ _ B). destruct (base L). unfold det, vdot, vcross, row0, row1, row2. cbn. ring. }
    split; auto.
    - intros u. unfold fractional, cartesian. now rewrite vm_mm, bi_r, vm_id.
    - intros u. unfold fractional, cartesian. now rewrite vm_mm, bi_l, vm_id.
    - apply ldot_cart.
    - intros u v. unfold ldist, vdist. rewrite HN. unfold cartesian. now rewrite vm_vsub.
    - intros M. unfold fractionalMatrix, cartesianMatrix. rewrite <- !mm_assoc, N1, mm_id_r, mm_assoc, <- tr_mm, N1, tr_id. apply mm_id_l.
    - intros M. unfold fractionalMatrix, cartesianMatrix. rewrite <- !mm_assoc, N2, mm_id_r, mm_assoc, <- tr_mm, N2, tr_id. apply mm_id_l.
    - rewrite (b_va _ _ B). unfold cartesian, vm, row0. cbn. f_equal; ring.
    - rewrite (b_vb _ _ B). unfold cartesian, vm, row1. cbn. f_equal; ring.
    - rewrite (b_vc _ _ B). unfold cartesian, vm, row2. cbn. f_equal; ring.
    - rewrite NA, (b_sc _ _ B). reflexivity.
    - rewrite NB, (b_sc _ _ B). reflexivity.
    - rewrite NC, (b_sc _ _ B). reflexivity.
    - unfold vangle. rewrite NB, NC, D6, <- (b_al _ _ B), acosd_acos by auto. do 3 f_equal. field. lra.
    - unfold vangle. rewrite NA, NC, D5, <- (b_be _ _ B), acosd_acos by auto. do 3 f_equal. field. lra.
    - unfold vangle. rewrite NA, NB, D4, <- (b_ga _ _ B), acosd_acos by auto. do 3 f_equal. field. lra.
    - congruence.
    - rewrite HV. apply base_det_pos.
    - pose proof bi_r as Hr. rewrite (b_va _ _ B), (b_vb _ _ B), (b_vc _ _ B), (b_var _ _ B), (b_vbr _ _ B), (b_vcr _ _ B).
      destruct (base L) as [b00 b01 b02 b10 b11 b12 b20 b21 b22].
      destruct (recbase L) as [r00 r01 r02 r10 r11 r12 r20 r21 r22].
      unfold mm, mid, vdot, row0, row1, row2, col0, col1, col2 in *. cbn [x00 x01 x02 x10 x11 x12 x20 x21 x22 vx vy vz] in *.
      injection Hr as E00 E01 E02 E10 E11 E12 E20 E21 E22. repeat split; auto.
    - unfold vnorm. rewrite R1, sqrt_square by (pose proof (pos_a _ OKr); lra). rewrite (b_sc _ _ B). reflexivity.
    - unfold vnorm. rewrite R2, sqrt_square by (pose proof (pos_b _ OKr); lra). rewrite (b_sc _ _ B). reflexivity.
    - unfold vnorm. rewrite R3, sqrt_square by (pose proof (pos_c _ OKr); lra). rewrite (b_sc _ _ B). reflexivity.
    - rewrite (b_std _ _ B). split; [apply (b_base _ _ B)|]. apply (b_rot _ _ B).
  Qed.
End Built.

(** *** the two setters *)
Definition cell_of_par (a b c al be ga : R) : cell :=
  {| c_a := a; c_b := b; c_c := c; c_ca := cosd al; c_cb := cosd be; c_cg := cosd ga; c_sa := sind al; c_sb := sind be; c_sg := sind ga |}.
Lemma good_params_cell a b c al be ga : good_params a b c al be ga -> cell_ok (cell_of_par a b c al be ga).
Proof.
  intros (Ha & Hb & Hc & H1 & H2 & H3 & HV). pose proof PI_RGT_0 as HP.
  assert (HS : forall t, 0 < t < 180 -> 0 < sind t) by (intros t Ht; rewrite sind_sin; apply sin_gt_0; nra).
  assert (HQ : forall t, sind t * sind t + cosd t * cosd t = 1) by (intros t; rewrite sind_sin, cosd_cos; apply sin2_cos2).
  split; cbn; auto. unfold gram; cbn. rewrite !cosd_cos. exact HV.
Qed.
Lemma setLatPar_built L a b c al be ga : rotation (baserot L) -> good_params a b c al be ga ->
  built (setLatPar L a b c al be ga) (cell_of_par a b c al be ga).
Proof.
  intros HR HG. pose proof (good_params_cell _ _ _ _ _ _ HG) as OK.
  destruct HG as (Ha & Hb & Hc & H1 & H2 & H3 & HV).
  split; auto; cbn [c_ca c_cb c_cg cell_of_par alpha beta gamma setLatPar]; apply acosd_cosd; lra.
Qed.

Lemma det_cross va vb vc : det (rows va vb vc) = vdot va (vcross vb vc) /\ det (rows va vb vc) = vdot vb (vcross vc va) /\ det (rows va vb vc) = vdot vc (vcross va vb).
Proof. repeat split; vring. Qed.
Lemma lagrange u v : vdot (vcross u v) (vcross u v) = vdot u u * vdot v v - vdot u v * vdot u v.
Proof. vring. Qed.
Lemma gram_det u v w : det (rows u v w) * det (rows u v w) =
  vdot u u * vdot v v * vdot w w + 2 * vdot v w * vdot u w * vdot u v - vdot v w * vdot v w * vdot u u
  - vdot u w * vdot u w * vdot v v - vdot u v * vdot u v * vdot w w.
Proof. vring. Qed.
Lemma cross_swap u v : vdot (vcross v u) (vcross v u) = vdot (vcross u v) (vcross u v). Proof. vring. Qed.
Lemma rows_gram u v w : mm (rows u v w) (tr (rows u v w)) =
  M3 (vdot u u) (vdot u v) (vdot u w) (vdot u v) (vdot v v) (vdot v w) (vdot u w) (vdot v w) (vdot w w).
Proof. vring. Qed.
Section SetBase.
  Context (va vb vc : vec) (Hd : 0 < det (rows va vb vc)).
  Notation a := (vnorm va). Notation b := (vnorm vb). Notation c := (vnorm vc).
  Definition cell_of_base : cell :=
    {| c_a := a; c_b := b; c_c := c; c_ca := vdot vb vc / (b * c); c_cb := vdot va vc / (a * c); c_cg := vdot va vb / (a * b);
       c_sa := sqrt (1 - vdot vb vc / (b * c) * (vdot vb vc / (b * c))); c_sb := sqrt (1 - vdot va vc / (a * c) * (vdot va vc / (a * c)));
       c_sg := sqrt (1 - vdot va vb / (a * b) * (vdot va vb / (a * b))) |}.

  Lemma norm_pos_dot u w : 0 < vdot u w -> 0 < vdot u u /\ 0 < vdot w w.
  Proof.
    intros H. pose proof (cauchy u w). pose proof (vdot_nonneg u). pose proof (vdot_nonneg w).
    split; apply Rnot_le_lt; intros Hn.
    - assert (vdot u u = 0) by lra. rewrite H3 in H0. nra.
    - assert (vdot w w = 0) by lra. rewrite H3 in H0. nra.
  Qed.
  Lemma n_pos u : 0 < vdot u u -> 0 < vnorm u.
  Proof. apply sqrt_lt_R0. Qed.

  Lemma cos_sq u v : 0 < vdot u u -> 0 < vdot v v -> 0 < vdot (vcross u v) (vcross u v) ->
    0 < 1 - vdot u v / (vnorm u * vnorm v) * (vdot u v / (vnorm u * vnorm v)).
  Proof.
    intros Hu Hv Hc. pose proof (n_pos _ Hu) as Nu. pose proof (n_pos _ Hv) as Nv. rewrite lagrange in Hc.
    rewrite <- !vnorm_sq in Hc.
    replace (1 - vdot u v / (vnorm u * vnorm v) * (vdot u v / (vnorm u * vnorm v)))
      with ((vnorm u * vnorm u * (vnorm v * vnorm v) - vdot u v * vdot u v) / ((vnorm u * vnorm v) * (vnorm u * vnorm v))) by (field; lra).
    apply Rdiv_lt_0_compat; [lra|]. nra.
  Qed.

  Lemma base_lengths : 0 < vdot va va /\ 0 < vdot vb vb /\ 0 < vdot vc vc /\
    0 < vdot (vcross vb vc) (vcross vb vc) /\ 0 < vdot (vcross va vc) (vcross va vc) /\ 0 < vdot (vcross va vb) (vcross va vb).
  Proof.
    destruct (det_cross va vb vc) as (E1 & E2 & E3). rewrite E1 in Hd. destruct (norm_pos_dot _ _ Hd) as [A1 A2].
    rewrite <- E1, E2 in Hd. destruct (norm_pos_dot _ _ Hd) as [B1 B2].
    rewrite <- E2, E3 in Hd. destruct (norm_pos_dot _ _ Hd) as [C1 C2].
    rewrite cross_swap in B2. tauto.
  Qed.


  Lemma cell_of_base_ok : cell_ok cell_of_base.
  Proof.
    destruct base_lengths as (A & B & C' & X1 & X2 & X3).
    pose proof (n_pos _ A) as NA. pose proof (n_pos _ B) as NB. pose proof (n_pos _ C') as NC.
    pose proof (cos_sq _ _ B C' X1) as S1. pose proof (cos_sq _ _ A C' X2) as S2. pose proof (cos_sq _ _ A B X3) as S3.
    split; cbn; auto; try (now apply sqrt_lt_R0); try (rewrite sqrt_sqrt by lra; ring).
    pose proof (gram_det va vb vc) as HG. rewrite <- !vnorm_sq in HG.
    replace (gram cell_of_base) with (det (rows va vb vc) * det (rows va vb vc) / ((a * b * c) * (a * b * c))).
    - apply Rdiv_lt_0_compat; [nra|]. assert (0 < a * b * c) by (repeat apply Rmult_lt_0_compat; auto). nra.
    - rewrite HG. unfold gram; cbn. field. repeat split; lra.
  Qed.

  Lemma base_metrics : mm (rows va vb vc) (tr (rows va vb vc)) = mk_metrics (lp cell_of_base).
  Proof.
    destruct base_lengths as (A & B & C' & _ & _ & _).
    pose proof (n_pos _ A) as NA. pose proof (n_pos _ B) as NB. pose proof (n_pos _ C') as NC.
    unfold mk_metrics. cbn [la lb lc ca cb cg lp mklatpar c_a c_b c_c c_ca c_cb c_cg cell_of_base].
    replace (a * b * (vdot va vb / (a * b))) with (vdot va vb) by (field; lra).
    replace (a * c * (vdot va vc / (a * c))) with (vdot va vc) by (field; lra).
    replace (b * c * (vdot vb vc / (b * c))) with (vdot vb vc) by (field; lra).
    rewrite !vnorm_sq. apply rows_gram.
  Qed.
End SetBase.

Lemma rot_of_base S B : det S <> 0 -> mm B (tr B) = mm S (tr S) -> 0 < det S -> 0 < det B -> rotation (mm (minv S) B).
Proof.
  intros HS HG PS PB.
  assert (HO : mm (mm (minv S) B) (tr (mm (minv S) B)) = mid).
  { rewrite tr_mm, <- mm_assoc, (mm_assoc B), HG.
    rewrite <- (mm_assoc S (tr S)), (mm_assoc (minv S) S), (inv_l S HS), mm_id_l, <- tr_mm, (inv_l S HS). apply tr_id. }
  split; auto.
  assert (HD : det S * det (mm (minv S) B) = det B) by (rewrite <- det_mm, mm_assoc, (inv_r S HS), mm_id_l; auto).
  assert (H2 : det (mm (minv S) B) * det (mm (minv S) B) = 1).
  { rewrite <- (det_tr (mm (minv S) B)) at 2. rewrite <- det_mm, HO. apply det_id. }
  set (x := det (mm (minv S) B)) in *. assert (0 < x) by nra. nra.
Qed.

Lemma setLatBase_cases L va vb vc :
  (/ 100000000 <= det (rows va vb vc) -> exists L', setLatBase L va vb vc = Ok L' /\ built L' (cell_of_base va vb vc)) /\
  (det (rows va vb vc) < / 100000000 -> setLatBase L va vb vc = Throw InvalidArgument (with_base L (rows va vb vc))).
Proof.
  assert (HT : 0 < / 100000000) by (apply Rinv_0_lt_compat; lra).
  split; intros Hd.
  - assert (Hp : 0 < det (rows va vb vc)) by lra.
    unfold setLatBase. rewrite (Rabs_pos_eq (det (rows va vb vc))) by lra.
    replace (Rltb (det (rows va vb vc)) (/ 100000000)) with false by (symmetry; apply Rltb_false; lra).
    replace (Rltb (det (rows va vb vc)) 0) with false by (symmetry; apply Rltb_false; lra).
    eexists. split; [reflexivity|].
    pose proof (cell_of_base_ok va vb vc Hp) as OK. pose proof (stdbase_det_pos _ OK) as HS.
    split; auto.
    + cbn [base baserot]. change (mklatpar _ _ _ _ _ _ _ _ _) with (lp (cell_of_base va vb vc)).
      rewrite mm_assoc, inv_r, mm_id_l by lra. reflexivity.
    + cbn [baserot]. change (mklatpar _ _ _ _ _ _ _ _ _) with (lp (cell_of_base va vb vc)).
      apply rot_of_base; auto; [lra|]. rewrite base_metrics, stdbase_metrics; auto.
    + now destruct va.
    + now destruct vb.
    + now destruct vc.
  - unfold setLatBase. destruct (Rltb (Rabs _) _) eqn:E; auto.
    apply Rltb_false in E. replace (Rltb (det (rows va vb vc)) 0) with true; auto. symmetry. apply Rltb_true.
    unfold Rabs in E. destruct (Rcase_abs _); lra.
Qed.

Lemma rot_id : rotation mid.
Proof. split; [rewrite tr_id; apply mm_id_l|apply det_id]. Qed.
Lemma good_default : good_params 1 1 1 90 90 90.
Proof.
  repeat split; try lra. cbn zeta. replace (90 / 180 * PI) with (PI / 2) by field. rewrite cos_PI2. lra.
Qed.
Lemma lattice0_built : built lattice0 (cell_of_par 1 1 1 90 90 90).
Proof. apply setLatPar_built; [apply rot_id|apply good_default]. Qed.

Lemma step_rot L o : rotation (baserot L) -> admissible o -> rotation (baserot (lat_step L o)).
Proof.
  intros HR HA. destruct o as [a b c al be ga|va vb vc]; cbn in *; auto.
  destruct (setLatBase_cases L va vb vc) as [H1 H2].
  destruct (Rle_or_lt (/ 100000000) (det (rows va vb vc))) as [H|H].
  - destruct (H1 H) as (L' & -> & HB). apply (b_rot _ _ HB).
  - rewrite (H2 H). exact HR.
Qed.
Lemma run_rot ops : Forall admissible ops -> forall L, rotation (baserot L) -> rotation (baserot (fold_left lat_step ops L)).
Proof. induction 1 as [|o ops Ho _ IH]; intros L HR; cbn; auto. apply IH, step_rot; auto. Qed.

Lemma step_good L o : rotation (baserot L) -> good_op o -> exists C, built (lat_step L o) C.
Proof.
  intros HR HG. destruct o as [a b c al be ga|va vb vc]; cbn in *.
  - eexists. now apply setLatPar_built.
  - destruct (setLatBase_cases L va vb vc) as [H1 _].
    destruct H1 as (L' & -> & HB); [|eauto]. unfold good_base in HG. now destruct (det_cross va vb vc) as (-> & _).
Qed.

Theorem lattice_consistent ops o : Forall admissible ops -> good_op o -> consistent (lat_run (ops ++ [o])).
Proof.
  intros HA HG. unfold lat_run. rewrite fold_left_app. cbn.
  destruct (step_good (fold_left lat_step ops lattice0) o) as [C HB]; auto.
  - apply run_rot; auto. apply (b_rot _ _ lattice0_built).
  - eapply built_consistent; eauto.
Qed.
Theorem lattice0_consistent : consistent lattice0.
Proof. eapply built_consistent, lattice0_built. Qed.
(** setLatPar is honoured *)
Theorem setLatPar_params L a b c al be ga :
  let L' := setLatPar L a b c al be ga in
  la (sc L') = a /\ lb (sc L') = b /\ lc (sc L') = c /\ alpha L' = al /\ beta L' = be /\ gamma L' = ga.
Proof. cbn. auto 10. Qed.
Theorem setLatBase_base L va vb vc : good_base va vb vc ->
  exists L', setLatBase L va vb vc = Ok L' /\ Lva L' = va /\ Lvb L' = vb /\ Lvc L' = vc /\ base L' = rows va vb vc.
Proof.
  intros HG. destruct (setLatBase_cases L va vb vc) as [H1 _].
  unfold good_base in HG. destruct (det_cross va vb vc) as (E & _). rewrite <- E in HG. destruct (H1 HG) as (L' & HL & HB).
  exists L'. split; auto. unfold setLatBase in HL. destruct (Rltb _ _); [discriminate|]. destruct (Rltb _ _); [discriminate|].
  injection HL as <-. cbn. auto.
Qed.

(** *** rejected bases *)
Theorem setLatBase_throws L va vb vc :
  (exists L', setLatBase L va vb vc = Throw InvalidArgument L') <-> ~ good_base va vb vc.
Proof.
  destruct (setLatBase_cases L va vb vc) as [H1 H2]. destruct (det_cross va vb vc) as (E & _). unfold good_base. rewrite <- E.
  split.
  - intros [L' HL] Hg. destruct (H1 Hg) as (L2 & HL2 & _). congruence.
  - intros Hg. exists (with_base L (rows va vb vc)). apply H2. lra.
Qed.
Theorem setLatBase_throw_state L va vb vc L' : setLatBase L va vb vc = Throw InvalidArgument L' ->
  base L' = rows va vb vc /\
  sc L' = sc L /\ recbase L' = recbase L /\ metrics L' = metrics L /\ baserot L' = baserot L /\ stdbase L' = stdbase L /\
  (Lva L', Lvb L', Lvc L', Lvar L', Lvbr L', Lvcr L') = (Lva L, Lvb L, Lvc L, Lvar L, Lvbr L, Lvcr L).
Proof.
  intros H. destruct (setLatBase_cases L va vb vc) as [H1 H2].
  destruct (Rle_or_lt (/ 100000000) (det (rows va vb vc))) as [Hd|Hd].
  - destruct (H1 Hd) as (L2 & HL2 & _). congruence.
  - rewrite (H2 Hd) in H. injection H as <-. cbn. auto 10.
Qed.
Theorem setLatBase_throw_broken : exists va vb vc L',
  setLatBase lattice0 va vb vc = Throw InvalidArgument L' /\
  exists u, fractional L' (cartesian L' u) <> u /\ lnorm L' u <> vnorm (cartesian L' u).
Proof.
  destruct (setLatBase_cases lattice0 vzero vzero vzero) as [_ H2].
  assert (Hd : det (rows vzero vzero vzero) = 0) by (clear; vring).
  exists vzero, vzero, vzero, (with_base lattice0 (rows vzero vzero vzero)). split; [apply H2; rewrite Hd; apply Rinv_0_lt_compat; lra|].
  exists (V3 1 0 0).
  assert (HC : cartesian (with_base lattice0 (rows vzero vzero vzero)) (V3 1 0 0) = vzero) by (unfold cartesian; cbn [base with_base]; clear; vring).
  rewrite HC. split.
  - unfold fractional. intros H. apply (f_equal vx) in H. unfold vm, vzero in H. cbn [vx vy vz] in H. lra.
  - assert (HN : lnorm (with_base lattice0 (rows vzero vzero vzero)) (V3 1 0 0) = 1).
    { change (lnorm lattice0 (V3 1 0 0) = 1). rewrite (k_norm _ lattice0_consistent), (k_va _ lattice0_consistent), (k_a _ lattice0_consistent). reflexivity. }
    rewrite HN. unfold vnorm. replace (vdot vzero vzero) with 0 by (clear; vring). rewrite sqrt_0. lra.
Qed.

(** *** unit cell reduction *)
Lemma snap_spec x : 0 <= snap x < 1 /\ exists k : Z, Rabs (snap x - (x - IZR k)) <= SQRT_DOUBLE_EPS /\ (snap x <> 0 -> snap x = x - IZR k).
Proof.
  unfold snap. destruct (Rfloor_spec x) as [H1 H2].
  assert (HE : 0 < SQRT_DOUBLE_EPS) by (unfold SQRT_DOUBLE_EPS; apply Rinv_0_lt_compat; lra).
  unfold eps_eq. destruct (Rleb _ _) eqn:E.
  - split; [lra|]. exists (Rfloor x + 1)%Z. apply Rleb_true in E. rewrite plus_IZR. split; [|congruence].
    replace (0 - (x - (IZR (Rfloor x) + 1))) with (- (x - IZR (Rfloor x) - 1)) by ring. now rewrite Rabs_Ropp.
  - split; [lra|]. exists (Rfloor x). split; auto. rewrite Rminus_diag_eq by auto. rewrite Rabs_R0. lra.
Qed.
Lemma Rfloor_unit x : 0 <= x < 1 -> Rfloor x = 0%Z.
Proof.
  intros H. destruct (Rfloor_spec x). assert ((Rfloor x < 1)%Z) by (apply lt_IZR; lra). assert ((-1 < Rfloor x)%Z) by (apply lt_IZR; lra). lia.
Qed.
Lemma snap_idem x : snap (snap x) = snap x.
Proof.
  destruct (snap_spec x) as [H _]. unfold snap at 1. rewrite (Rfloor_unit _ H). rewrite Rminus_0_r.
  destruct (eps_eq (snap x) 1 SQRT_DOUBLE_EPS) eqn:E; auto.
  unfold snap in *. destruct (eps_eq (x - IZR (Rfloor x)) 1 SQRT_DOUBLE_EPS) eqn:E2; auto. congruence.
Qed.
Definition in_cell (u : vec) : Prop := 0 <= vx u < 1 /\ 0 <= vy u < 1 /\ 0 <= vz u < 1.
Theorem ucv_spec u : in_cell (ucvFractional u) /\ ucvFractional (ucvFractional u) = ucvFractional u /\
  exists i j k : Z, let w := vsub u (V3 (IZR i) (IZR j) (IZR k)) in
    Rabs (vx (ucvFractional u) - vx w) <= SQRT_DOUBLE_EPS /\ Rabs (vy (ucvFractional u) - vy w) <= SQRT_DOUBLE_EPS /\
    Rabs (vz (ucvFractional u) - vz w) <= SQRT_DOUBLE_EPS.
Proof.
  destruct (snap_spec (vx u)) as (A1 & i & B1 & _). destruct (snap_spec (vy u)) as (A2 & j & B2 & _). destruct (snap_spec (vz u)) as (A3 & k & B3 & _).
  split; [repeat split; cbn; lra|]. split; [unfold ucvFractional; cbn; now rewrite !snap_idem|].
  exists i, j, k. cbn. auto.
Qed.
(** Away from the snapping zone the reduction is an exact lattice translation. *)
Theorem ucv_exact u : (forall x, In x [vx u; vy u; vz u] -> x - IZR (Rfloor x) < 1 - SQRT_DOUBLE_EPS) ->
  exists i j k : Z, ucvFractional u = vsub u (V3 (IZR i) (IZR j) (IZR k)).
Proof.
  intros H. exists (Rfloor (vx u)), (Rfloor (vy u)), (Rfloor (vz u)).
  assert (HS : forall x, x - IZR (Rfloor x) < 1 - SQRT_DOUBLE_EPS -> snap x = x - IZR (Rfloor x)).
  { intros x Hx. unfold snap. destruct (eps_eq _ _ _) eqn:E; auto. unfold eps_eq in E. apply Rleb_true in E.
    destruct (Rfloor_spec x). rewrite Rabs_left in E by lra. lra. }
  unfold ucvFractional, vsub. cbn. rewrite !HS; auto; apply H; cbn; auto.
Qed.
Theorem ucvCartesian_idem L : consistent L -> forall u, ucvCartesian L (ucvCartesian L u) = ucvCartesian L u /\ in_cell (fractional L (ucvCartesian L u)).
Proof.
  intros HC u. unfold ucvCartesian. rewrite (k_inv1 _ HC). destruct (ucv_spec (fractional L u)) as (A & E & _). rewrite E. auto.
Qed.

(** *** the largest diagonal bounds the distance of two points of the unit cell *)
Lemma quad_max (t q0 q1 q2 x M : R) : 0 <= q2 -> -t <= x <= t ->
  q0 + q1 * t + q2 * t * t <= M -> q0 - q1 * t + q2 * t * t <= M -> q0 + q1 * x + q2 * x * x <= M.
Proof.
  intros H Hx H1 H2. assert (HX : x * x <= t * t) by nra. destruct (Rle_or_lt 0 q1) as [Hq|Hq]; nra.
Qed.

Lemma fold_max_ge (f : vec -> R) l : forall acc,
  fst acc = f (snd acc) \/ (forall v, fst acc < f v) ->
  let r := fold_left (fun (acc : R * vec) v => if Rltb (fst acc) (f v) then (f v, v) else acc) l acc in
  (fst r = f (snd r) \/ (forall v, fst r < f v)) /\ fst acc <= fst r /\ forall v, In v l -> f v <= fst r.
Proof.
  induction l as [|w l IH]; intros acc Ha; cbn.
  - repeat split; auto; [lra|tauto].
  - destruct (Rltb (fst acc) (f w)) eqn:E.
    + apply Rltb_true in E. destruct (IH (f w, w)) as (A & B & D); [cbn; auto|]. cbn in B. cbn zeta in A. repeat split; auto; [lra|].
      intros v [<-|Hv]; auto.
    + apply Rltb_false in E. destruct (IH acc Ha) as (A & B & D). repeat split; auto. intros v [<-|Hv]; auto. lra.
Qed.

Lemma lnorm_nonneg L u : 0 <= lnorm L u. Proof. apply sqrt_pos. Qed.
Lemma maxdiag_ge L v : In v diagonals -> lnorm L v <= ucMaxDiagonalLength L.
Proof.
  intros Hv. unfold ucMaxDiagonalLength, ucMaxDiagonal.
  destruct (fold_max_ge (lnorm L) diagonals (-1, vzero)) as (A & B & D).
  - right. intros w. cbn. pose proof (lnorm_nonneg L w). lra.
  - cbn zeta in *. destruct A as [A|A].
    + rewrite <- A. now apply D.
    + exfalso. specialize (D _ Hv). specialize (A v). lra.
Qed.

Section Diag.
  Context (L : lattice) (HC : consistent L).
  Notation D := (ucMaxDiagonalLength L).
  Notation M := (metrics L).
  Lemma len_pos : 0 < la (sc L) /\ 0 < lb (sc L) /\ 0 < lc (sc L).
  Proof.
    pose proof (k_vol_pos _ HC) as HV. rewrite (k_vol _ HC) in HV.
    destruct (det_cross (Lva L) (Lvb L) (Lvc L)) as (E1 & E2 & E3).
    rewrite <- (k_a _ HC), <- (k_b _ HC), <- (k_c _ HC).
    destruct (norm_pos_dot _ _ HV) as [P1 _].
    rewrite <- E1, E2 in HV. destruct (norm_pos_dot _ _ HV) as [P2 _].
    rewrite <- E2, E3 in HV. destruct (norm_pos_dot _ _ HV) as [P3 _].
    repeat split; now apply n_pos.
  Qed.
  Lemma ldot_nonneg u : 0 <= ldot L u u. Proof. rewrite (k_dot _ HC). apply vdot_nonneg. Qed.
  Lemma met_diag : 0 <= x00 M /\ 0 <= x11 M /\ 0 <= x22 M.
  Proof.
    pose proof (ldot_nonneg (V3 1 0 0)) as H0. pose proof (ldot_nonneg (V3 0 1 0)) as H1. pose proof (ldot_nonneg (V3 0 0 1)) as H2.
    unfold ldot in *. cbn [vx vy vz] in *. repeat split; lra.
  Qed.
  Lemma corner x y z : (x = 1 \/ x = -1) -> (y = 1 \/ y = -1) -> (z = 1 \/ z = -1) -> ldot L (V3 x y z) (V3 x y z) <= D * D.
  Proof.
    intros Hx Hy Hz.
    assert (HD : forall v, In v diagonals -> ldot L v v <= D * D).
    { intros v Hv. pose proof (maxdiag_ge L v Hv) as H. pose proof (lnorm_nonneg L v). 
      assert (E : ldot L v v = lnorm L v * lnorm L v) by (unfold lnorm; symmetry; apply sqrt_sqrt, ldot_nonneg). rewrite E. nra. }
    assert (HE : exists v, In v diagonals /\ (v = V3 x y z \/ v = V3 (- x) (- y) (- z))).
    { unfold diagonals. destruct Hx as [-> | ->], Hy as [-> | ->], Hz as [-> | ->].
      all: first [ exists (V3 1 1 1); split; [cbn; tauto|first [left; f_equal; lra|right; f_equal; lra]]
                 | exists (V3 (-1) 1 1); split; [cbn; tauto|first [left; f_equal; lra|right; f_equal; lra]]
                 | exists (V3 1 (-1) 1); split; [cbn; tauto|first [left; f_equal; lra|right; f_equal; lra]]
                 | exists (V3 1 1 (-1)); split; [cbn; tauto|first [left; f_equal; lra|right; f_equal; lra]] ]. }
    destruct HE as (v & Hv & HE). specialize (HD v Hv).
    destruct HE as [-> | ->]; auto. unfold ldot in *. cbn [vx vy vz] in *. lra.
  Qed.
  Lemma cube_bound t x y z : -t <= x <= t -> -t <= y <= t -> -t <= z <= t -> ldot L (V3 x y z) (V3 x y z) <= t * t * (D * D).
  Proof.
    intros Hx Hy Hz. destruct met_diag as (G0 & G1 & G2).
    assert (HC1 : forall a b c, (a = 1 \/ a = -1) -> (b = 1 \/ b = -1) -> (c = 1 \/ c = -1) ->
      ldot L (V3 (a * t) (b * t) (c * t)) (V3 (a * t) (b * t) (c * t)) <= t * t * (D * D)).
    { intros a b c Ha Hb Hc. replace (ldot L (V3 (a * t) (b * t) (c * t)) (V3 (a * t) (b * t) (c * t))) with (t * t * ldot L (V3 a b c) (V3 a b c)) by (unfold ldot; cbn [vx vy vz]; ring).
      apply Rmult_le_compat_l; [nra|]. now apply corner. }
    assert (HC2 : forall b c, (b = 1 \/ b = -1) -> (c = 1 \/ c = -1) -> ldot L (V3 x (b * t) (c * t)) (V3 x (b * t) (c * t)) <= t * t * (D * D)).
    { intros b c Hb Hc. pose proof (HC1 1 b c (or_introl eq_refl) Hb Hc) as P. pose proof (HC1 (-1) b c (or_intror eq_refl) Hb Hc) as Q.
      unfold ldot in *. cbn [vx vy vz] in *.
      eapply Rle_trans; [|apply (quad_max t (b * t * (b * t) * x11 M + c * t * (c * t) * x22 M + (c * t * (b * t) + b * t * (c * t)) * x12 M)
         (2 * (b * t) * x01 M + 2 * (c * t) * x02 M) (x00 M) x (t * t * (D * D))); auto; lra].
      right. ring. }
    assert (HC3 : forall c, (c = 1 \/ c = -1) -> ldot L (V3 x y (c * t)) (V3 x y (c * t)) <= t * t * (D * D)).
    { intros c Hc. pose proof (HC2 1 c (or_introl eq_refl) Hc) as P. pose proof (HC2 (-1) c (or_intror eq_refl) Hc) as Q.
      unfold ldot in *. cbn [vx vy vz] in *.
      eapply Rle_trans; [|apply (quad_max t (x * x * x00 M + c * t * (c * t) * x22 M + 2 * x * (c * t) * x02 M)
         (2 * x * x01 M + 2 * (c * t) * x12 M) (x11 M) y (t * t * (D * D))); auto; lra].
      right. ring. }
    pose proof (HC3 1 (or_introl eq_refl)) as P. pose proof (HC3 (-1) (or_intror eq_refl)) as Q.
    unfold ldot in *. cbn [vx vy vz] in *.
    eapply Rle_trans; [|apply (quad_max t (x * x * x00 M + y * y * x11 M + 2 * x * y * x01 M)
         (2 * x * x02 M + 2 * y * x12 M) (x22 M) z (t * t * (D * D))); auto; lra].
    right. ring.
  Qed.
  Lemma D_pos : 0 < D.
  Proof.
    destruct len_pos as (P & _ & _). pose proof (cube_bound 1 1 0 0 ltac:(lra) ltac:(lra) ltac:(lra)) as H.
    assert (HA : ldot L (V3 1 0 0) (V3 1 0 0) = la (sc L) * la (sc L)).
    { rewrite (k_dot _ HC), (k_va _ HC), <- (k_a _ HC), vnorm_sq. reflexivity. }
    rewrite HA in H. assert (HD : 0 <= D) by (apply lnorm_nonneg). nra.
  Qed.
  Theorem cell_diff_lt u v : in_cell u -> in_cell v -> vdist (cartesian L u) (cartesian L v) < D.
  Proof.
    intros (U0 & U1 & U2) (W0 & W1 & W2). rewrite <- (k_dist _ HC). unfold ldist, lnorm.
    destruct u as [u0 u1 u2], v as [v0 v1 v2]. unfold vsub; cbn [vx vy vz] in *.
    set (t := Rmax (Rabs (u0 - v0)) (Rmax (Rabs (u1 - v1)) (Rabs (u2 - v2)))).
    assert (HB : forall x, Rabs x <= t -> - t <= x <= t) by (intros x Hx; unfold Rabs in Hx; destruct (Rcase_abs x); lra).
    assert (T0 : 0 <= t) by (unfold t; eapply Rle_trans; [apply Rabs_pos|apply Rmax_l]).
    assert (T1 : t < 1) by (unfold t; repeat apply Rmax_lub_lt; apply Rabs_def1; lra).
    pose proof (cube_bound t (u0 - v0) (u1 - v1) (u2 - v2)) as H.
    assert (E0 : Rabs (u0 - v0) <= t) by apply Rmax_l.
    assert (E1 : Rabs (u1 - v1) <= t) by (unfold t; eapply Rle_trans; [|apply Rmax_r]; apply Rmax_l).
    assert (E2 : Rabs (u2 - v2) <= t) by (unfold t; eapply Rle_trans; [|apply Rmax_r]; apply Rmax_r).
    specialize (H (HB _ E0) (HB _ E1) (HB _ E2)). pose proof D_pos as HD.
    apply (proj2 (sqrt_lt_iff _ _ (ldot_nonneg _))). split; auto.
    eapply Rle_lt_trans; [exact H|]. assert (HDD : 0 < D * D) by nra. assert (t * t < 1) by nra. nra.
  Qed.
End Diag.

(** *** the sphere built from a lattice object *)
Definition cell_of (L : lattice) : cell :=
  {| c_a := la (sc L); c_b := lb (sc L); c_c := lc (sc L); c_ca := ca (sc L); c_cb := cb (sc L); c_cg := cg (sc L);
     c_sa := sa (sc L); c_sb := sb (sc L); c_sg := sg (sc L) |}.
Lemma built_cell L C : built L C -> cell_of L = C.
Proof. intros B. unfold cell_of. rewrite (b_sc _ _ B). now destruct C. Qed.
Lemma sin_of_acosd c s : 0 < s -> s * s + c * c = 1 -> cosd (acosd c) = c /\ sind (acosd c) = s.
Proof.
  intros Hs Hq. pose proof (cos_le_1 _ _ Hq) as Hc. pose proof PI_RGT_0 as HP.
  rewrite cosd_cos, sind_sin, acosd_acos by auto. replace (acos c / PI * 180 / 180 * PI) with (acos c) by (field; lra).
  split; [now apply cos_acos|]. rewrite sin_acos by auto. apply sqrt_is; [lra|]. unfold Rsqr. lra.
Qed.
Lemma built_latpar L C : built L C -> latpar_of L = lp C.
Proof.
  intros B. pose proof (b_ok _ _ B) as OK. unfold latpar_of. rewrite (b_sc _ _ B), <- (b_al _ _ B), <- (b_be _ _ B), <- (b_ga _ _ B).
  destruct (sin_of_acosd _ _ (sin_a _ OK) (pyt_a _ OK)) as [-> ->].
  destruct (sin_of_acosd _ _ (sin_b _ OK) (pyt_b _ OK)) as [-> ->].
  destruct (sin_of_acosd _ _ (sin_g _ OK) (pyt_g _ OK)) as [-> ->]. reflexivity.
Qed.
Definition ivec (p : Z * Z * Z) : vec := let '(i, j, k) := p in V3 (IZR i) (IZR j) (IZR k).
Lemma built_norm2 L C p : built L C -> sqrt (norm2 C p) = vnorm (cartesian L (ivec p)).
Proof.
  intros B. rewrite <- (k_norm _ (built_consistent _ _ B)). destruct p as [[i j] k]. unfold lnorm, ldot. rewrite (b_met _ _ B).
  f_equal. unfold norm2, mk_metrics, ivec. cbn [vx vy vz x00 x01 x02 x10 x11 x12 x20 x21 x22 la lb lc ca cb cg lp mklatpar]. ring.
Qed.

(** *** angles *)
Lemma lattice_angles L : consistent L -> forall u v, cartesian L u <> vzero -> cartesian L v <> vzero ->
  0 <= anglerad L u v <= PI /\
  vdot (cartesian L u) (cartesian L v) = vnorm (cartesian L u) * vnorm (cartesian L v) * cos (anglerad L u v) /\
  angledeg L u v = anglerad L u v / PI * 180 /\ angledeg L u v = vangle (cartesian L u) (cartesian L v).
Proof.
  intros HC u v Hu Hv. unfold anglerad, angledeg, vangle. rewrite (k_dot _ HC), !(k_norm _ HC).
  generalize dependent (cartesian L u). generalize dependent (cartesian L v). clear u v. intros y Hy x Hx.
  assert (P : forall w, w <> vzero -> 0 < vnorm w).
  { intros w Hw. apply sqrt_lt_R0. destruct w as [a b c]. unfold vdot; cbn [vx vy vz]. destruct (Req_dec a 0); [|nra]. destruct (Req_dec b 0); [|nra]. destruct (Req_dec c 0); [|nra]. subst. now destruct Hw. }
  pose proof (P x Hx) as P1. pose proof (P y Hy) as P2. pose proof (vnorm_sq x) as S1. pose proof (vnorm_sq y) as S2. pose proof (cauchy x y) as CS. rewrite <- S1, <- S2 in CS.
  assert (PQ : 0 < vnorm x * vnorm y) by (apply Rmult_lt_0_compat; auto).
  assert (B : -1 <= vdot x y / (vnorm x * vnorm y) <= 1).
  { assert (HD : - (vnorm x * vnorm y) <= vdot x y <= vnorm x * vnorm y) by (split; nra).
    split; [apply Rmult_le_reg_r with (vnorm x * vnorm y)|apply Rmult_le_reg_r with (vnorm x * vnorm y)]; auto; unfold Rdiv; rewrite Rmult_assoc, Rinv_l by lra; lra. }
  split; [apply acos_bound|]. split; [rewrite cos_acos by auto; field; lra|]. rewrite acosd_acos by auto. auto.
Qed.
