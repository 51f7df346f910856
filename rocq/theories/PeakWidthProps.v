(** C43, C44: peak widths. *)
From Coq Require Import Reals Lra Psatz.
From Verif Require Import Base RBase R3 Peaks PeaksProofs PeakWidth PeakWidthSpec PeakWidthProofs.
Open Scope R_scope.

Theorem C43_constant c stru b : bounds_width (cw_maxWidth c stru) (cw_calculate c) b.
Proof. intros rmin rmax _ _. unfold cw_calculate, cw_maxWidth. lra. Qed.
Print Assumptions C43_constant.

(** Debye-Waller: the bound holds when displacements do not depend on the direction, or when no symmetry turns
    the tensors and those of anisotropic sites are diagonal. *)
Theorem C43_debye_waller_partial l Q b : bond_of l Q b ->
  (forall s, In s l -> spherical (s_U s)) \/ (Q = mid /\ forall s, In s l -> s_aniso s = true -> diagonal (s_U s)) ->
  bounds_width (dw_maxWidth (Some l)) dw_calculate b.
Proof.
  intros Hb [Hs|[-> Hs]] rmin rmax _ _; [now apply (dw_spherical l Q)|now apply dw_diagonal].
Qed.
Print Assumptions C43_debye_waller_partial.

(** For every physical tensor and symmetry operation the width is at most sqrt(3) times the reported maximum. *)
Theorem C43_debye_waller_sqrt3 l Q b : bond_of l Q b -> (forall s, In s l -> valid_tensor (s_U s)) ->
  bounds_width (fun rmin rmax => sqrt 3 * dw_maxWidth (Some l) rmin rmax) dw_calculate b.
Proof. intros Hb Hs rmin rmax _ _. now apply (dw_sqrt3 l Q). Qed.
Print Assumptions C43_debye_waller_sqrt3.

(** Jeong: if the Debye-Waller bound holds, so does this one when delta1 and delta2 are not negative, or
    delta2 is not positive and rmin is at least 2^-52. *)
Theorem C43_jeong_partial j l b : (forall rmin rmax, dw_calculate b <= dw_maxWidth (Some l) rmin rmax) ->
  (0 <= j_delta1 j /\ 0 <= j_delta2 j -> bounds_width (jeong_maxWidth j (Some l)) (jeong_calculate j) b) /\
  (j_delta2 j <= 0 -> forall rmin rmax, / 2 ^ 52 <= rmin -> rmin <= b_dist b <= rmax -> jeong_calculate j b <= jeong_maxWidth j (Some l) rmin rmax).
Proof.
  intros HD. pose proof eps_pos. split.
  - intros Hj rmin rmax H0 Hr. apply jeong_bound; auto.
  - intros Hj rmin rmax H0 Hr. rewrite <- eps_pow in H0. apply jeong_bound; auto. lra.
Qed.
Print Assumptions C43_jeong_partial.

(** Two atoms of a structure without symmetry; the witnesses below. *)
Definition ex_site : usite := mkUS mid false.
Definition ex_bond : ubond := mkUB (V3 1 0 0) mid false mid false.
Lemma ex_norm : vnorm (V3 1 0 0) = 1.
Proof. unfold vnorm, vdot. cbn. replace (1 * 1 + 0 * 0 + 0 * 0) with 1 by ring. apply sqrt_1. Qed.
Lemma mid_orth : orthogonal mid. Proof. unfold orthogonal. rewrite tr_id. apply mm_id_l. Qed.
Lemma ex_bond_of : bond_of [ex_site] mid ex_bond.
Proof. split; [apply mid_orth|]. exists ex_site, ex_site. cbn. rewrite mm_mid_conj. unfold b_dist. cbn. rewrite ex_norm. repeat (split; [auto|]). lra. Qed.
Lemma ex_max : maxUii (Some [ex_site]) = 1.
Proof. cbn. unfold max_step, Rltb. destruct (Rlt_dec 0 1); [|lra]. destruct (Rlt_dec 1 1); [lra|]. destruct (Rlt_dec 1 1); lra. Qed.
Lemma ex_calc : dw_calculate ex_bond = GAUSS_SIGMA_TO_FWHM * sqrt 2.
Proof. unfold dw_calculate, msd. cbn. replace (1 + 1) with 2 by ring. unfold Rltb. destruct (Rlt_dec 2 0); [lra|auto]. Qed.
Lemma ex_maxw a b : dw_maxWidth (Some [ex_site]) a b = GAUSS_SIGMA_TO_FWHM * sqrt 2.
Proof. unfold dw_maxWidth. rewrite ex_max. unfold Rleb. destruct (Rle_dec (2 * 1) 0); [lra|]. do 2 f_equal. ring. Qed.

(** Refuted in general, 1: a tensor with off-diagonal terms.  Atoms that move along (1,1,0) only, bond in that direction. *)
Definition flat : mat := M3 1 1 0 1 1 0 0 0 0.
Theorem C43_anisotropic_refuted : exists l b, bond_of l mid b /\ (forall s, In s l -> valid_tensor (s_U s)) /\
  ~ bounds_width (dw_maxWidth (Some l)) dw_calculate b.
Proof.
  exists [mkUS flat true], (mkUB (V3 1 1 0) flat true flat true).
  assert (Hn : vnorm (V3 1 1 0) = sqrt 2) by (unfold vnorm, vdot; cbn; f_equal; ring).
  assert (H2 : 0 < sqrt 2) by (apply sqrt_lt_R0; lra). assert (S2 : sqrt 2 * sqrt 2 = 2) by (apply sqrt_sqrt; lra).
  split; [|split].
  - split; [apply mid_orth|]. do 2 exists (mkUS flat true). cbn. rewrite mm_mid_conj. unfold b_dist. cbn. rewrite Hn. repeat (split; [auto|]). auto.
  - intros s [<-|[]]. split; [reflexivity|]. intros [a b c]. unfold vdot, mv, flat. cbn [vx vy vz s_U x00 x01 x02 x10 x11 x12 x20 x21 x22].
    match goal with |- 0 <= ?x => replace x with ((a + b) * (a + b)) by ring end. apply Rle_0_sqr.
  - intros H. specialize (H 0 2 ltac:(lra)). unfold b_dist in H. cbn [b_r01] in H. rewrite Hn in H. specialize (H ltac:(split; [lra|]; apply Rsqr_incr_0_var; [unfold Rsqr; lra|lra])).
    revert H. unfold dw_maxWidth, dw_calculate, msd, meanSquareDisplacement. cbn [b_r01 b_U0 b_a0 b_U1 b_a1]. rewrite Hn.
    assert (Hm : maxUii (Some [mkUS flat true]) = 1). { cbn. unfold max_step, Rltb. destruct (Rlt_dec 0 1); [|lra]. destruct (Rlt_dec 1 1); [lra|]. destruct (Rlt_dec 1 0); [lra|]. lra. }
    rewrite Hm. unfold vscale, flat. cbn [vx vy vz x00 x01 x02 x11 x12 x22].
    match goal with |- context [Rltb ?m 0] => assert (Hv : m = 4) end.
    { assert (/ sqrt 2 * / sqrt 2 = / 2) by (rewrite <- Rinv_mult; congruence). nra. }
    rewrite Hv. unfold Rltb, Rleb. destruct (Rlt_dec 4 0); [lra|]. destruct (Rle_dec (2 * 1) 0); [lra|]. intros H.
    pose proof gauss_factor_pos. assert (sqrt (2 * 1) < sqrt 4) by (apply sqrt_lt_1_alt; lra). nra.
Qed.
Print Assumptions C43_anisotropic_refuted.

(** Refuted in general, 2: delta1 < 0 < delta2 puts the widest peak between rmin and rmax. *)
Theorem C43_jeong_interior_refuted : exists j l b, bond_of l mid b /\ (forall s, In s l -> spherical (s_U s)) /\
  ~ bounds_width (jeong_maxWidth j (Some l)) (jeong_calculate j) b.
Proof.
  exists (mkJ (-2) 1 0 0), [ex_site], ex_bond. split; [apply ex_bond_of|]. split.
  - intros s [<-|[]]. exists 1. cbn. symmetry. apply mscale_1.
  - intros H. specialize (H (/ 2) 100 ltac:(lra)). unfold b_dist in H. cbn [b_r01 ex_bond] in H. rewrite ex_norm in H. specialize (H ltac:(lra)).
    revert H. unfold jeong_calculate, jeong_maxWidth. rewrite ex_calc, ex_maxw. unfold b_dist. cbn [b_r01 ex_bond]. rewrite ex_norm.
    rewrite !sharp_far by (unfold DOUBLE_EPS; lra). unfold ratio. cbn [j_delta1 j_delta2 j_qbroad j_qbroad_sep].
    replace (1 - -2 / 1 - 1 / (1 * 1) + 0 * 1 * (0 * 1)) with 2 by field. rewrite (Rmax_right 1).
    + rewrite Rmax_right by lra. unfold Rleb. destruct (Rle_dec 2 0); [lra|]. intros H.
      pose proof gauss_factor_pos. assert (H2 : 0 < sqrt 2) by (apply sqrt_lt_R0; lra).
      assert (sqrt (1 - -2 / 100 - 1 / (100 * 100) + 0 * 100 * (0 * 100)) < sqrt 2) by (apply sqrt_lt_1_alt; lra).
      set (z := sqrt (1 - -2 / 100 - 1 / (100 * 100) + 0 * 100 * (0 * 100))) in *.
      assert (0 < GAUSS_SIGMA_TO_FWHM * sqrt 2) by nra. nra.
    + rewrite Rmax_right by lra. lra.
Qed.
Print Assumptions C43_jeong_interior_refuted.

(** Refuted in general, 3: with the default rmin = 0 and delta2 < 0, the sharpening ratio at rmin is taken as zero. *)
Theorem C43_jeong_rmin_refuted : exists j l b, bond_of l mid b /\ (forall s, In s l -> spherical (s_U s)) /\ j_delta2 j <= 0 /\ b_dist b <= 10 /\
  ~ jeong_calculate j b <= jeong_maxWidth j (Some l) 0 10.
Proof.
  exists (mkJ 0 (-1) 0 0), [ex_site], ex_bond. split; [apply ex_bond_of|]. split; [|split; [|split]].
  - intros s [<-|[]]. exists 1. cbn. symmetry. apply mscale_1.
  - cbn. lra.
  - unfold b_dist. cbn [b_r01 ex_bond]. rewrite ex_norm. lra.
  - unfold jeong_calculate, jeong_maxWidth. rewrite ex_calc, ex_maxw. unfold b_dist. cbn [b_r01 ex_bond]. rewrite ex_norm.
    rewrite (sharp_near _ 0) by apply eps_pos. rewrite !sharp_far by (unfold DOUBLE_EPS; lra). unfold ratio. cbn [j_delta1 j_delta2 j_qbroad j_qbroad_sep].
    replace (1 - 0 / 1 - -1 / (1 * 1) + 0 * 1 * (0 * 1)) with 2 by field. rewrite (Rmax_right 1).
    + rewrite Rmax_right by lra. unfold Rleb. destruct (Rle_dec 2 0); [lra|]. intros H.
      pose proof gauss_factor_pos. assert (H2 : 0 < sqrt 2) by (apply sqrt_lt_R0; lra).
      assert (sqrt (1 - 0 / 10 - -1 / (10 * 10) + 0 * 10 * (0 * 10)) < sqrt 2) by (apply sqrt_lt_1_alt; lra).
      set (z := sqrt (1 - 0 / 10 - -1 / (10 * 10) + 0 * 10 * (0 * 10))) in *.
      assert (0 < GAUSS_SIGMA_TO_FWHM * sqrt 2) by nra. nra.
    + rewrite Rmax_right by lra. lra.
Qed.
Print Assumptions C43_jeong_rmin_refuted.

Example C43_nonvacuous : bond_of [ex_site] mid ex_bond /\ spherical (s_U ex_site) /\ valid_tensor (s_U ex_site) /\
  (forall rmin rmax, dw_calculate ex_bond <= dw_maxWidth (Some [ex_site]) rmin rmax) /\ b_dist ex_bond = 1.
Proof.
  split; [apply ex_bond_of|]. split; [exists 1; symmetry; apply mscale_1|]. split; [|split].
  - split; [reflexivity|]. intros v. cbn [s_U ex_site]. replace (mv mid v) with v by (symmetry; vring). apply vdot_nonneg.
  - intros. rewrite ex_calc, ex_maxw. lra.
  - apply ex_norm.
Qed.

(** C44: after any setter the three readings describe one width. *)
Theorem C44_one_width c : cw_width c = fwhm_of_uiso (getuisowidth c) /\ getbisowidth c = b_of_u (getuisowidth c).
Proof. split; [symmetry; apply getu_width|]. unfold getbisowidth, UtoB, b_of_u. ring. Qed.
Print Assumptions C44_one_width.

(** Each setter makes its getter return the value set. *)
Theorem C44_roundtrip c v : cw_width (cw_setWidth v c) = v /\ getuisowidth (setuisowidth v c) = v /\ getbisowidth (setbisowidth v c) = v.
Proof.
  assert (HU : forall u, getuisowidth (setuisowidth u c) = u). { intros u. apply fwhm_inj. now rewrite getu_width, setu_width. }
  split; [reflexivity|]. split; [apply HU|]. unfold getbisowidth, setbisowidth. rewrite HU. unfold UtoB. field. apply PI_neq0.
Qed.
Print Assumptions C44_roundtrip.

(** The width set through each of them, also used for every bond. *)
Theorem C44_width c v b : cw_calculate (setuisowidth v c) b = fwhm_of_uiso v /\
  (forall u, v = b_of_u u -> cw_calculate (setbisowidth v c) b = fwhm_of_uiso u) /\ cw_calculate (cw_setWidth v c) b = v.
Proof.
  unfold cw_calculate. split; [apply setu_width|]. split; [|reflexivity].
  intros u ->. unfold setbisowidth. rewrite setu_width. f_equal. unfold b_of_u, UtoB. field. apply PI_neq0.
Qed.
Print Assumptions C44_width.

(** Writing back what was read changes nothing, not even the ticker; a setter clicks it once exactly when the width changes. *)
Theorem C44_ticker c v : setuisowidth (getuisowidth c) c = c /\ setbisowidth (getbisowidth c) c = c /\ cw_setWidth (cw_width c) c = c /\
  (forall c', c' = cw_setWidth v c \/ c' = setuisowidth v c \/ c' = setbisowidth v c ->
     (cw_width c' = cw_width c -> cw_clicks c' = cw_clicks c) /\ (cw_width c' <> cw_width c -> cw_clicks c' = S (cw_clicks c))).
Proof.
  assert (HS : forall w, w = cw_width c -> cw_setWidth w c = c).
  { intros w ->. unfold cw_setWidth, Reqb. destruct (Req_EM_T (cw_width c) (cw_width c)); [destruct c; auto|congruence]. }
  assert (HU : setuisowidth (getuisowidth c) c = c). { pose proof (setu_width (getuisowidth c) c) as E. rewrite getu_width in E. unfold setuisowidth in *. cbv zeta in *. apply HS. exact E. }
  split; [exact HU|]. split; [|split; [now apply HS|]].
  - unfold setbisowidth, getbisowidth. replace (UtoB * getuisowidth c / UtoB) with (getuisowidth c); [exact HU|]. unfold UtoB. field. apply PI_neq0.
  - intros c' Hc. assert (exists w, c' = cw_setWidth w c) as [w ->].
    { destruct Hc as [->|[->| ->]]; [eauto| |]; unfold setbisowidth, setuisowidth; eexists; reflexivity. }
    unfold cw_setWidth, Reqb. cbn. destruct (Req_EM_T (cw_width c) w); split; intros; congruence.
Qed.
Print Assumptions C44_ticker.

(** A new object has width zero in all three readings, and gives it to every bond. *)
Theorem C44_new b stru rmin rmax : cw_width cw_new = 0 /\ getuisowidth cw_new = 0 /\ getbisowidth cw_new = 0 /\
  cw_calculate cw_new b = 0 /\ cw_maxWidth cw_new stru rmin rmax = 0 /\ cw_clicks cw_new = 0%nat.
Proof.
  assert (E : getuisowidth cw_new = 0) by (unfold getuisowidth, cw_new; cbn [cw_width]; unfold Rdiv; rewrite !Rmult_0_l; ring).
  repeat split; auto. unfold getbisowidth. rewrite E. ring.
Qed.
Print Assumptions C44_new.

Example C44_nonvacuous : cw_width (setuisowidth (-1) cw_new) < 0 < cw_width (setuisowidth 1 cw_new).
Proof.
  rewrite !setu_width. unfold fwhm_of_uiso. pose proof ln2_pos. destruct (Rle_dec 0 (-1)); [lra|]. destruct (Rle_dec 0 1); [|lra].
  pose proof (sqrt_lt_R0 (16 * ln 2 * - -1)). pose proof (sqrt_lt_R0 (16 * ln 2 * 1)). lra.
Qed.
