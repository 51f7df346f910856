(** Proofs: cone filters in double arithmetic. *)
From Coq Require Import Reals Lra Lia List.
From Flocq Require Import Core.
From Verif Require Import RBase R3 Trig Fp FpGrid FpGridProofs FpSumProofs FpPi BondCalc BondCalcSpec FpAngle FpAngleSpec FpAngleProofs.
Import ListNotations.
Open Scope R_scope.

Lemma pi_near : 3 < PI < 315 / 100 /\ 57 <= 180 / PI <= 573 / 10.
Proof.
  pose proof fp_pi as H. apply Rabs_le_inv in H. unfold FP_PI in H. cbn in H. assert (B : 3141592 / 1000000 < PI < 315 / 100) by lra. split; [lra|].
  split; [apply (Rmult_le_reg_r PI)|apply (Rmult_le_reg_r PI)]; unfold Rdiv; try lra; rewrite (Rmult_assoc 180), Rinv_l by lra; lra.
Qed.
Lemma deg_err a t eps : 0 <= t <= PI -> Rabs (a - t) <= eps -> eps <= 1 ->
  Rabs (rnd (rnd (180 / FP_PI) * a) - t * 180 / PI) <= 58 * eps + / 1099511627776.
Proof.
  intros Ht Ha He. destruct pi_near as [P1 P2]. set (K0 := 180 / PI) in *. set (K := rnd (180 / FP_PI)).
  assert (FP : 3 <= FP_PI) by (unfold FP_PI; cbn; lra). pose proof fp_pi as H.
  assert (E0 : Rabs (180 / FP_PI - K0) <= 20 * / 140737488355328).
  { unfold K0. replace (180 / FP_PI - 180 / PI) with (180 * (PI - FP_PI) * / (PI * FP_PI)) by (field; split; lra).
    assert (9 <= PI * FP_PI) by (replace 9 with (3 * 3) by ring; apply Rmult_le_compat; lra). rewrite !Rabs_mult, (Rabs_pos_eq 180) by lra. rewrite (Rabs_minus_sym PI).
    rewrite (Rabs_pos_eq (/ _)) by (left; apply Rinv_0_lt_compat; lra). apply Rle_trans with (180 * / 140737488355328 * / 9); [|lra].
    apply Rmult_le_compat; [|left; apply Rinv_0_lt_compat; lra| |apply Rinv_le; lra].
    - apply Rmult_le_pos; [lra|apply Rabs_pos].
    - apply Rmult_le_compat_l; lra. }
  pose proof (rnd_eta (180 / FP_PI)) as E1. fold K in E1. apply Rabs_le_inv in E0. rewrite (Rabs_pos_eq (180 / FP_PI)) in E1 by lra. apply Rabs_le_inv in E1.
  assert (EK : Rabs (K - K0) <= 21 * / 140737488355328) by (apply Rabs_le; unfold u in *; lra). assert (KB : 56 <= K <= 574 / 10) by (unfold u in *; lra).
  replace (t * 180 / PI) with (K0 * t) by (unfold K0; field; lra). pose proof (rnd_eta (K * a)) as R. set (r := rnd (K * a)) in *. clearbody r K K0. clear E0 E1 H FP.
  assert (M : Rabs (K * a - K0 * t) <= 574 / 10 * eps + 21 * / 140737488355328 * (315 / 100)).
  { replace (K * a - K0 * t) with (K * (a - t) + (K - K0) * t) by ring. eapply Rle_trans; [apply Rabs_triang|]. rewrite !Rabs_mult. rewrite (Rabs_pos_eq K), (Rabs_pos_eq t) by lra.
    apply Rplus_le_compat; apply Rmult_le_compat; try lra; try apply Rabs_pos. }
  assert (Z : 0 <= K0 * t <= 573 / 10 * (315 / 100)) by (split; [apply Rmult_le_pos; lra|apply Rmult_le_compat; lra]).
  apply Rabs_le_inv in M. assert (AB : Rabs (K * a) <= 239) by (apply Rabs_le; lra). apply Rabs_le_inv in R. pose proof (Rabs_pos (a - t)). apply Rabs_le. unfold u in *. lra.
Qed.

Definition unit_filter (f : vec * R) : vec * R := (fp_over (fst f) (fp_norm (fst f)), snd f).
Lemma short_400 x : / 33554432 <= x -> bpow radix2 (-400) <= x.
Proof. intros H. eapply Rle_trans; [|exact H]. change (/ 33554432) with (bpow radix2 (-25)). apply bpow_le. lia. Qed.
Lemma cone_run_active ops : ordinary ops -> fp_cone_run ops = map unit_filter (active ops).
Proof.
  unfold fp_cone_run, active. rewrite <- !fold_left_rev_right. intros HO. assert (HO' : ordinary (rev (rev ops))) by now rewrite rev_involutive. clear HO. revert HO'.
  induction (rev ops) as [|o l IH]; intros HO; [reflexivity|]. cbn [fold_right]. rewrite IH.
  - destruct o as [ax deg|]; [|reflexivity]. cbn [fp_cone_step active_step]. unfold fp_filterCone.
    destruct (HO ax deg) as [D N]; [apply -> in_rev; left; reflexivity|]. destruct (Rlt_dec _ _) as [H|H]; [|lra].
    destruct (norm_err ax D (short_400 _ N)) as [Dn En]. apply Rabs_le_inv in En.
    replace (fp_eps_gt (fp_norm ax) 0 FP_SQRT_EPS) with true; [now rewrite map_app|]. symmetry. unfold fp_eps_gt. apply Rltb_true.
    rewrite sqrt_eps_exact, Rplus_0_l, (rnd_id _ dbl_eps). unfold SQRT_DOUBLE_EPS. unfold u in En. lra.
  - intros ax deg Hin. apply (HO ax deg). cbn [rev]. apply in_or_app. now left.
Qed.
Lemma loop_exists ac ru l : fp_cone_loop ac ru l = true <-> exists ax deg, In (ax, deg) l /\
  (180 <= deg \/ exists a, fp_acos ac (fp_dot ru ax) = Some a /\ rnd (rnd (180 / FP_PI) * a) <= deg).
Proof.
  induction l as [|[ax deg] l IH]; cbn [fp_cone_loop]; [split; [discriminate|intros (? & ? & [] & _)]|].
  destruct (Rleb 180 deg) eqn:E; [apply Rleb_true in E; split; [intros _; exists ax, deg; split; [now left|now left]|reflexivity]|]. apply Rleb_false in E.
  assert (S : fp_cone_loop ac ru l = true <-> exists ax0 deg0, In (ax0, deg0) l /\ (180 <= deg0 \/ exists a, fp_acos ac (fp_dot ru ax0) = Some a /\ rnd (rnd (180 / FP_PI) * a) <= deg0)) by exact IH.
  destruct (fp_acos ac (fp_dot ru ax)) as [a|] eqn:A.
  - destruct (Rleb (rnd (rnd (180 / FP_PI) * a)) deg) eqn:B.
    + apply Rleb_true in B. split; [intros _|reflexivity]. exists ax, deg. split; [now left|]. right. now exists a.
    + apply Rleb_false in B. rewrite S. split; intros (x & y & I & H); exists x, y; [split; [now right|exact H]|]. destruct I as [I|I]; [|now split].
      injection I as <- <-. exfalso. destruct H as [H|(a' & E' & H)]; [lra|]. rewrite A in E'. injection E' as <-. lra.
  - rewrite S. split; intros (x & y & I & H); exists x, y; [split; [now right|exact H]|]. destruct I as [I|I]; [|now split].
    injection I as <- <-. exfalso. destruct H as [H|(a' & E' & H)]; [lra|]. rewrite A in E'. discriminate.
Qed.
Lemma passes_exists ac ops v : ordinary ops -> fp_passes ac (fp_cone_run ops) v = true <->
  active ops = [] \/ exists ax deg, In (ax, deg) (active ops) /\
  (180 <= deg \/ exists a, fp_acos ac (fp_dot (fp_over v (fp_norm v)) (fp_over ax (fp_norm ax))) = Some a /\ rnd (rnd (180 / FP_PI) * a) <= deg).
Proof.
  intros HO. rewrite (cone_run_active _ HO). unfold fp_passes. destruct (active ops) as [|f l] eqn:EA; [cbn; split; auto|]. rewrite <- EA.
  assert (X : map unit_filter (active ops) <> []) by (rewrite EA; discriminate). destruct (map unit_filter (active ops)) as [|g m] eqn:EM; [contradiction|]. rewrite <- EM. rewrite loop_exists. split.
  - intros (ax & deg & I & H). right. apply in_map_iff in I. destruct I as ([ax0 deg0] & E & I). unfold unit_filter in E. cbn [fst snd] in E. injection E as <- <-. exists ax0, deg0. now split.
  - intros [H|(ax & deg & I & H)]; [rewrite EA in H; discriminate|]. exists (fp_over ax (fp_norm ax)), deg. split; [|exact H]. change (fp_over ax (fp_norm ax), deg) with (unit_filter (ax, deg)). now apply in_map.
Qed.
Lemma active_in ops ax deg : In (ax, deg) (active ops) -> In (FilterCone ax deg) ops.
Proof.
  unfold active. rewrite <- fold_left_rev_right. intros H. apply in_rev. revert H. induction (rev ops) as [|o l IH]; cbn [fold_right]; [intros []|].
  destruct o as [ax0 deg0|]; cbn [active_step]; [|intros []]. destruct (Rlt_dec _ _); [|intros H; right; auto]. intros H. apply in_app_or in H. destruct H as [H|[H|[]]]; [right; auto|]. left. now injection H as <- <-.
Qed.
Lemma cos_bound v ax : 0 < vnorm v -> 0 < vnorm ax -> -1 <= vdot v ax / (vnorm v * vnorm ax) <= 1.
Proof.
  intros Nv Na. pose proof (unit_parts v Nv) as Uv. pose proof (unit_parts ax Na) as Ua. set (N := vnorm v) in *. set (M := vnorm ax) in *.
  replace (vdot v ax / (N * M)) with (vx v / N * (vx ax / M) + vy v / N * (vy ax / M) + vz v / N * (vz ax / M)) by (unfold vdot; field; lra).
  set (a1 := vx v / N) in *. set (a2 := vy v / N) in *. set (a3 := vz v / N) in *. set (b1 := vx ax / M) in *. set (b2 := vy ax / M) in *. set (b3 := vz ax / M) in *.
  pose proof (sq_nonneg (a1 + b1)). pose proof (sq_nonneg (a2 + b2)). pose proof (sq_nonneg (a3 + b3)). pose proof (sq_nonneg (a1 - b1)). pose proof (sq_nonneg (a2 - b2)). pose proof (sq_nonneg (a3 - b3)). lra.
Qed.

Section Cone.
  Context (ac : R -> R) (eps : R) (HE : eps <= 1) (GA : good_acos eps ac) (ops : list cone_op) (HO : ordinary ops) (v : vec) (Dv : vdbl v) (Nv : bpow radix2 (-400) <= vnorm v).
  Lemma cone_only : fp_passes ac (fp_cone_run ops) v = true -> active ops = [] \/
    exists ax deg, In (ax, deg) (active ops) /\ (180 <= deg \/ near_cone (58 * eps + / 1099511627776) v ax deg).
  Proof.
    intros H. apply (passes_exists _ _ _ HO) in H. destruct H as [H|(ax & deg & I & H)]; [now left|]. right. exists ax, deg. split; [exact I|]. destruct H as [H|(a & Ea & Hd)]; [now left|]. right.
    destruct (HO _ _ (active_in _ _ _ I)) as [Da Na0]. pose proof (short_400 _ Na0) as Na. pose proof (cos_err v ax Dv Da Nv Na) as E. pose proof (bpow_gt_0 radix2 (-400)) as B.
    unfold fp_acos in Ea. set (C := fp_dot _ _) in *. assert (DC : dbl C) by apply rnd_dbl. destruct (Rleb (Rabs C) 1) eqn:EC; [|discriminate]. apply Rleb_true in EC. injection Ea as <-. pose proof (GA C DC EC) as G.
    apply Rabs_le_inv in EC. pose proof (acos_bound C) as AB. exists (acos C). split; [exact AB|]. split.
    - rewrite cos_acos by lra. assert (NM : 0 < vnorm v * vnorm ax) by (apply Rmult_lt_0_compat; lra). set (NN := vnorm v * vnorm ax) in *. clearbody NN C.
      replace (vdot v ax - NN * C) with (- (C - vdot v ax / NN) * NN) by (field; lra). rewrite Rabs_mult, Rabs_Ropp, (Rabs_pos_eq NN) by lra. apply Rmult_le_compat_r; [lra|]. eapply Rle_trans; [exact E|]. unfold u. lra.
    - pose proof (deg_err (ac C) (acos C) eps AB G HE) as DE. apply Rabs_le_inv in DE. lra.
  Qed.
  Lemma cone_deep : active ops = [] \/ (exists ax deg, In (ax, deg) (active ops) /\ (180 <= deg \/ deep_in_cone (58 * eps + / 1099511627776) v ax deg)) ->
    fp_passes ac (fp_cone_run ops) v = true.
  Proof.
    intros H. apply (passes_exists _ _ _ HO). destruct H as [H|(ax & deg & I & H)]; [now left|]. right. exists ax, deg. split; [exact I|]. destruct H as [H|(H1 & t & Ht & Hc & Hd)]; [now left|]. right.
    destruct (HO _ _ (active_in _ _ _ I)) as [Da Na0]. pose proof (short_400 _ Na0) as Na. pose proof (cos_err v ax Dv Da Nv Na) as E. pose proof (bpow_gt_0 radix2 (-400)) as B.
    assert (Nv0 : 0 < vnorm v) by lra. assert (Nx0 : 0 < vnorm ax) by lra. pose proof (cos_bound v ax Nv0 Nx0) as CB.
    unfold fp_acos. set (C := fp_dot _ _) in *. assert (DC : dbl C) by apply rnd_dbl. assert (NM : 0 < vnorm v * vnorm ax) by (apply Rmult_lt_0_compat; lra). set (NN := vnorm v * vnorm ax) in *. clearbody NN C.
    set (c := vdot v ax / NN) in *. assert (Ed : vdot v ax = c * NN) by (unfold c; field; lra). rewrite Ed in H1, Hc. clearbody c. apply Rabs_le_inv in E.
    assert (H1' : c <= 1 - / 562949953421312) by (apply (Rmult_le_reg_r NN); [exact NM|exact H1]).
    assert (Hc' : cos t <= c - / 562949953421312) by (apply (Rmult_le_reg_r NN); [exact NM|]; rewrite Rmult_minus_distr_r; lra). pose proof (COS_bound t) as [CT _].
    assert (CC : -1 <= C <= 1 /\ cos t <= C) by (unfold u in E; lra). destruct CC as [CC CL]. replace (Rleb (Rabs C) 1) with true by (symmetry; apply Rleb_true, Rabs_le; lra). exists (ac C). split; [reflexivity|].
    assert (AC : Rabs C <= 1) by (apply Rabs_le; lra). pose proof (GA C DC AC) as G. pose proof (acos_bound C) as AB. pose proof (deg_err (ac C) (acos C) eps AB G HE) as DE. apply Rabs_le_inv in DE.
    assert (AL : acos C <= t). { destruct (Rle_lt_dec (acos C) t) as [K|K]; [exact K|]. exfalso. assert (cos (acos C) < cos t) by (apply cos_decreasing_1; lra). rewrite cos_acos in H by lra. lra. }
    assert (acos C * 180 / PI <= t * 180 / PI). { unfold Rdiv. apply Rmult_le_compat_r; [left; apply Rinv_0_lt_compat, PI_RGT_0|]. lra. }
    lra.
  Qed.
End Cone.
