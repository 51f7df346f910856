(** C106: angles and cone filters in double arithmetic. *)
From Coq Require Import Reals Lra Lia List.
From Flocq Require Import Core.
From Verif Require Import RBase R3 Trig Fp FpGrid FpConcrete FpGridProofs FpSumProofs BondCalc BondCalcSpec FpAngle FpAngleSpec FpAngleProofs FpAngleMain.
Import ListNotations.
Open Scope R_scope.

(** C106: a bond that the filters let through is, up to rounding, inside of a cone in force; for every math library whose acos has the error eps,
    the angle is off by at most 58 eps + 2^-40 degrees and the cosine by at most 2^-49. *)
Theorem C106_passed_bonds : forall (ac : R -> R) (eps : R), eps <= 1 -> good_acos eps ac -> forall ops, ordinary ops ->
  forall v, vdbl v -> bpow radix2 (-400) <= vnorm v -> fp_passes ac (fp_cone_run ops) v = true ->
  active ops = [] \/ exists ax deg, In (ax, deg) (active ops) /\ (180 <= deg \/ near_cone (58 * eps + / 1099511627776) v ax deg).
Proof. exact cone_only. Qed.
Print Assumptions C106_passed_bonds.

(** C106: a bond that is inside of a cone by more than that passes, unless it is parallel to the axis up to rounding. *)
Theorem C106_bonds_inside_partial : forall (ac : R -> R) (eps : R), eps <= 1 -> good_acos eps ac -> forall ops, ordinary ops ->
  forall v, vdbl v -> bpow radix2 (-400) <= vnorm v ->
  active ops = [] \/ (exists ax deg, In (ax, deg) (active ops) /\ (180 <= deg \/ deep_in_cone (58 * eps + / 1099511627776) v ax deg)) ->
  fp_passes ac (fp_cone_run ops) v = true.
Proof. exact cone_deep. Qed.
Print Assumptions C106_bonds_inside_partial.

(** *** the direction (1, 1, 1) *)
Lemma root3 : rnd (sqrt 3) = D 7800463371553962 (-52).
Proof.
  assert (S0 := sqrt_pos 3). assert (S : sqrt 3 * sqrt 3 = 3) by (apply sqrt_sqrt; lra). set (s := sqrt 3) in *. clearbody s. unfold D. apply rnd_at; [lia|lia|].
  replace (bpow radix2 (- (-52))) with 4503599627370496 by (cbn; lra). apply Rabs_def1; nra.
Qed.
Lemma rnd_small n : (Z.abs n <= 2 ^ 53)%Z -> rnd (IZR n) = IZR n. Proof. intros H. now apply rnd_id, dbl_Z. Qed.
Definition diag : vec := V3 1 1 1.
Lemma dot_diag : fp_dot diag diag = 3.
Proof.
  unfold fp_dot, diag. cbn [vx vy vz]. rewrite Rmult_1_l. rewrite (rnd_small 1) by lia. replace (1 + 1) with 2 by lra. rewrite (rnd_small 2) by lia. replace (2 + 1) with 3 by lra. apply (rnd_small 3). lia.
Qed.
Lemma norm_diag : fp_norm diag = D 7800463371553962 (-52). Proof. unfold fp_norm. now rewrite dot_diag, root3. Qed.
Lemma unit_diag : fp_over diag (fp_norm diag) = V3 (D 5200308914369309 (-53)) (D 5200308914369309 (-53)) (D 5200308914369309 (-53)).
Proof.
  rewrite norm_diag. unfold fp_over, diag. cbn [vx vy vz]. assert (E : rnd (1 / D 7800463371553962 (-52)) = D 5200308914369309 (-53)).
  { replace 1 with (D 1 0) at 1 by (unfold D; cbn; lra). apply rnd_quot; (lia || (vm_compute; reflexivity)). }
  now rewrite E.
Qed.
Lemma cos_diag : fp_dot (fp_over diag (fp_norm diag)) (fp_over diag (fp_norm diag)) = D 4503599627370497 (-52).
Proof.
  rewrite unit_diag. unfold fp_dot. cbn [vx vy vz]. rewrite D_mul.
  rewrite (rnd_D _ _ 6004799503160663 52) by (try lia; vm_compute; reflexivity). change (-53 + -53 + 52)%Z with (-54)%Z.
  rewrite D_add. change (6004799503160663 + 6004799503160663)%Z with (6004799503160663 * 2 ^ 1)%Z. rewrite <- (D_shift _ (-54) 1) by lia. change (-54 + 1)%Z with (-53)%Z.
  rewrite (rnd_id (D 6004799503160663 (-53))) by (apply D_dbl; lia). rewrite (D_align 6004799503160663 (-53) (-54)) by lia. rewrite D_add.
  rewrite (rnd_D _ _ 4503599627370497 2) by (try lia; vm_compute; reflexivity). reflexivity.
Qed.
Lemma above_one : 1 < D 4503599627370497 (-52). Proof. unfold D. cbn. lra. Qed.
Lemma acos_above ac x : 1 < x -> fp_acos ac x = None.
Proof. intros H. unfold fp_acos. replace (Rleb (Rabs x) 1) with false; [reflexivity|]. symmetry. apply Rleb_false. rewrite Rabs_pos_eq by lra. exact H. Qed.

(** C106, defect: a filter around the direction (1, 1, 1) drops the bonds exactly in this direction, e.g. those to the body centre of a cubic cell,
    whatever its opening angle below 180 degrees is: their cosine is rounded to more than one, for which acos returns NaN. *)
Theorem C106_bonds_on_axis_refuted : forall (ac : R -> R) (deg : R), deg < 180 ->
  fp_passes ac (fp_cone_run [FilterCone diag deg]) diag = false /\ in_cone diag diag 0.
Proof.
  intros ac deg Hd. split.
  - unfold fp_cone_run. cbn [fold_left fp_cone_step]. unfold fp_filterCone.
    replace (fp_eps_gt (fp_norm diag) 0 FP_SQRT_EPS) with true.
    + unfold fp_passes. cbn [app fp_cone_loop]. rewrite (proj2 (Rleb_false _ _) Hd), cos_diag, acos_above by exact above_one. reflexivity.
    + symmetry. unfold fp_eps_gt. apply Rltb_true. rewrite sqrt_eps_exact, Rplus_0_l, (rnd_id _ dbl_eps), norm_diag. unfold SQRT_DOUBLE_EPS, D. cbn. lra.
  - exists 0. pose proof PI_RGT_0. rewrite cos_0. repeat split; try lra; try (unfold Rdiv; lra). unfold vnorm. rewrite sqrt_sqrt by (unfold vdot, diag; cbn; lra). ring.
Qed.
Print Assumptions C106_bonds_on_axis_refuted.

Definition cubic : metrics := {| g00 := 1; g11 := 1; g22 := 1; g01 := 0; g02 := 0; g12 := 0 |}.
Lemma ldot_diag : fp_ldot cubic diag diag = 3.
Proof.
  unfold fp_ldot, diag, cubic. cbn [vx vy vz g00 g11 g22 g01 g02 g12]. cbv zeta. rewrite !Rmult_1_l. rewrite !(rnd_small 1) by lia. rewrite !Rmult_1_l. rewrite !(rnd_small 1) by lia.
  rewrite !Rmult_0_r, !rnd_0, !Rplus_0_r. replace (1 + 1) with 2 by lra. rewrite !(rnd_small 2) by lia. replace (2 + 1) with 3 by lra. rewrite !(rnd_small 3) by lia. reflexivity.
Qed.
Lemma lcos_diag : fp_lcos cubic diag diag = D 4503599627370497 (-52).
Proof.
  unfold fp_lcos, fp_lnorm. rewrite ldot_diag, root3, D_mul. rewrite (rnd_D _ _ 6755399441055743 53) by (try lia; vm_compute; reflexivity). change (-52 + -52 + 53)%Z with (-51)%Z.
  replace 3 with (D 3 0) by (unfold D; cbn; lra). apply rnd_quot; (lia || (vm_compute; reflexivity)).
Qed.
(** C106, defect: the angle of a vector with itself may be NaN, in radians and in degrees: (1, 1, 1) in the Cartesian lattice. *)
Theorem C106_lattice_angle_refuted : forall (ac : R -> R), fp_anglerad ac cubic diag diag = None /\ fp_angledeg ac cubic diag diag = None.
Proof.
  intros ac. assert (A : fp_acos ac (fp_lcos cubic diag diag) = None) by (apply acos_above; rewrite lcos_diag; exact above_one).
  split; [exact A|]. unfold fp_angledeg, fp_acosd. rewrite A. rewrite lcos_diag. unfold is_multiple.
  assert (F : Rfloor (D 4503599627370497 (-52) / (1 / 2)) = 2%Z).
  { apply Z.le_antisymm; [enough (Rfloor (D 4503599627370497 (-52) / (1 / 2)) < 3)%Z by lia|enough (1 < Rfloor (D 4503599627370497 (-52) / (1 / 2)))%Z by lia]; apply lt_IZR;
      pose proof (Rfloor_spec (D 4503599627370497 (-52) / (1 / 2))) as S; assert (E : D 4503599627370497 (-52) / (1 / 2) = 2 + / 2251799813685248) by (unfold D; cbn; lra); rewrite E in *; lra. }
  rewrite F. replace (Reqb (1 / 2 * 2) (D 4503599627370497 (-52))) with false; [reflexivity|]. symmetry. apply Reqb_false. pose proof above_one. lra.
Qed.
Print Assumptions C106_lattice_angle_refuted.

(** The hypotheses are met, with an exact acos and a bond at 45 degrees from the axis of a cone of 61 degrees. *)
Example C106_nonvacuous : good_acos 0 acos /\ ordinary [FilterCone (V3 1 0 0) 61] /\ vdbl (V3 1 1 0) /\ bpow radix2 (-400) <= vnorm (V3 1 1 0) /\
  deep_in_cone (58 * 0 + / 1099511627776) (V3 1 1 0) (V3 1 0 0) 61.
Proof.
  assert (D1 : dbl 1) by (apply (dbl_Z 1); lia). assert (N2 : 1 <= vnorm (V3 1 1 0)). { unfold vnorm, vdot. cbn [vx vy vz]. apply Rle_trans with (sqrt 1); [rewrite sqrt_1; lra|apply sqrt_le_1; lra]. }
  assert (N1 : vnorm (V3 1 0 0) = 1). { unfold vnorm, vdot. cbn [vx vy vz]. replace (1 * 1 + 0 * 0 + 0 * 0) with 1 by ring. apply sqrt_1. }
  assert (NB : vnorm (V3 1 1 0) <= 142 / 100). { unfold vnorm, vdot. cbn [vx vy vz]. rewrite <- (sqrt_square (142 / 100)) by lra. apply sqrt_le_1; lra. }
  split; [intros x _ _; rewrite Rminus_diag_eq by reflexivity; rewrite Rabs_R0; lra|]. split.
  { intros ax deg [H|[]]. injection H as <- <-. split; [repeat split; try exact D1; apply dbl_0|]. rewrite N1. lra. }
  split; [repeat split; try exact D1; apply dbl_0|]. split; [eapply Rle_trans; [|exact N2]; change 1 with (bpow radix2 0); apply bpow_le; lia|].
  unfold deep_in_cone. rewrite N1. unfold vdot. cbn [vx vy vz]. assert (1414 / 1000 <= vnorm (V3 1 1 0)). { unfold vnorm, vdot. cbn [vx vy vz]. rewrite <- (sqrt_square (1414 / 1000)) by lra. apply sqrt_le_1; lra. }
  set (n := vnorm _) in *. clearbody n. split; [lra|]. exists (PI / 3). destruct pi_near as [P K]. split; [lra|]. rewrite cos_PI3. split; [lra|].
  replace (PI / 3 * 180 / PI) with 60 by (field; lra). lra.
Qed.
