(** C110: peak widths in machine arithmetic. *)
From Flocq Require Import Core.
From Coq Require Import Reals Lra Lia List.
From Verif Require Import RBase R3 Peaks PeakWidth PeakWidthSpec Fp FpConcrete FpAngle FpAngleProofs FpSphere FpWidth FpWidthSpec FpWidthProofs FpWidthMain FpWidthExample.
Import ListNotations.
Open Scope R_scope.

(** the width of a pair: within 2^-18 of the root of the largest tensor element *)
Theorem C110_debye_waller : forall m b, bpow radix2 (-300) <= m -> bond_up_to m b ->
  0 <= fp_dw b /\ Rabs (fp_dw b - width_of (spread b)) <= bpow radix2 (-18) * sqrt m.
Proof. intros m b Hm HB. split; [apply dw_pos|now apply dw_err]. Qed.
Print Assumptions C110_debye_waller.

(** a relative error, when the displacement along the bond is not much smaller than the tensors *)
Theorem C110_relative : forall m K b, bpow radix2 (-300) <= m -> bond_up_to m b -> m <= K * spread b -> K <= bpow radix2 20 ->
  Rabs (fp_dw b - width_of (spread b)) <= bpow radix2 (-38) * K * width_of (spread b).
Proof. exact dw_rel. Qed.
Print Assumptions C110_relative.

(** two isotropic atoms *)
Theorem C110_isotropic : forall b u0 u1, b_a0 b = false -> b_a1 b = false -> b_U0 b = mscale u0 mid -> b_U1 b = mscale u1 mid -> 0 <= u0 -> 0 <= u1 ->
  bpow radix2 (-390) <= u0 + u1 -> Rabs (fp_dw b - width_of (u0 + u1)) <= bpow radix2 (-49) * width_of (u0 + u1).
Proof.
  intros b u0 u1 A0 A1 E0 E1 P0 P1 H. pose proof (dw_iso b A0 A1) as D. rewrite E0, E1 in D. cbn [x00 mscale mid] in D. rewrite !Rmult_1_r in D. exact (D P0 P1 H).
Qed.
Print Assumptions C110_isotropic.

(** the two directions of a pair have the same width, bit for bit *)
Theorem C110_both_directions : forall j b, fp_dw (reversed b) = fp_dw b /\ fp_jeong j (reversed b) = fp_jeong j b.
Proof. intros j b. split; [apply dw_reversed|apply jeong_reversed]. Qed.
Print Assumptions C110_both_directions.

(** the Jeong width with all its parameters zero is the Debye-Waller width, bit for bit *)
Theorem C110_jeong_default : forall b, DOUBLE_EPS <= fp_norm (b_r01 b) -> fp_jeong (mkJ 0 0 0 0) b = fp_dw b.
Proof. exact jeong_none. Qed.
Print Assumptions C110_jeong_default.

(** the largest width of a structure is not exceeded by a pair of isotropic sites, not even by a rounding error *)
Theorem C110_max_width : forall l s0 s1 r01 j rmin rmax, In s0 l -> In s1 l -> s_aniso s0 = false -> s_aniso s1 = false ->
  let b := mkUB r01 (s_U s0) (s_aniso s0) (s_U s1) (s_aniso s1) in
  fp_dw b <= fp_dw_max (Some l) /\
  (0 <= j_delta1 j -> 0 <= j_delta2 j -> fp_norm r01 <= rmax -> fp_jeong j b <= fp_jeong_max j (Some l) rmin rmax).
Proof.
  intros l s0 s1 r01 j rmin rmax I0 I1 A0 A1 b. assert (D : fp_dw b <= fp_dw_max (Some l)) by (apply (dw_max l s0 s1); auto). split; [exact D|]. intros D1 D2 Hr. now apply jeong_max.
Qed.
Print Assumptions C110_max_width.

(** a pair without any displacement along its bond does not always have a zero width *)
Theorem C110_flat_refuted : exists m b, bpow radix2 (-300) <= m /\ bond_up_to m b /\ spread b = 0 /\ / 100000000 < fp_dw b.
Proof.
  exists 289, flat_bond. split; [change 289 with (IZR 289); apply Rle_trans with (bpow radix2 0); [apply bpow_le; lia|change (bpow radix2 0) with 1; lra]|]. split; [|split; [apply flat_spread|apply flat_width]].
  split; [|split; [|split]].
  - repeat split; cbn; [apply (dbl_Z 17)|apply (dbl_Z 1)|apply (dbl_Z 0)]; lia.
  - unfold vnorm, vdot, flat_bond. cbn [b_r01 vx vy vz]. apply Rle_trans with 1; [change 1 with (bpow radix2 0) at 1; apply bpow_le; lia|]. rewrite <- sqrt_1 at 1. apply sqrt_le_1_alt. lra.
  - split; [apply flat_valid|]. unfold flat_bond, flat_U. cbn. split; [lra|split; [lra|split; [lra|discriminate]]].
  - split; [apply zero_valid|]. unfold flat_bond, zero_U. cbn. split; [lra|split; [lra|split; [lra|discriminate]]].
Qed.
Print Assumptions C110_flat_refuted.

(** the hypotheses are met: an isotropic and an anisotropic atom of copper, 2.5 apart *)
Definition cu_bond : ubond := mkUB (V3 2 (3 / 2) 0) (mscale (1 / 64) mid) false (M3 (1 / 64) 0 0 0 (1 / 32) 0 0 0 (1 / 64)) true.
Example C110_nonvacuous : bond_up_to (1 / 32) cu_bond /\ 1 / 32 <= 2 * spread cu_bond /\
  Rabs (fp_dw cu_bond - width_of (spread cu_bond)) <= bpow radix2 (-37) * width_of (spread cu_bond).
Proof.
  assert (HB : bond_up_to (1 / 32) cu_bond).
  { split; [|split; [|split]].
    - repeat split; cbn.
      + apply (dbl_Z 2). lia.
      + replace (3 / 2) with (IZR 3 * bpow radix2 (-1)) by (change (bpow radix2 (-1)) with (/ 2); lra). apply dbl_form; lia.
      + apply dbl_0.
    - unfold vnorm, vdot, cu_bond. cbn [b_r01 vx vy vz]. apply Rle_trans with 1; [change 1 with (bpow radix2 0) at 1; apply bpow_le; lia|]. rewrite <- sqrt_1 at 1. apply sqrt_le_1_alt. lra.
    - split.
      + split; [unfold tr, mscale, mid, cu_bond; cbn; reflexivity|]. intros [x y z]. unfold cu_bond, mv, row0, row1, row2, vdot, mscale, mid. cbn.
        pose proof (sq_nonneg x). pose proof (sq_nonneg y). pose proof (sq_nonneg z). lra.
      + unfold cu_bond, mscale, mid. cbn. split; [lra|split; [lra|split; [lra|]]]. intros _. exists (1 / 64). reflexivity.
    - split.
      + split; [reflexivity|]. intros [x y z]. unfold cu_bond, mv, row0, row1, row2, vdot. cbn. pose proof (sq_nonneg x). pose proof (sq_nonneg y). pose proof (sq_nonneg z). lra.
      + unfold cu_bond. cbn. split; [lra|split; [lra|split; [lra|discriminate]]]. }
  assert (HS : 1 / 32 <= 2 * spread cu_bond) by (unfold spread, cu_bond, mv, row0, row1, row2, vdot, vadd, mscale, mid; cbn; lra).
  split; [exact HB|]. split; [exact HS|]. replace (bpow radix2 (-37)) with (bpow radix2 (-38) * 2) by (change 2 with (bpow radix2 1); rewrite <- bpow_plus; reflexivity).
  apply C110_relative with (m := 1 / 32); [|exact HB|exact HS|].
  - change (1 / 32) with (1 * / 32). rewrite Rmult_1_l. change (/ 32) with (bpow radix2 (-5)). apply bpow_le. lia.
  - change 2 with (bpow radix2 1). apply bpow_le. lia.
Qed.
