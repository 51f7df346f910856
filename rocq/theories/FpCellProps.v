(** C107: lattice points in a sphere in double arithmetic, for a cell of any angles. *)
From Flocq Require Import Core.
From Coq Require Import Reals Lra Lia.
From Verif Require Import RBase Fp FpWidthExample FpSphere FpSphereSpec FpSphereProofs FpSphereProps FpCellSpec FpCellMain.
Import ListNotations.
Open Scope R_scope.

(** In terms of the edges and angles of a cell that is not too flat (its volume is at least a sixteenth of the box with these edges), whatever the
    math library returns for sines and cosines within 2^-50: each lattice point is visited at most once, every visited point is in the sphere and every
    point of the shell is visited, up to a 3 * 2^-30 part of the squared radius. *)
Theorem C107_cells_partial : forall Rmin Rmax a b c al be ga ca cb cg sa sb sg,
  usual_edge a -> usual_edge b -> usual_edge c -> good_trig al ca sa -> good_trig be cb sb -> good_trig ga cg sg -> / 256 <= unit_volume2 al be ga ->
  bpow radix2 (-300) <= Rmax -> exists l,
  visits Rmin Rmax (fp_init (fp_update a b c ca cb cg sa sb sg)) l /\ NoDup l /\
  (forall p, In p l -> ints p -> cell2 a b c al be ga p <= (1 + 3 * margin) * (Rmax * Rmax)) /\
  (forall p, ints p -> cell2 a b c al be ga p <= (1 - 3 * margin) * (Rmax * Rmax) ->
     Rmin <= 0 \/ Rmin * Rmin + 3 * margin * (Rmax * Rmax) <= cell2 a b c al be ga p -> In p l).
Proof.
  intros Rmin Rmax a b c al be ga ca cb cg sa sb sg Ha Hb Hc H1 H2 H3 HV HW.
  destruct (cell_angles a b c al be ga ca cb cg sa sb sg Ha Hb Hc H1 H2 H3 HV) as [OK NEAR]. set (L := fp_init (fp_update a b c ca cb cg sa sb sg)) in *.
  destruct (C107_points_partial Rmin Rmax L OK HW) as (l & Hl & _ & Hd & Hs & Hcp). exists l. split; [exact Hl|]. split; [exact Hd|].
  pose proof (bpow_gt_0 radix2 (-300)) as P. assert (S0 : 0 < Rmax * Rmax) by (apply Rmult_lt_0_compat; lra). set (r := Rmax * Rmax) in *. clearbody r L.
  split.
  - intros p Hp Hi. specialize (Hs p Hp Hi). destruct (NEAR p) as [Q E]. apply Rabs_le_inv in E. unfold margin in *. lra.
  - intros p Hi Hu Hlo. destruct (NEAR p) as [Q E]. apply Rabs_le_inv in E. apply Hcp; [exact Hi|unfold margin in *; lra|].
    destruct Hlo as [H|H]; [left; exact H|right; unfold margin in *; lra].
Qed.
Print Assumptions C107_cells_partial.

(** A hexagonal cell, with the double nearest to the sine of 120 degrees: the point (1, 1, 0) at the distance 3 is visited, the point (1, -1, 0) at the
    distance 5.2 is not. *)
Example C107_cells_nonvacuous : exists l,
  visits 1 4 (fp_init (fp_update 3 3 5 0 0 (-1/2) 1 1 (rnd (sqrt 3 / 2)))) l /\ In (1, 1, 0)%Z l /\ ~ In (1, -1, 0)%Z l.
Proof.
  assert (U : forall k, 1 <= k <= 8 -> usual_edge k).
  { intros k Hk. split; [apply Rle_trans with (bpow radix2 0); [apply bpow_le; lia|cbn; lra]|apply Rle_trans with (bpow radix2 3); [cbn; lra|apply bpow_le; lia]]. }
  assert (P50 : 0 < bpow radix2 (-50)) by apply bpow_gt_0.
  assert (G90 : good_trig (PI / 2) 0 1). { unfold good_trig. rewrite cos_PI2, sin_PI2, !Rminus_diag_eq, Rabs_R0 by reflexivity. lra. }
  assert (S3 : 1 < sqrt 3 < 2). { assert (A : 1 * 1 < 3) by lra. assert (B : 3 < 2 * 2) by lra. pose proof (sqrt_lt_1_alt (1 * 1) 3 ltac:(lra)) as X. pose proof (sqrt_lt_1_alt 3 (2 * 2) ltac:(lra)) as Y. rewrite sqrt_square in X, Y by lra. lra. }
  assert (C120 : cos (2 * (PI / 3)) = -1/2) by apply cos_2PI3. assert (S120 : sin (2 * (PI / 3)) = sqrt 3 / 2) by apply sin_2PI3.
  assert (G120 : good_trig (2 * (PI / 3)) (-1/2) (rnd (sqrt 3 / 2))).
  { unfold good_trig. rewrite C120, S120. split; [lra|]. rewrite Rminus_diag_eq, Rabs_R0 by reflexivity. split; [lra|].
    pose proof (rb (sqrt 3 / 2) 1 ltac:(rewrite Rabs_pos_eq; lra) ltac:(change 1 with (bpow radix2 0); apply bpow_le; lia)) as R. change (bpow radix2 (-50)) with (/ 1125899906842624). lra. }
  assert (V : / 256 <= unit_volume2 (PI / 2) (PI / 2) (2 * (PI / 3))) by (unfold unit_volume2; rewrite cos_PI2, C120; lra).
  destruct (C107_cells_partial 1 4 3 3 5 _ _ _ 0 0 (-1/2) 1 1 _ (U 3 ltac:(lra)) (U 3 ltac:(lra)) (U 5 ltac:(lra)) G90 G90 G120 V) as (l & Hl & _ & Hs & Hc).
  { apply Rle_trans with (bpow radix2 0); [apply bpow_le; lia|cbn; lra]. }
  exists l. split; [exact Hl|]. split.
  - apply Hc; [cbn; lia|unfold cell2, margin; rewrite cos_PI2, C120; lra|right; unfold cell2, margin; rewrite cos_PI2, C120; lra].
  - intros H. specialize (Hs _ H ltac:(cbn; lia)). unfold cell2, margin in Hs. rewrite cos_PI2, C120 in Hs. lra.
Qed.

(** A sphere whose radius is not positive: no point is visited, not even the origin. *)
Theorem C107_empty_sphere : forall Rmin Rmax L, par_ok L -> Rmax <= 0 -> visits Rmin Rmax L [].
Proof.
  intros Rmin Rmax L HL HW. apply FpSphereMore.visits_all. unfold FpSphereLoop.all_points. pose proof (ok_a L HL) as HA. pose proof (bpow_gt_0 radix2 (-300)) as P.
  assert (H : (Rceil (rnd (Rmax * ar L)) <= 0)%Z).
  { apply Rceil_le. apply rnd_le_dbl; [|apply (dbl_Z 0); lia]. assert (0 <= - Rmax * ar L) by (apply Rmult_le_pos; lra). cbn. lra. }
  unfold zrange, FpSphereLoop.mhi. replace (Z.to_nat _) with O by lia. reflexivity.
Qed.
Print Assumptions C107_empty_sphere.
