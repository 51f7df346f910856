(** C111: the distance, Q and d that the iterator of lattice points reports, in machine arithmetic. *)
From Flocq Require Import Core.
From Coq Require Import Reals Lra Lia Bool.
From Verif Require Import RBase Fp FpGrid FpPi FpAngleMain FpWidthMain FpSphere FpSphereSpec FpSphereProofs FpSphereMore FpSphereProps FpCellSpec FpCellMain FpCellProps FpDist FpDistProofs.
Import ListNotations.
Open Scope R_scope.

(** indices whose products fit an int *)
Definition short (p : Z * Z * Z) : Prop := let '(m, n, o) := p in (Z.abs m <= 32767 /\ Z.abs n <= 32767 /\ Z.abs o <= 32767)%Z.
Lemma short_defined p : short p -> r_defined p = true.
Proof.
  destruct p as [[m n] o]. cbn [short]. intros (H1 & H2 & H3). assert (K : forall x y, (Z.abs x <= 32767 -> Z.abs y <= 32767 -> int_ok (x * y) = true /\ int_ok (2 * x) = true /\ int_ok (2 * x * y) = true)%Z).
  { intros x y Hx Hy. assert (P : (Z.abs (x * y) <= 32767 * 32767)%Z) by (rewrite Z.abs_mul; apply Z.mul_le_mono_nonneg; lia). unfold int_ok. rewrite !andb_true_iff, !Z.leb_le, !Z.ltb_lt. lia. }
  unfold r_defined. destruct (K m m H1 H1) as (-> & -> & _). destruct (K n n H2 H2) as (-> & -> & _). destruct (K o o H3 H3) as (-> & _ & _). destruct (K m n H1 H2) as (_ & _ & ->). destruct (K m o H1 H3) as (_ & _ & ->). destruct (K n o H2 H3) as (_ & _ & ->). reflexivity.
Qed.
Lemma short_ints p : short p -> ints p.
Proof. destruct p as [[m n] o]. cbn. lia. Qed.

(** For a cell of any angles that is not too flat, r() is the length of the lattice vector up to a relative 2^-37, and 0 for the origin. *)
Theorem C111_distance_partial : forall a b c al be ga ca cb cg sa sb sg p,
  usual_edge a -> usual_edge b -> usual_edge c -> good_trig al ca sa -> good_trig be cb sb -> good_trig ga cg sg -> / 256 <= unit_volume2 al be ga -> short p ->
  exists r, fp_r a b c ca cb cg p = Some r /\ Rabs (r - sqrt (cell2 a b c al be ga p)) <= / 137438953472 * sqrt (cell2 a b c al be ga p).
Proof.
  intros a b c al be ga ca cb cg sa sb sg p Ha Hb Hc H1 H2 H3 HV Hp. unfold fp_r. rewrite (short_defined p Hp). eexists. split; [reflexivity|].
  eapply Rle_trans; [exact (r_dist a b c al be ga ca cb cg sa sb sg p Ha Hb Hc H1 H2 H3 HV)|]. apply Rmult_le_compat_r; [apply sqrt_pos|lra].
Qed.
Print Assumptions C111_distance_partial.

(** Opposite points are reported at exactly the same distance, whatever is rounded. *)
Theorem C111_opposite : forall a b c ca cb cg m n o, fp_r a b c ca cb cg (- m, - n, - o)%Z = fp_r a b c ca cb cg (m, n, o).
Proof.
  intros a b c ca cb cg m n o. assert (E : forall x y, (- x * - y = x * y)%Z) by (intros; ring). assert (E2 : forall x y, (2 * - x * - y = 2 * x * y)%Z) by (intros; ring).
  unfold fp_r, fp_r2, r_defined. rewrite !E, !E2. assert (F : forall x, int_ok (x * x) = true -> int_ok (2 * x) = true /\ int_ok (2 * - x) = true).
  { intros x H. unfold int_ok in *. rewrite andb_true_iff, Z.leb_le, Z.ltb_lt in *. assert (Z.abs x < 2 ^ 16)%Z by (apply Z.nle_gt; intros K; assert (2 ^ 16 * 2 ^ 16 <= Z.abs x * Z.abs x)%Z by (apply Z.mul_le_mono_nonneg; lia); rewrite <- Z.abs_mul in H0; lia). rewrite !andb_true_iff, !Z.leb_le, !Z.ltb_lt. lia. }
  destruct (int_ok (m * m)) eqn:Em; [|reflexivity]. destruct (int_ok (n * n)) eqn:En; [|reflexivity]. destruct (F m Em) as [-> ->]. destruct (F n En) as [-> ->]. reflexivity.
Qed.
Print Assumptions C111_opposite.

(** The distance that is reported and the points that are visited agree up to a 2^-28 part of the radius. *)
Theorem C111_visited_partial : forall Rmin Rmax a b c al be ga ca cb cg sa sb sg l,
  usual_edge a -> usual_edge b -> usual_edge c -> good_trig al ca sa -> good_trig be cb sb -> good_trig ga cg sg -> / 256 <= unit_volume2 al be ga ->
  bpow radix2 (-300) <= Rmax -> visits Rmin Rmax (fp_init (fp_update a b c ca cb cg sa sb sg)) l ->
  forall p r, short p -> fp_r a b c ca cb cg p = Some r ->
  (In p l -> r <= (1 + / 268435456) * Rmax) /\ (r <= (1 - / 268435456) * Rmax -> Rmin <= 0 \/ Rmin + / 16384 * Rmax <= r -> In p l).
Proof.
  intros Rmin Rmax a b c al be ga ca cb cg sa sb sg l Ha Hb Hc H1 H2 H3 HV HW Hl p r Hp Hr.
  destruct (C107_cells_partial Rmin Rmax a b c al be ga ca cb cg sa sb sg Ha Hb Hc H1 H2 H3 HV HW) as (l' & Hl' & _ & Hs & Hcp).
  assert (l' = l) as ->. { apply visits_all in Hl, Hl'. congruence. }
  destruct (C111_distance_partial a b c al be ga ca cb cg sa sb sg p Ha Hb Hc H1 H2 H3 HV Hp) as (r' & Er & D). assert (r' = r) as -> by congruence. clear Er Hr.
  specialize (Hs p). specialize (Hcp p (short_ints p Hp)). specialize (fun H => Hs H (short_ints p Hp)).
  assert (N : 0 <= cell2 a b c al be ga p) by (exact (proj1 (proj2 (cell_angles a b c al be ga ca cb cg sa sb sg Ha Hb Hc H1 H2 H3 HV) p))).
  pose proof (sqrt_sqrt _ N) as EQ. pose proof (sqrt_pos (cell2 a b c al be ga p)) as q0. set (q := sqrt (cell2 a b c al be ga p)) in *. rewrite <- EQ in *. clearbody q. pose proof (bpow_gt_0 radix2 (-300)) as P. apply Rabs_le_inv in D. unfold margin in *.
  split.
  - intros Hin. specialize (Hs Hin). assert (q <= (1 + 2 * / 1073741824) * Rmax); [|lra]. apply Rnot_lt_le. intros K.
    assert (X : (1 + 2 * / 1073741824) * Rmax * ((1 + 2 * / 1073741824) * Rmax) < q * q) by (apply Rmult_le_0_lt_compat; lra). assert (0 < Rmax * Rmax) by (apply Rmult_lt_0_compat; lra). lra.
  - intros Hu Hlo. assert (Q1 : q <= (1 - 2 * / 1073741824) * Rmax) by lra. assert (W0 : 0 < Rmax * Rmax) by (apply Rmult_lt_0_compat; lra). apply Hcp.
    + assert (X : q * q <= (1 - 2 * / 1073741824) * Rmax * ((1 - 2 * / 1073741824) * Rmax)) by (apply Rmult_le_compat; lra). lra.
    + destruct Hlo as [H|H]; [left; exact H|]. destruct (Rle_dec Rmin 0) as [Z0|Z0]; [left; exact Z0|right].
      assert (Q2 : Rmin + 99 / 100 * / 16384 * Rmax <= q) by lra.
      assert (X : (Rmin + 99 / 100 * / 16384 * Rmax) * (Rmin + 99 / 100 * / 16384 * Rmax) <= q * q) by (apply Rmult_le_compat; lra). assert (0 <= Rmin * Rmax) by (apply Rmult_le_pos; lra). lra.
Qed.
Print Assumptions C111_visited_partial.

(** Q() and d() of a reflection against r() of its reciprocal lattice vector: 2 pi r and 1/r up to relative 2^-46 and 2^-52. *)
Theorem C111_Q_d : forall r, bpow radix2 (-300) <= r <= bpow radix2 300 -> exists Q d, fp_Q (Some r) = Some Q /\ fp_d (Some r) = Some d /\
  Rabs (Q - 2 * PI * r) <= / 70368744177664 * (2 * PI * r) /\ Rabs (d - 1 / r) <= / 4503599627370496 * (1 / r).
Proof.
  intros r [L U]. do 2 eexists. split; [reflexivity|]. split; [reflexivity|]. pose proof (bpow_gt_0 radix2 (-300)) as P. pose proof fp_pi as FP. apply Rabs_le_inv in FP. pose proof PI_RGT_0. pose proof PI_4. destruct pi_near as [PB _].
  assert (L2 : bpow radix2 (-1000) <= bpow radix2 (-300)) by (apply bpow_le; lia). split.
  - assert (R1 : Rabs (rnd (2 * FP_PI) - 2 * FP_PI) <= / 4503599627370496 * 9) by (apply rb; [rewrite Rabs_pos_eq; lra|apply Rle_trans with (bpow radix2 0); [apply bpow_le; lia|cbn; lra]]). apply Rabs_le_inv in R1. set (k := rnd (2 * FP_PI)) in *. clearbody k.
    assert (K : Rabs (k * r - 2 * PI * r) <= 17 / 1000000000000000 * r) by (replace (k * r - 2 * PI * r) with ((k - 2 * PI) * r) by ring; apply FpSphereProofs.absmul; [apply Rabs_le; lra|rewrite Rabs_pos_eq; lra]). apply Rabs_le_inv in K as K'.
    assert (PR : 3 * r <= PI * r <= 4 * r) by (split; apply Rmult_le_compat_r; lra).
    assert (R2 : Rabs (rnd (k * r) - k * r) <= / 4503599627370496 * (9 * r)) by (apply rb; [apply Rabs_le; lra|lra]). pose proof (abs_tri _ _ _ _ _ R2 K) as T. eapply Rle_trans; [exact T|]. lra.
  - assert (PU : bpow radix2 (-300) <= 1 / r). { unfold Rdiv. rewrite Rmult_1_l. replace (bpow radix2 (-300)) with (/ bpow radix2 300) by (rewrite <- bpow_opp; reflexivity). apply Rinv_le_contravar; lra. }
    apply rb; [rewrite Rabs_pos_eq; lra|lra].
Qed.
Print Assumptions C111_Q_d.

(** "Rmin() < r() < Rmax()" does not tell exactly which points are visited: in the cubic lattice with the edge 3 and the radius 15 + 2^-49 the point
    (5, 0, 0), which r() puts at 15, is not visited. *)
Theorem C111_surface_refuted : exists l, visits 0 W15 (box 3 3 3) l /\ fp_r 3 3 3 0 0 0 (5, 0, 0)%Z = Some 15 /\ 15 < W15 /\ ~ In (5, 0, 0)%Z l.
Proof.
  destruct C107_surface_refuted as (l & Hl & Hb & Hn). exists l. split; [exact Hl|]. split; [|split; [|exact Hn]].
  - unfold fp_r. change (r_defined (5, 0, 0)%Z) with true. cbv iota beta. f_equal. unfold fp_r2. change (5 * 5)%Z with 25%Z. change (0 * 0)%Z with 0%Z. change (2 * 5 * 0)%Z with 0%Z. change (2 * 0 * 0)%Z with 0%Z.
    assert (I : forall k, (Z.abs k < 2 ^ 53)%Z -> rnd (IZR k) = IZR k) by (intros k Hk; apply rnd_id, dbl_Z; lia).
    pose proof (I 0%Z ltac:(lia)) as I0. pose proof (I 75%Z ltac:(lia)) as I1. pose proof (I 225%Z ltac:(lia)) as I2. pose proof (I 15%Z ltac:(lia)) as I3.
    repeat (progress rewrite ?Rmult_0_l, ?Rmult_0_r, ?I0). replace (25 * 3) with 75 by ring. rewrite I1. replace (75 * 3) with 225 by ring. rewrite I2. repeat (progress rewrite ?Rplus_0_r, ?I2). replace 225 with (15 * 15) by ring. rewrite sqrt_square by lra. exact I3.
  - unfold box2 in Hb. apply Rnot_le_lt. intros K. destruct (Rle_dec 0 W15) as [Q|Q]; [assert (W15 * W15 <= 15 * 15) by (apply Rmult_le_compat; lra); lra|].
    unfold W15 in Q. apply Q. apply Rmult_le_pos; [|apply bpow_ge_0]. apply IZR_le. lia.
Qed.
Print Assumptions C111_surface_refuted.

(** In a large sphere a point is visited for which r() multiplies ints that overflow: the behaviour is undefined. *)
Theorem C111_overflow_refuted : exists l, visits 0 50000 (box 1 1 1) l /\ In (46341, 0, 0)%Z l /\ fp_r 1 1 1 0 0 0 (46341, 0, 0)%Z = None.
Proof.
  assert (E1 : edge 1). { split; [apply (dbl_Z 1); lia|]. split; [lra|]. apply Rle_trans with (bpow radix2 0); [cbn; lra|apply bpow_le; lia]. }
  destruct (C107_right_angles_partial 0 50000 1 1 1 E1 E1 E1) as (l & Hl & _ & _ & Hc).
  { apply Rle_trans with (bpow radix2 0); [apply bpow_le; lia|cbn; lra]. }
  exists l. split; [exact Hl|]. split; [apply Hc; [cbn; lia|unfold box2, margin; lra|left; lra]|reflexivity].
Qed.
Print Assumptions C111_overflow_refuted.

(** the diagonal of a hexagonal cell *)
Example C111_nonvacuous : exists r, fp_r 3 3 5 0 0 (-1/2) (1, 1, 0)%Z = Some r /\ Rabs (r - 3) <= / 1000000000.
Proof.
  assert (U : forall k, 1 <= k <= 8 -> usual_edge k).
  { intros k Hk. split; [apply Rle_trans with (bpow radix2 0); [apply bpow_le; lia|cbn; lra]|apply Rle_trans with (bpow radix2 3); [cbn; lra|apply bpow_le; lia]]. }
  assert (P50 : 0 < bpow radix2 (-50)) by apply bpow_gt_0.
  assert (G90 : good_trig (PI / 2) 0 1). { unfold good_trig. rewrite cos_PI2, sin_PI2, !Rminus_diag_eq, Rabs_R0 by reflexivity. lra. }
  assert (C120 : cos (2 * (PI / 3)) = -1/2) by apply cos_2PI3. assert (S120 : sin (2 * (PI / 3)) = sqrt 3 / 2) by apply sin_2PI3.
  assert (G120 : good_trig (2 * (PI / 3)) (-1/2) (sqrt 3 / 2)). { unfold good_trig. rewrite C120, S120, !Rminus_diag_eq, Rabs_R0 by reflexivity. assert (0 < sqrt 3) by (apply sqrt_lt_R0; lra). lra. }
  assert (V : / 256 <= unit_volume2 (PI / 2) (PI / 2) (2 * (PI / 3))) by (unfold unit_volume2; rewrite cos_PI2, C120; lra).
  destruct (C111_distance_partial 3 3 5 _ _ _ _ _ _ _ _ _ (1, 1, 0)%Z (U 3 ltac:(lra)) (U 3 ltac:(lra)) (U 5 ltac:(lra)) G90 G90 G120 V ltac:(cbn; lia)) as (r & Er & D).
  exists r. split; [exact Er|]. assert (Q : sqrt (cell2 3 3 5 (PI / 2) (PI / 2) (2 * (PI / 3)) (1, 1, 0)%Z) = 3). { replace (cell2 _ _ _ _ _ _ _) with (3 * 3); [apply sqrt_square; lra|]. unfold cell2. rewrite cos_PI2, C120. field. }
  rewrite Q in D. lra.
Qed.
