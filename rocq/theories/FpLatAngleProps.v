(** C106: angles of lattice vectors in machine arithmetic. *)
From Flocq Require Import Core.
From Coq Require Import Reals Lra Lia.
From Verif Require Import RBase R3 Trig TrigProofs Fp FpAngle FpAngleSpec FpAngleProofs FpLatAngleSpec FpLatAngle.
Open Scope R_scope.

(** acosd: for every double in [-1, 1], as precise as the acos of the library *)
Theorem C106_acosd : forall ac eps x, eps <= 1 -> good_acos eps ac -> dbl x -> Rabs x <= 1 ->
  exists d, fp_acosd ac x = Some d /\ Rabs (d - acos x / PI * 180) <= 58 * eps + / 1099511627776.
Proof. exact acosd_err. Qed.
Print Assumptions C106_acosd.

(** the angle of two vectors of a lattice that is not nearly flat is that of a cosine within 2^-40/k of the exact one; there is an angle unless
    the vectors are parallel up to that *)
Theorem C106_lattice_angle_partial : forall ac eps M G A B k a b, eps <= 1 -> good_acos eps ac ->
  bpow radix2 (-100) <= A -> bpow radix2 (-100) <= B -> bpow radix2 (-100) <= G -> entries M G -> within a A -> within b B ->
  (forall w, 0 <= mdot M w w) -> bpow radix2 (-20) <= k -> k <= 9 -> k * (G * (A * A)) <= mdot M a a -> k * (G * (B * B)) <= mdot M b b ->
  let c := mdot M a b / (sqrt (mdot M a a) * sqrt (mdot M b b)) in
  (forall t, fp_anglerad ac M a b = Some t -> exists x, Rabs x <= 1 /\ Rabs (x - c) <= bpow radix2 (-40) / k /\ Rabs (t - acos x) <= eps) /\
  (forall d, fp_angledeg ac M a b = Some d -> exists x, Rabs x <= 1 /\ Rabs (x - c) <= bpow radix2 (-40) / k /\ Rabs (d - acos x / PI * 180) <= 58 * eps + / 1099511627776) /\
  (Rabs c <= 1 - bpow radix2 (-40) / k -> fp_anglerad ac M a b <> None /\ fp_angledeg ac M a b <> None).
Proof.
  intros ac eps M G A B k a b He Hg HA HB HG HM Wa Wb PD Hk Hk9 Qa Qb c. pose proof (lcos_err M G A B k a b HA HB HG HM Wa Wb PD Hk Hk9 Qa Qb) as E. fold c in E.
  assert (DX : dbl (fp_lcos M a b)) by apply rnd_dbl. unfold fp_anglerad, fp_angledeg. set (x := fp_lcos M a b) in *. clearbody x.
  assert (CB : Rabs c <= 1).
  { unfold c. assert (QbP : 0 < mdot M b b). { eapply Rlt_le_trans; [|exact Qb]. pose proof (bpow_gt_0 radix2 (-20)). pose proof (bpow_gt_0 radix2 (-100)). repeat apply Rmult_lt_0_compat; lra. }
    assert (QaP : 0 < mdot M a a). { eapply Rlt_le_trans; [|exact Qa]. pose proof (bpow_gt_0 radix2 (-20)). pose proof (bpow_gt_0 radix2 (-100)). repeat apply Rmult_lt_0_compat; lra. }
    pose proof (sqrt_lt_R0 _ QaP) as Sa. pose proof (sqrt_lt_R0 _ QbP) as Sb. apply FpSphereProofs.absdiv; [now apply Rmult_lt_0_compat|]. rewrite Rmult_1_l.
    rewrite <- (Rabs_pos_eq (sqrt (mdot M a a) * sqrt (mdot M b b))) by (apply Rmult_le_pos; lra). apply Rsqr_le_abs_0. unfold Rsqr.
    replace (sqrt (mdot M a a) * sqrt (mdot M b b) * (sqrt (mdot M a a) * sqrt (mdot M b b))) with (sqrt (mdot M a a) * sqrt (mdot M a a) * (sqrt (mdot M b b) * sqrt (mdot M b b))) by ring. rewrite !sqrt_sqrt by lra. now apply mdot_cs. }
  assert (IK : bpow radix2 (-40) / k <= / 1048576). { change (bpow radix2 (-40)) with (/ 1099511627776). change (bpow radix2 (-20)) with (/ 1048576) in Hk. unfold Rdiv. assert (/ k <= 1048576) by (rewrite <- (Rinv_inv 1048576); apply Rinv_le_contravar; lra). lra. }
  assert (DEG : forall d, fp_acosd ac x = Some d -> Rabs x <= 1 /\ Rabs (d - acos x / PI * 180) <= 58 * eps + / 1099511627776).
  { intros d Hd. destruct (Rle_lt_dec (Rabs x) 1) as [L|L].
    - destruct (acosd_err ac eps x He Hg DX L) as (d' & E' & B'). rewrite E' in Hd. injection Hd as <-. split; assumption.
    - destruct (acosd_none ac x L) as [N|[n N]]; [congruence|]. exfalso. apply Rabs_le_inv in E, CB. rewrite N in E, L. unfold Rabs in L. destruct (Rcase_abs (1 / 2 * IZR n)) as [S|S].
      + assert (IZR n < -2) by lra. assert (n < -2)%Z by (now apply lt_IZR). assert (IZR n <= -3) by (apply IZR_le; lia). lra.
      + assert (2 < IZR n) by lra. assert (2 < n)%Z by (now apply lt_IZR). assert (3 <= IZR n) by (apply IZR_le; lia). lra. }
  split; [|split].
  - intros t Ht. unfold fp_acos in Ht. destruct (Rleb (Rabs x) 1) eqn:L; [|discriminate]. apply Rleb_true in L. injection Ht as <-. exists x. split; [exact L|]. split; [exact E|]. now apply Hg.
  - intros d Hd. destruct (DEG d Hd) as [L D]. exists x. auto.
  - intros Hc. assert (L : Rabs x <= 1) by (pose proof (FpSphereProofs.abs_near _ _ _ _ E Hc); lra). split.
    + unfold fp_acos. rewrite (proj2 (Rleb_true _ _) L). discriminate.
    + destruct (acosd_err ac eps x He Hg DX L) as (d & E' & _). rewrite E'. discriminate.
Qed.
Print Assumptions C106_lattice_angle_partial.

(** the angle does not depend on the order of the two vectors, bit for bit *)
Theorem C106_lattice_angle_symmetric : forall ac M a b, fp_anglerad ac M a b = fp_anglerad ac M b a /\ fp_angledeg ac M a b = fp_angledeg ac M b a.
Proof. intros ac M a b. unfold fp_anglerad, fp_angledeg. now rewrite lcos_sym. Qed.
Print Assumptions C106_lattice_angle_symmetric.

(** the hypotheses are met: the first two base vectors of a hexagonal cell *)
Definition hexagonal : metrics := {| g00 := 9; g11 := 9; g22 := 25; g01 := - (9 / 2); g02 := 0; g12 := 0 |}.
Example C106_lattice_nonvacuous : entries hexagonal 25 /\ within (V3 1 0 0) 1 /\ within (V3 0 1 0) 1 /\ (forall w, 0 <= mdot hexagonal w w) /\
  / 4 * (25 * (1 * 1)) <= mdot hexagonal (V3 1 0 0) (V3 1 0 0) /\ / 4 * (25 * (1 * 1)) <= mdot hexagonal (V3 0 1 0) (V3 0 1 0) /\
  mdot hexagonal (V3 1 0 0) (V3 0 1 0) / (sqrt (mdot hexagonal (V3 1 0 0) (V3 1 0 0)) * sqrt (mdot hexagonal (V3 0 1 0) (V3 0 1 0))) = - / 2.
Proof.
  assert (Q1 : mdot hexagonal (V3 1 0 0) (V3 1 0 0) = 9) by (unfold mdot, hexagonal; cbn; lra). assert (Q2 : mdot hexagonal (V3 0 1 0) (V3 0 1 0) = 9) by (unfold mdot, hexagonal; cbn; lra).
  assert (Q3 : mdot hexagonal (V3 1 0 0) (V3 0 1 0) = - (9 / 2)) by (unfold mdot, hexagonal; cbn; lra). rewrite Q1, Q2, Q3.
  repeat split; try (unfold hexagonal; cbn; apply Rabs_le; lra); try lra.
  - intros [x y z]. unfold mdot, hexagonal. cbn. pose proof (FpAngleProofs.sq_nonneg (x - y)). pose proof (FpAngleProofs.sq_nonneg x). pose proof (FpAngleProofs.sq_nonneg y). pose proof (FpAngleProofs.sq_nonneg z). lra.
  - assert (S : sqrt 9 = 3) by (replace 9 with (3 * 3) by ring; apply sqrt_square; lra). rewrite S. lra.
Qed.
