(** Proofs for the lattice angles of FpAngle.v: Lattice::dot, norm, angledeg, anglerad in double arithmetic. *)
From Flocq Require Import Core.
From Coq Require Import Reals Lra Lia Psatz.
From Verif Require Import RBase R3 Trig TrigProofs Fp FpGrid FpPi FpAngle FpAngleSpec FpAngleProofs FpAngleMain FpSphereProofs FpBondsDiag FpWidthMain FpLatAngleSpec.
Import ListNotations.
Open Scope R_scope.

(** *** acosd *)
Lemma rad_err a t eps : 0 <= t <= PI -> Rabs (a - t) <= eps -> eps <= 1 -> Rabs (rnd (rnd (a / FP_PI) * 180) - t / PI * 180) <= 58 * eps + / 1099511627776.
Proof.
  intros Ht Ha He. destruct pi_near as [P1 P2]. pose proof fp_pi as H. assert (FP : 3 <= FP_PI <= 316 / 100) by (unfold FP_PI; cbn; lra). pose proof (Rabs_pos (a - t)) as E0. apply Rabs_le_inv in Ha.
  set (q := / FP_PI). set (p := / PI). assert (Q : 0 < q <= / 3). { unfold q. split; [apply Rinv_0_lt_compat; lra|apply Rinv_le; lra]. }
  assert (PQ : 0 < p <= 573 / 10 / 180). { unfold p. split; [apply Rinv_0_lt_compat; lra|]. apply Rmult_le_reg_l with 180; [lra|]. unfold Rdiv in P2. lra. }
  assert (D : Rabs (q - p) <= / 9 * / 140737488355328).
  { unfold q, p. replace (/ FP_PI - / PI) with ((PI - FP_PI) * / (PI * FP_PI)) by (field; split; lra). assert (9 <= PI * FP_PI) by (replace 9 with (3 * 3) by ring; apply Rmult_le_compat; lra).
    rewrite Rabs_mult, (Rabs_minus_sym PI), (Rabs_pos_eq (/ _)) by (left; apply Rinv_0_lt_compat; lra). rewrite (Rmult_comm (/ 9)). apply Rmult_le_compat; [apply Rabs_pos|left; apply Rinv_0_lt_compat; lra|exact H|apply Rinv_le; lra]. }
  assert (PT : 0 <= t * p <= 1). { split; [apply Rmult_le_pos; lra|]. unfold p. apply Rmult_le_reg_r with PI; [lra|]. rewrite Rmult_assoc, Rinv_l by lra. lra. }
  assert (M : Rabs (a * q - t * p) <= 573 / 10 / 180 * eps + 5 / 9 * / 140737488355328).
  { replace (a * q - t * p) with ((a - t) * p + a * (q - p)) by ring. eapply Rle_trans; [apply Rabs_triang|].
    assert (X1 : Rabs ((a - t) * p) <= eps * (573 / 10 / 180)) by (apply absmul; apply Rabs_le; lra). assert (X2 : Rabs (a * (q - p)) <= 5 * (/ 9 * / 140737488355328)) by (apply absmul; [apply Rabs_le; lra|exact D]). lra. }
  unfold Rdiv. fold q p. set (x := a * q) in *. set (y := t * p) in *. clearbody x y. clear Q PQ D H FP P1 P2 Ht. apply Rabs_le_inv in M.
  assert (A1 : Rabs (rnd x - x) <= v * 2) by (apply rb; [apply Rabs_le; lra|apply Rle_trans with (bpow radix2 0); [apply bpow_le; lia|change (bpow radix2 0) with 1; lra]]). apply Rabs_le_inv in A1. set (x' := rnd x) in *. clearbody x'.
  assert (A2 : Rabs (rnd (x' * 180) - x' * 180) <= v * 360) by (apply rb; [apply Rabs_le; lra|apply Rle_trans with (bpow radix2 0); [apply bpow_le; lia|change (bpow radix2 0) with 1; lra]]). apply Rabs_le_inv in A2. apply Rabs_le. lra.
Qed.
Lemma acosd_err ac eps x : eps <= 1 -> good_acos eps ac -> dbl x -> Rabs x <= 1 ->
  exists d, fp_acosd ac x = Some d /\ Rabs (d - acos x / PI * 180) <= 58 * eps + / 1099511627776.
Proof.
  intros He Hg Dx Hx. pose proof (acosd_acos x (Rabs_le_inv _ _ Hx)) as AA. pose proof (Hg x Dx Hx) as Ha. pose proof (Rabs_pos (ac x - acos x)) as E0.
  assert (O : exists d, option_map (fun a => rnd (rnd (a / FP_PI) * 180)) (fp_acos ac x) = Some d /\ Rabs (d - acos x / PI * 180) <= 58 * eps + / 1099511627776).
  { unfold fp_acos. rewrite (proj2 (Rleb_true _ _) Hx). cbn [option_map]. eexists. split; [reflexivity|]. apply rad_err; [apply acos_bound|exact Ha|exact He]. }
  assert (Z : forall c, c = acos x / PI * 180 -> exists d, Some c = Some d /\ Rabs (d - acos x / PI * 180) <= 58 * eps + / 1099511627776).
  { intros c ->. eexists. split; [reflexivity|]. rewrite Rminus_diag_eq, Rabs_R0 by reflexivity. lra. }
  unfold fp_acosd, acosd in *. cbv zeta. destruct (is_multiple x (1 / 2)); [|exact O].
  destruct (Rround (x / (1 / 2))) as [|[p|p|]|[p|p|]]; try exact O; try (now apply Z); destruct p; try exact O; now apply Z.
Qed.
Lemma acosd_none ac x : 1 < Rabs x -> fp_acosd ac x = None \/ exists k, x = 1 / 2 * IZR k.
Proof.
  intros H. unfold fp_acosd. cbv zeta. destruct (is_multiple x (1 / 2)) eqn:E; [right; apply is_multiple_iff in E; [exact E|lra]|].
  left. unfold fp_acos. now rewrite (proj2 (Rleb_false _ _) H).
Qed.

(** *** the product of two vectors *)
Lemma ldot_sym M a b : fp_ldot M a b = fp_ldot M b a.
Proof.
  unfold fp_ldot. rewrite (Rmult_comm (vx b) (vx a)), (Rmult_comm (vy b) (vy a)), (Rmult_comm (vz b) (vz a)), (Rmult_comm (vx b) (vy a)), (Rmult_comm (vy b) (vx a)), (Rmult_comm (vx b) (vz a)), (Rmult_comm (vz b) (vx a)), (Rmult_comm (vz b) (vy a)), (Rmult_comm (vy b) (vz a)).
  rewrite (Rplus_comm (rnd (vy a * vx b))), (Rplus_comm (rnd (vz a * vx b))), (Rplus_comm (rnd (vy a * vz b))). reflexivity.
Qed.
Lemma diag_err G P g p : bpow radix2 (-300) <= P -> bpow radix2 (-300) <= G -> Rabs g <= G -> Rabs p <= P -> Rabs (rnd p * g - g * p) <= v * (G * P).
Proof.
  intros HP HG Hg Hp. assert (E : Rabs (rnd p - p) <= v * P) by (apply rb; [exact Hp|apply Rle_trans with (bpow radix2 (-300)); [apply bpow_le; lia|exact HP]]).
  replace (rnd p * g - g * p) with ((rnd p - p) * g) by ring. pose proof (absmul _ _ _ _ E Hg). lra.
Qed.
Lemma mixed_err G P g p q : bpow radix2 (-300) <= P -> bpow radix2 (-300) <= G -> Rabs g <= G -> Rabs p <= P -> Rabs q <= P -> Rabs (rnd (rnd p + rnd q) * g - g * (p + q)) <= 5 * v * (G * P).
Proof.
  intros HP HG Hg Hp Hq. pose proof (bpow_gt_0 radix2 (-300)) as B. assert (HP2 : bpow radix2 (-1000) <= P) by (apply Rle_trans with (bpow radix2 (-300)); [apply bpow_le; lia|exact HP]).
  assert (E : Rabs (rnd p - p) <= v * P) by (apply rb; assumption). assert (F : Rabs (rnd q - q) <= v * P) by (apply rb; assumption).
  apply Rabs_le_inv in E, F, Hp, Hq. assert (S : Rabs (rnd (rnd p + rnd q) - (rnd p + rnd q)) <= v * (3 * P)) by (apply rb; [apply Rabs_le; lra|lra]). apply Rabs_le_inv in S.
  assert (T : Rabs (rnd (rnd p + rnd q) - (p + q)) <= 5 * v * P) by (apply Rabs_le; lra).
  replace (rnd (rnd p + rnd q) * g - g * (p + q)) with ((rnd (rnd p + rnd q) - (p + q)) * g) by ring. pose proof (absmul _ _ _ _ T Hg). lra.
Qed.
Lemma ldot_err_any M G A B a b : bpow radix2 (-100) <= A -> bpow radix2 (-100) <= B -> bpow radix2 (-100) <= G -> entries M G -> within a A -> within b B ->
  Rabs (fp_ldot M a b - mdot M a b) <= / 8000000000000 * (G * (A * B)).
Proof.
  intros HA HB HG (G0 & G1 & G2 & G3 & G4 & G5) (A0 & A1 & A2) (B0 & B1 & B2). pose proof (bpow_gt_0 radix2 (-100)) as P1.
  assert (HP : bpow radix2 (-200) <= A * B). { change (-200)%Z with (-100 + -100)%Z. rewrite bpow_plus. apply Rmult_le_compat; lra. }
  assert (HT : bpow radix2 (-300) <= G * (A * B)). { change (-300)%Z with (-100 + -200)%Z. rewrite bpow_plus. apply Rmult_le_compat; try lra. apply bpow_ge_0. }
  assert (HP3 : bpow radix2 (-300) <= A * B) by (apply Rle_trans with (bpow radix2 (-200)); [apply bpow_le; lia|exact HP]). assert (HG3 : bpow radix2 (-300) <= G) by (apply Rle_trans with (bpow radix2 (-100)); [apply bpow_le; lia|exact HG]).
  assert (PR : forall x y, Rabs x <= A -> Rabs y <= B -> Rabs (x * y) <= A * B) by (intros; now apply absmul).
  assert (SZ : forall g x, Rabs g <= G -> Rabs x <= A * B -> Rabs (g * x) <= G * (A * B)) by (intros; now apply absmul).
  pose proof (diag_err _ _ _ _ HP3 HG3 G0 (PR _ _ A0 B0)) as E0. pose proof (diag_err _ _ _ _ HP3 HG3 G1 (PR _ _ A1 B1)) as E1. pose proof (diag_err _ _ _ _ HP3 HG3 G2 (PR _ _ A2 B2)) as E2.
  pose proof (mixed_err _ _ _ _ _ HP3 HG3 G3 (PR _ _ A0 B1) (PR _ _ A1 B0)) as E3. pose proof (mixed_err _ _ _ _ _ HP3 HG3 G4 (PR _ _ A0 B2) (PR _ _ A2 B0)) as E4. pose proof (mixed_err _ _ _ _ _ HP3 HG3 G5 (PR _ _ A2 B1) (PR _ _ A1 B2)) as E5.
  pose proof (SZ _ _ G0 (PR _ _ A0 B0)) as S0. pose proof (SZ _ _ G1 (PR _ _ A1 B1)) as S1. pose proof (SZ _ _ G2 (PR _ _ A2 B2)) as S2.
  pose proof (SZ _ _ G3 (PR _ _ A0 B1)) as S3. pose proof (SZ _ _ G3 (PR _ _ A1 B0)) as S3'. pose proof (SZ _ _ G4 (PR _ _ A0 B2)) as S4. pose proof (SZ _ _ G4 (PR _ _ A2 B0)) as S4'. pose proof (SZ _ _ G5 (PR _ _ A2 B1)) as S5. pose proof (SZ _ _ G5 (PR _ _ A1 B2)) as S5'.
  unfold fp_ldot, mdot. cbv zeta. set (T := G * (A * B)) in *.
  set (t0 := rnd (vx a * vx b) * g00 M) in *. set (t1 := rnd (vy a * vy b) * g11 M) in *. set (t2 := rnd (vz a * vz b) * g22 M) in *.
  set (t3 := rnd (rnd (vx a * vy b) + rnd (vy a * vx b)) * g01 M) in *. set (t4 := rnd (rnd (vx a * vz b) + rnd (vz a * vx b)) * g02 M) in *. set (t5 := rnd (rnd (vz a * vy b) + rnd (vy a * vz b)) * g12 M) in *.
  replace (g00 M * vx a * vx b) with (g00 M * (vx a * vx b)) by ring. replace (g11 M * vy a * vy b) with (g11 M * (vy a * vy b)) by ring. replace (g22 M * vz a * vz b) with (g22 M * (vz a * vz b)) by ring.
  rewrite Rmult_plus_distr_l in E3, E4, E5. rewrite !Rmult_plus_distr_l. rewrite (Rplus_comm (g12 M * (vy a * vz b))).
  set (y0 := g00 M * (vx a * vx b)) in *. set (y1 := g11 M * (vy a * vy b)) in *. set (y2 := g22 M * (vz a * vz b)) in *. set (y3 := g01 M * (vx a * vy b)) in *. set (z3 := g01 M * (vy a * vx b)) in *.
  set (y4 := g02 M * (vx a * vz b)) in *. set (z4 := g02 M * (vz a * vx b)) in *. set (y5 := g12 M * (vz a * vy b)) in *. set (z5 := g12 M * (vy a * vz b)) in *.
  clearbody y0 y1 y2 y3 z3 y4 z4 y5 z5 t0 t1 t2 t3 t4 t5 T. clear PR SZ. clear - HT E0 E1 E2 E3 E4 E5 S0 S1 S2 S3 S3' S4 S4' S5 S5'. pose proof (bpow_gt_0 radix2 (-300)) as P.
  apply Rabs_le_inv in E0, E1, E2, E3, E4, E5, S0, S1, S2, S3, S3', S4, S4', S5, S5'.
  assert (K0 : Rabs t0 <= 11 / 10 * T) by (apply Rabs_le; lra). assert (K1 : Rabs t1 <= 11 / 10 * T) by (apply Rabs_le; lra). assert (K2 : Rabs t2 <= 11 / 10 * T) by (apply Rabs_le; lra).
  assert (K3 : Rabs t3 <= 21 / 10 * T) by (apply Rabs_le; lra). assert (K4 : Rabs t4 <= 21 / 10 * T) by (apply Rabs_le; lra). assert (K5 : Rabs t5 <= 21 / 10 * T) by (apply Rabs_le; lra).
  pose proof (six_err (10 * T) t0 t1 t2 t3 t4 t5 ltac:(lra) ltac:(lra)) as R6. apply Rabs_le_inv in R6. apply Rabs_le. lra.
Qed.

(** *** the cosine *)
Definition vplus (a b : vec) (t : R) : vec := V3 (vx a + t * vx b) (vy a + t * vy b) (vz a + t * vz b).
Lemma mdot_cs M a b : (forall w, 0 <= mdot M w w) -> 0 < mdot M b b -> mdot M a b * mdot M a b <= mdot M a a * mdot M b b.
Proof.
  intros H Hb. pose proof (H (vplus a b (- (mdot M a b / mdot M b b)))) as P. set (t := - (mdot M a b / mdot M b b)) in *.
  assert (E : mdot M (vplus a b t) (vplus a b t) = mdot M a a + 2 * t * mdot M a b + t * t * mdot M b b) by (unfold mdot, vplus; cbn [vx vy vz]; ring).
  rewrite E in P. apply (Rmult_le_compat_r (mdot M b b)) in P; [|lra]. assert (TB : t * mdot M b b = - mdot M a b) by (unfold t; field; lra).
  replace ((mdot M a a + 2 * t * mdot M a b + t * t * mdot M b b) * mdot M b b) with (mdot M a a * mdot M b b + 2 * (t * mdot M b b) * mdot M a b + (t * mdot M b b) * (t * mdot M b b)) in P by ring. rewrite TB in P. lra.
Qed.
Lemma lnorm_err_any M G A k a : bpow radix2 (-100) <= A -> bpow radix2 (-100) <= G -> entries M G -> within a A -> bpow radix2 (-20) <= k -> k <= 9 ->
  k * (G * (A * A)) <= mdot M a a -> let n := sqrt (mdot M a a) in bpow radix2 (-200) <= n /\ Rabs (fp_lnorm M a - n) <= 105 / 100 * (/ 8000000000000 / k) * n.
Proof.
  intros HA HG HM Ha Hk Hk9 HQ n. pose proof (ldot_err_any M G A A a a HA HA HG HM Ha Ha) as E. pose proof (bpow_gt_0 radix2 (-100)) as P1. pose proof (bpow_gt_0 radix2 (-20)) as P2.
  set (Q := mdot M a a) in *. assert (HT : bpow radix2 (-300) <= G * (A * A)).
  { change (-300)%Z with (-100 + (-100 + -100))%Z. rewrite !bpow_plus. apply Rmult_le_compat; try lra. - apply Rmult_le_pos; lra. - apply Rmult_le_compat; lra. }
  assert (QL : bpow radix2 (-400) <= Q). { eapply Rle_trans; [|exact HQ]. apply Rle_trans with (bpow radix2 (-20) * bpow radix2 (-300)); [rewrite <- bpow_plus; apply bpow_le; lia|]. apply Rmult_le_compat; try lra; apply bpow_ge_0. }
  pose proof (bpow_gt_0 radix2 (-400)) as P4. set (T := G * (A * A)) in *. clearbody T Q. assert (ID : / 9 <= / k <= 1048576).
  { change (bpow radix2 (-20)) with (/ 1048576) in *. split; [apply Rinv_le_contravar; lra|]. rewrite <- (Rinv_inv 1048576). apply Rinv_le_contravar; lra. }
  set (dl := / 8000000000000 / k). assert (DL : / 72000000000000 <= dl <= 1048576 / 8000000000000) by (unfold dl, Rdiv; lra).
  assert (TQ : T <= / k * Q). { apply Rmult_le_reg_l with k; [lra|]. rewrite <- Rmult_assoc, Rinv_r by lra. lra. }
  assert (EQ : Rabs (fp_ldot M a a - Q) <= dl * Q). { eapply Rle_trans; [exact E|]. unfold dl, Rdiv. rewrite Rmult_assoc. apply Rmult_le_compat_l; lra. }
  assert (X0 : 0 <= fp_ldot M a a). { assert (dl * Q <= 1 * Q) by (apply Rmult_le_compat_r; lra). apply Rabs_le_inv in EQ. lra. }
  pose proof (ratio_err _ Q dl X0 ltac:(lra) EQ) as RE. fold n in RE. assert (NL : bpow radix2 (-200) <= n).
  { apply Rle_trans with (sqrt (bpow radix2 (-400))); [right; symmetry; exact (bpow_sqrt (-200))|]. now apply sqrt_le_1_alt. }
  split; [exact NL|]. unfold fp_lnorm. set (s := sqrt (fp_ldot M a a)) in *. clearbody s n. clearbody dl. pose proof (bpow_gt_0 radix2 (-200)) as PN. assert (L : bpow radix2 (-1000) <= bpow radix2 (-200)) by (apply bpow_le; lia).
  assert (DN : dl * n <= / 1000000 * n) by (apply Rmult_le_compat_r; lra). assert (DN2 : / 72000000000000 * n <= dl * n) by (apply Rmult_le_compat_r; lra). apply Rabs_le_inv in RE.
  assert (R2 : Rabs (rnd s - s) <= v * (2 * n)) by (apply rb; [apply Rabs_le; lra|lra]). apply Rabs_le_inv in R2. rewrite Rmult_assoc. apply Rabs_le. lra.
Qed.
Lemma lcos_err M G A B k a b : bpow radix2 (-100) <= A -> bpow radix2 (-100) <= B -> bpow radix2 (-100) <= G -> entries M G -> within a A -> within b B ->
  (forall w, 0 <= mdot M w w) -> bpow radix2 (-20) <= k -> k <= 9 -> k * (G * (A * A)) <= mdot M a a -> k * (G * (B * B)) <= mdot M b b ->
  Rabs (fp_lcos M a b - mdot M a b / (sqrt (mdot M a a) * sqrt (mdot M b b))) <= bpow radix2 (-40) / k.
Proof.
  intros HA HB HG HM Wa Wb PD Hk Hk9 Qa Qb. pose proof (lnorm_err_any M G A k a HA HG HM Wa Hk Hk9 Qa) as [Na Ea]. pose proof (lnorm_err_any M G B k b HB HG HM Wb Hk Hk9 Qb) as [Nb Eb].
  pose proof (ldot_err_any M G A B a b HA HB HG HM Wa Wb) as E. pose proof (bpow_gt_0 radix2 (-200)) as P2. pose proof (bpow_gt_0 radix2 (-100)) as P1. pose proof (bpow_gt_0 radix2 (-20)) as P20.
  pose proof (PD a) as Qa0. pose proof (PD b) as Qb0. assert (Qa1 : sqrt (mdot M a a) * sqrt (mdot M a a) = mdot M a a) by (now apply sqrt_sqrt). assert (Qb1 : sqrt (mdot M b b) * sqrt (mdot M b b) = mdot M b b) by (now apply sqrt_sqrt).
  set (na := sqrt (mdot M a a)) in *. set (nb := sqrt (mdot M b b)) in *. assert (QbP : 0 < mdot M b b) by (rewrite <- Qb1; apply Rmult_lt_0_compat; lra). pose proof (mdot_cs M a b PD QbP) as CS. rewrite <- Qa1, <- Qb1 in CS. rewrite <- Qa1 in Qa. rewrite <- Qb1 in Qb.
  assert (ID : / 9 <= / k <= 1048576).
  { change (bpow radix2 (-20)) with (/ 1048576) in *. split; [apply Rinv_le_contravar; lra|]. rewrite <- (Rinv_inv 1048576). apply Rinv_le_contravar; lra. }
  set (dl := / 8000000000000 / k) in *. assert (DL : / 72000000000000 <= dl <= 1048576 / 8000000000000) by (unfold dl, Rdiv; lra).
  set (N := na * nb). assert (NP : bpow radix2 (-400) <= N) by (unfold N; change (-400)%Z with (-200 + -200)%Z; rewrite bpow_plus; apply Rmult_le_compat; lra). pose proof (bpow_gt_0 radix2 (-400)) as P4.
  assert (KN : k * (G * (A * B)) <= N).
  { apply Rsqr_incr_0_var; [|lra]. unfold Rsqr, N. replace (k * (G * (A * B)) * (k * (G * (A * B)))) with (k * (G * (A * A)) * (k * (G * (B * B)))) by ring. replace (na * nb * (na * nb)) with (na * na * (nb * nb)) by ring.
    apply Rmult_le_compat; try assumption; (apply Rmult_le_pos; [lra|]; apply Rmult_le_pos; [lra|]; apply Rmult_le_pos; lra). }
  assert (ED : Rabs (fp_ldot M a b - mdot M a b) <= dl * N).
  { eapply Rle_trans; [exact E|]. unfold dl, Rdiv. rewrite Rmult_assoc. apply Rmult_le_compat_l; [lra|]. apply Rmult_le_reg_l with k; [lra|]. replace (k * (/ k * N)) with N by (field; lra). exact KN. }
  assert (CN : Rabs (mdot M a b) <= N). { apply Rsqr_incr_0_var; [|lra]. rewrite <- Rsqr_abs. unfold Rsqr, N. lra. }
  unfold fp_lcos. set (d' := fp_ldot M a b) in *. set (d := mdot M a b) in *. set (fa := fp_lnorm M a) in *. set (fb := fp_lnorm M b) in *. clearbody d' d fa fb na nb.
  assert (EP : Rabs (rnd (fa * fb) - N) <= 22 / 10 * dl * N).
  { assert (Da : Rabs (fa - na) <= 105 / 100 * dl * na) by exact Ea. assert (Db : Rabs (fb - nb) <= 105 / 100 * dl * nb) by exact Eb.
    assert (DN : 0 <= dl * na <= / 1000000 * na) by (split; [apply Rmult_le_pos; lra|apply Rmult_le_compat_r; lra]). assert (FA : Rabs fa <= 101 / 100 * na) by (rewrite Rmult_assoc in Da; apply Rabs_le; apply Rabs_le_inv in Da; lra).
    assert (X : Rabs (fa * fb - N) <= 101 / 100 * na * (105 / 100 * dl * nb) + 105 / 100 * dl * na * nb).
    { unfold N. replace (fa * fb - na * nb) with (fa * (fb - nb) + (fa - na) * nb) by ring. eapply Rle_trans; [apply Rabs_triang|]. apply Rplus_le_compat; apply absmul; try assumption. rewrite Rabs_pos_eq; lra. }
    replace (101 / 100 * na * (105 / 100 * dl * nb) + 105 / 100 * dl * na * nb) with ((101 / 100 + 1) * (105 / 100) * (dl * N)) in X by (unfold N; ring).
    assert (DN1 : dl * N <= / 1000000 * N) by (apply Rmult_le_compat_r; lra). assert (DN2 : / 72000000000000 * N <= dl * N) by (apply Rmult_le_compat_r; lra). apply Rabs_le_inv in X.
    assert (L : bpow radix2 (-1000) <= bpow radix2 (-400)) by (apply bpow_le; lia).
    assert (R2 : Rabs (rnd (fa * fb) - fa * fb) <= v * (2 * N)) by (apply rb; [apply Rabs_le; lra|lra]). apply Rabs_le_inv in R2. rewrite Rmult_assoc. apply Rabs_le. lra. }
  set (p := rnd (fa * fb)) in *. clearbody p. clear Ea Eb E CS Qa Qb Qa0 Qb0 Qa1 Qb1 KN QbP PD HM Wa Wb. fold N. clearbody N.
  assert (DN1 : dl * N <= / 1000000 * N) by (apply Rmult_le_compat_r; lra). assert (PP : 99 / 100 * N <= p). { rewrite Rmult_assoc in EP. apply Rabs_le_inv in EP. lra. }
  assert (QE : Rabs (d' / p - d / N) <= 34 / 10 * dl).
  { replace (d' / p - d / N) with (((d' - d) * N + d * (N - p)) / (p * N)) by (field; lra). apply absdiv; [apply Rmult_lt_0_compat; lra|].
    eapply Rle_trans; [apply Rabs_triang|]. assert (X1 : Rabs ((d' - d) * N) <= dl * N * N) by (apply absmul; [exact ED|rewrite Rabs_pos_eq; lra]).
    assert (X2 : Rabs (d * (N - p)) <= N * (22 / 10 * dl * N)) by (apply absmul; [exact CN|rewrite Rabs_minus_sym; exact EP]).
    assert (X3 : 34 / 10 * dl * (99 / 100 * N * N) <= 34 / 10 * dl * (p * N)) by (apply Rmult_le_compat_l; [lra|]; apply Rmult_le_compat_r; lra).
    assert (X4 : 0 <= dl * (N * N)) by (apply Rmult_le_pos; [lra|apply Rmult_le_pos; lra]).
    replace (dl * N * N) with (dl * (N * N)) in X1 by ring. replace (N * (22 / 10 * dl * N)) with (22 / 10 * (dl * (N * N))) in X2 by ring. replace (34 / 10 * dl * (99 / 100 * N * N)) with (34 / 10 * (99 / 100) * (dl * (N * N))) in X3 by ring. lra. }
  assert (C1 : Rabs (d / N) <= 1) by (apply absdiv; [lra|]; lra). assert (KD : bpow radix2 (-40) / k >= 36 / 10 * dl). { unfold dl, Rdiv. change (bpow radix2 (-40)) with (/ 1099511627776). lra. }
  assert (S : Rabs (d' / p) <= 2) by (pose proof (abs_near _ _ _ _ QE C1); lra).
  assert (R2 : Rabs (rnd (d' / p) - d' / p) <= v * 2) by (apply rb; [exact S|apply Rle_trans with (bpow radix2 0); [apply bpow_le; lia|change (bpow radix2 0) with 1; lra]]).
  pose proof (abs_tri _ _ _ _ _ R2 QE). lra.
Qed.
Lemma lcos_sym M a b : fp_lcos M a b = fp_lcos M b a.
Proof. unfold fp_lcos. rewrite (ldot_sym M a b), (Rmult_comm (fp_lnorm M a)). reflexivity. Qed.
