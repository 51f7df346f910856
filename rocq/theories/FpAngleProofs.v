(** Proofs: error of the cosine of two directions in double arithmetic. *)
From Coq Require Import Reals Lra Lia.
From Flocq Require Import Core.
From Verif Require Import RBase R3 Trig Fp FpGrid FpGridProofs FpSumProofs FpPi BondCalc BondCalcSpec FpAngle FpAngleSpec.
Import ListNotations.
Open Scope R_scope.

(** a bound on the absolute error *)
Notation eta := (/ 1267650600228229401496703205376).
Lemma rnd_eta x : Rabs (rnd x - x) <= u * Rabs x + eta.
Proof.
  pose proof (rnd_err x) as H. assert (B : bpow radix2 (-1074) <= bpow radix2 (-100)) by (apply bpow_le; lia). change (bpow radix2 (-100)) with eta in B. lra.
Qed.
Lemma sq_nonneg x : 0 <= x * x. Proof. pose proof (Rle_0_sqr x) as H. exact H. Qed.

(** *** the norm *)
Lemma norm_err v : vdbl v -> bpow radix2 (-400) <= vnorm v -> dbl (fp_norm v) /\ Rabs (fp_norm v - vnorm v) <= 252 / 100 * u * vnorm v.
Proof.
  intros _ HN. split; [apply rnd_dbl|]. destruct v as [x y z]. unfold fp_norm, fp_dot, vnorm, vdot in *. cbn [vx vy vz] in *.
  set (S := x * x + y * y + z * z) in *. assert (S0 : 0 <= S) by (unfold S; pose proof (sq_nonneg x); pose proof (sq_nonneg y); pose proof (sq_nonneg z); lra).
  set (N := sqrt S) in *. assert (N0 := bpow_gt_0 radix2 (-400)). assert (NN : N * N = S) by (apply sqrt_sqrt; exact S0).
  set (h := bpow radix2 (-1074)). assert (Hh : 0 <= h <= / 1000 * u * S).
  { split; [apply bpow_ge_0|]. apply Rle_trans with (/ 1000 * u * bpow radix2 (-800)).
    - replace h with (bpow radix2 (-274) * bpow radix2 (-800)) by (unfold h; rewrite <- bpow_plus; reflexivity). apply Rmult_le_compat_r; [apply bpow_ge_0|].
      apply Rle_trans with (bpow radix2 (-100)); [apply bpow_le; lia|]. change (bpow radix2 (-100)) with eta. unfold u. lra.
    - apply Rmult_le_compat_l; [unfold u; lra|]. rewrite <- NN. replace (bpow radix2 (-800)) with (bpow radix2 (-400) * bpow radix2 (-400)) by (rewrite <- bpow_plus; reflexivity).
      apply Rmult_le_compat; lra. }
  assert (E : forall t, Rabs (rnd (t * t) - t * t) <= u * (t * t) + h). { intros t. pose proof (rnd_err (t * t)) as H. rewrite (Rabs_pos_eq (t * t)) in H by apply sq_nonneg. exact H. }
  clearbody h. pose proof (E x) as Ex. pose proof (E y) as Ey. pose proof (E z) as Ez. pose proof (sq_nonneg x) as Qx. pose proof (sq_nonneg y) as Qy. pose proof (sq_nonneg z) as Qz.
  assert (P : forall t, 0 <= rnd (t * t)) by (intros t; apply rnd_nonneg, sq_nonneg). pose proof (P x) as Px. pose proof (P y) as Py. pose proof (P z) as Pz.
  pose proof (rnd_dbl (x * x)) as Dx. pose proof (rnd_dbl (y * y)) as Dy. pose proof (rnd_dbl (z * z)) as Dz.
  set (p1 := rnd (x * x)) in *. set (p2 := rnd (y * y)) in *. set (p3 := rnd (z * z)) in *.
  pose proof (add_err p1 p2 Dx Dy) as A1. pose proof (rnd_dbl (p1 + p2)) as D12. assert (P12 : 0 <= rnd (p1 + p2)) by (apply rnd_nonneg; lra). set (q := rnd (p1 + p2)) in *.
  pose proof (add_err q p3 D12 Dz) as A2. assert (Ps : 0 <= rnd (q + p3)) by (apply rnd_nonneg; lra). set (s := rnd (q + p3)) in *.
  rewrite Rabs_pos_eq with (x := p1 + p2) in A1 by lra. rewrite Rabs_pos_eq with (x := q + p3) in A2 by lra.
  apply Rabs_le_inv in Ex, Ey, Ez, A1, A2. assert (ES : S = x * x + y * y + z * z) by reflexivity. clearbody S p1 p2 p3 q s.
  assert (SS : (1 - 301 / 100 * u) * S <= s <= (1 + 301 / 100 * u) * S).
  { set (a := x * x) in *. set (b := y * y) in *. set (c := z * z) in *. clearbody a b c. clear NN HN. unfold u in *. lra. }
  rewrite <- NN in SS. assert (NP : 0 < N) by lra.
  assert (RS : (1 - 151 / 100 * u) * N <= sqrt s <= (1 + 151 / 100 * u) * N).
  { assert (U0 : 0 <= 1 - 151 / 100 * u) by (unfold u; lra). assert (U1 : 0 <= 1 + 151 / 100 * u) by (unfold u; lra). pose proof (sq_nonneg N) as QN. split.
    - rewrite <- (sqrt_square ((1 - 151 / 100 * u) * N)) by (apply Rmult_le_pos; lra). apply sqrt_le_1; [apply sq_nonneg|exact Ps|].
      replace ((1 - 151 / 100 * u) * N * ((1 - 151 / 100 * u) * N)) with ((1 - 151 / 100 * u) * (1 - 151 / 100 * u) * (N * N)) by ring.
      eapply Rle_trans; [|apply SS]. apply Rmult_le_compat_r; [exact QN|unfold u; lra].
    - rewrite <- (sqrt_square ((1 + 151 / 100 * u) * N)) by (apply Rmult_le_pos; lra). apply sqrt_le_1; [exact Ps|apply sq_nonneg|].
      replace ((1 + 151 / 100 * u) * N * ((1 + 151 / 100 * u) * N)) with ((1 + 151 / 100 * u) * (1 + 151 / 100 * u) * (N * N)) by ring.
      eapply Rle_trans; [apply SS|]. apply Rmult_le_compat_r; [exact QN|unfold u; lra]. }
  assert (RR : Rabs (rnd (sqrt s) - sqrt s) <= u * Rabs (sqrt s)).
  { apply rnd_rel. rewrite Rabs_pos_eq by apply sqrt_pos. apply Rle_trans with (/ 2 * bpow radix2 (-400)).
    - change (/ 2) with (bpow radix2 (-1)). rewrite <- bpow_plus. apply bpow_le. lia.
    - assert (/ 2 * N <= (1 - 151 / 100 * u) * N) by (apply Rmult_le_compat_r; [lra|unfold u; lra]). lra. }
  rewrite Rabs_pos_eq with (x := sqrt s) in RR by apply sqrt_pos. apply Rabs_le_inv in RR. set (w := rnd (sqrt s)) in *. set (r := sqrt s) in *. clearbody w r N. clear - RS RR NP.
  apply Rabs_le. unfold u in *. lra.
Qed.

(** *** one component of a unit vector *)
Lemma comp_err x N d : 0 < N -> Rabs (d - N) <= 252 / 100 * u * N -> Rabs (rnd (x / d) - x / N) <= 354 / 100 * u * Rabs (x / N) + eta.
Proof.
  intros HN Hd. apply Rabs_le_inv in Hd. assert (D0 : (1 - 252 / 100 * u) * N <= d) by lra. assert (DP : 0 < d). { assert (0 < (1 - 252 / 100 * u) * N) by (apply Rmult_lt_0_compat; [unfold u; lra|exact HN]). lra. }
  set (q := N / d). assert (Q : Rabs (q - 1) <= 2521 / 1000 * u).
  { assert (E : (q - 1) * d = N - d) by (unfold q; field; lra). apply (Rmult_le_reg_r d); [exact DP|]. rewrite <- (Rabs_pos_eq d) at 1 by lra. rewrite <- Rabs_mult, E.
    apply Rle_trans with (252 / 100 * u * N); [apply Rabs_le; lra|]. apply Rle_trans with (2521 / 1000 * u * ((1 - 252 / 100 * u) * N)); [|apply Rmult_le_compat_l; [unfold u; lra|exact D0]].
    rewrite <- Rmult_assoc. apply Rmult_le_compat_r; [lra|unfold u; lra]. }
  set (a := x / N). assert (E : x / d = a * q) by (unfold a, q; field; lra). assert (A1 : Rabs (x / d - a) <= 2521 / 1000 * u * Rabs a).
  { rewrite E. replace (a * q - a) with (a * (q - 1)) by ring. rewrite Rabs_mult, Rmult_comm. apply Rmult_le_compat_r; [apply Rabs_pos|exact Q]. }
  pose proof (rnd_eta (x / d)) as R. set (y := x / d) in *. set (r := rnd y) in *. clearbody a y r. clear E Q q.
  assert (Y : Rabs y <= Rabs a + Rabs (y - a)) by (replace y with (a + (y - a)) at 1 by ring; apply Rabs_triang).
  replace (r - a) with ((r - y) + (y - a)) by ring. eapply Rle_trans; [apply Rabs_triang|]. unfold u in *. pose proof (Rabs_pos a). lra.
Qed.
(** *** one product *)
Lemma prod_err c a e b : Rabs a <= 1 -> Rabs b <= 1 -> Rabs (c - a) <= 354 / 100 * u * Rabs a + eta -> Rabs (e - b) <= 354 / 100 * u * Rabs b + eta ->
  Rabs (rnd (c * e) - a * b) <= 82 / 10 * u * (Rabs a * Rabs b) + 5 * eta.
Proof.
  intros Ha Hb Hc He. pose proof (rnd_eta (c * e)) as R. set (r := rnd (c * e)) in *. clearbody r. pose proof (Rabs_pos a) as A0. pose proof (Rabs_pos b) as B0.
  assert (E1 : Rabs e <= Rabs b + Rabs (e - b)) by (replace e with (b + (e - b)) at 1 by ring; apply Rabs_triang).
  assert (M : Rabs (c * e - a * b) <= Rabs (c - a) * Rabs e + Rabs a * Rabs (e - b)).
  { replace (c * e - a * b) with ((c - a) * e + a * (e - b)) by ring. eapply Rle_trans; [apply Rabs_triang|]. rewrite !Rabs_mult. lra. }
  assert (CE : Rabs (c * e) <= Rabs a * Rabs b + Rabs (c * e - a * b)) by (rewrite <- Rabs_mult; replace (c * e) with (a * b + (c * e - a * b)) at 1 by ring; apply Rabs_triang).
  assert (T : Rabs (r - a * b) <= Rabs (r - c * e) + Rabs (c * e - a * b)) by (replace (r - a * b) with ((r - c * e) + (c * e - a * b)) by ring; apply Rabs_triang).
  set (pa := Rabs a) in *. set (pb := Rabs b) in *. set (de := Rabs (e - b)) in *. set (dc := Rabs (c - a)) in *. pose proof (Rabs_pos (e - b)) as P1. fold de in P1. pose proof (Rabs_pos (c - a)) as P2. fold dc in P2.
  set (pe := Rabs e) in *. set (ce := Rabs (c * e)) in *. set (m := Rabs (c * e - a * b)) in *. set (x := Rabs (r - c * e)) in *. set (y := Rabs (r - a * b)) in *. clearbody pa pb de dc pe ce m x y.
  assert (PE : pe <= (1 + 354 / 100 * u) * pb + eta) by (unfold u in *; lra).
  assert (M1 : dc * pe <= (354 / 100 * u * pa + eta) * ((1 + 354 / 100 * u) * pb + eta)). { apply Rle_trans with (dc * ((1 + 354 / 100 * u) * pb + eta)); [apply Rmult_le_compat_l; lra|]. apply Rmult_le_compat_r; [unfold u in *; lra|exact Hc]. }
  assert (M2 : pa * de <= pa * (354 / 100 * u * pb + eta)) by (apply Rmult_le_compat_l; lra).
  assert (X1 : (354 / 100 * u * pa + eta) * ((1 + 354 / 100 * u) * pb + eta) = 354 / 100 * u * (1 + 354 / 100 * u) * (pa * pb) + eta * (354 / 100 * u) * pa + eta * (1 + 354 / 100 * u) * pb + eta * eta) by ring.
  assert (X2 : pa * (354 / 100 * u * pb + eta) = 354 / 100 * u * (pa * pb) + eta * pa) by ring. assert (W0 : 0 <= pa * pb) by (apply Rmult_le_pos; lra).
  rewrite X1 in M1. rewrite X2 in M2. set (w := pa * pb) in *. clearbody w. unfold u in *. lra.
Qed.
(** *** the dot product of two unit vectors *)
Lemma dot_err c a e b : Rabs (vx a) <= 1 -> Rabs (vy a) <= 1 -> Rabs (vz a) <= 1 -> Rabs (vx b) <= 1 -> Rabs (vy b) <= 1 -> Rabs (vz b) <= 1 ->
  Rabs (vx a) * Rabs (vx b) + Rabs (vy a) * Rabs (vy b) + Rabs (vz a) * Rabs (vz b) <= 1 ->
  Rabs (vx c - vx a) <= 354 / 100 * u * Rabs (vx a) + eta -> Rabs (vy c - vy a) <= 354 / 100 * u * Rabs (vy a) + eta -> Rabs (vz c - vz a) <= 354 / 100 * u * Rabs (vz a) + eta ->
  Rabs (vx e - vx b) <= 354 / 100 * u * Rabs (vx b) + eta -> Rabs (vy e - vy b) <= 354 / 100 * u * Rabs (vy b) + eta -> Rabs (vz e - vz b) <= 354 / 100 * u * Rabs (vz b) + eta ->
  Rabs (fp_dot c e - vdot a b) <= 11 * u.
Proof.
  intros A1 A2 A3 B1 B2 B3 W C1 C2 C3 E1 E2 E3. pose proof (prod_err _ _ _ _ A1 B1 C1 E1) as P1. pose proof (prod_err _ _ _ _ A2 B2 C2 E2) as P2. pose proof (prod_err _ _ _ _ A3 B3 C3 E3) as P3.
  clear A1 A2 A3 B1 B2 B3 C1 C2 C3 E1 E2 E3. unfold fp_dot, vdot.
  pose proof (rnd_dbl (vx c * vx e)) as D1. pose proof (rnd_dbl (vy c * vy e)) as D2. pose proof (rnd_dbl (vz c * vz e)) as D3.
  set (t1 := rnd (vx c * vx e)) in *. set (t2 := rnd (vy c * vy e)) in *. set (t3 := rnd (vz c * vz e)) in *.
  pose proof (add_err t1 t2 D1 D2) as S1. pose proof (rnd_dbl (t1 + t2)) as D12. set (q := rnd (t1 + t2)) in *. pose proof (add_err q t3 D12 D3) as S2. set (r := rnd (q + t3)) in *.
  assert (W1 : Rabs (vx a * vx b) = Rabs (vx a) * Rabs (vx b)) by apply Rabs_mult. assert (W2 : Rabs (vy a * vy b) = Rabs (vy a) * Rabs (vy b)) by apply Rabs_mult. assert (W3 : Rabs (vz a * vz b) = Rabs (vz a) * Rabs (vz b)) by apply Rabs_mult.
  rewrite <- W1 in P1, W. rewrite <- W2 in P2, W. rewrite <- W3 in P3, W. clear W1 W2 W3 D1 D2 D3 D12. set (y1 := vx a * vx b) in *. set (y2 := vy a * vy b) in *. set (y3 := vz a * vz b) in *.
  clearbody t1 t2 t3 q r y1 y2 y3. set (w1 := Rabs y1) in *. set (w2 := Rabs y2) in *. set (w3 := Rabs y3) in *.
  assert (Y1 : - w1 <= y1 <= w1) by (apply Rabs_le_inv; unfold w1; lra). assert (Y2 : - w2 <= y2 <= w2) by (apply Rabs_le_inv; unfold w2; lra). assert (Y3 : - w3 <= y3 <= w3) by (apply Rabs_le_inv; unfold w3; lra).
  assert (G1 : 0 <= w1) by lra. assert (G2 : 0 <= w2) by lra. assert (G3 : 0 <= w3) by lra. clearbody w1 w2 w3. apply Rabs_le_inv in P1, P2, P3.
  assert (Q : Rabs (t1 + t2) <= 11 / 10 * (w1 + w2) + 10 * eta) by (apply Rabs_le; unfold u in *; lra).
  apply Rabs_le_inv in S1. assert (Q2 : Rabs (q + t3) <= 12 / 10) by (apply Rabs_le; unfold u in *; lra).
  apply Rabs_le_inv in S2. apply Rabs_le. unfold u in *. lra.
Qed.

Lemma unit_parts v : 0 < vnorm v -> vx v / vnorm v * (vx v / vnorm v) + vy v / vnorm v * (vy v / vnorm v) + vz v / vnorm v * (vz v / vnorm v) = 1.
Proof.
  intros H. assert (E : vnorm v * vnorm v = vx v * vx v + vy v * vy v + vz v * vz v).
  { unfold vnorm, vdot. apply sqrt_sqrt. pose proof (sq_nonneg (vx v)). pose proof (sq_nonneg (vy v)). pose proof (sq_nonneg (vz v)). lra. }
  set (N := vnorm v) in *. clearbody N. replace (vx v / N * (vx v / N) + vy v / N * (vy v / N) + vz v / N * (vz v / N)) with ((vx v * vx v + vy v * vy v + vz v * vz v) / (N * N)) by (field; lra).
  rewrite <- E. field. lra.
Qed.
Lemma abs_part a b c : a * a + b * b + c * c = 1 -> Rabs a <= 1.
Proof. intros H. pose proof (sq_nonneg b). pose proof (sq_nonneg c). apply Rabs_le. nra. Qed.
Lemma cos_err v ax : vdbl v -> vdbl ax -> bpow radix2 (-400) <= vnorm v -> bpow radix2 (-400) <= vnorm ax ->
  Rabs (fp_dot (fp_over v (fp_norm v)) (fp_over ax (fp_norm ax)) - vdot v ax / (vnorm v * vnorm ax)) <= 11 * u.
Proof.
  intros Dv Da Hv Ha. destruct (norm_err v Dv Hv) as [_ Ev]. destruct (norm_err ax Da Ha) as [_ Ea]. pose proof (bpow_gt_0 radix2 (-400)) as B. assert (Nv : 0 < vnorm v) by lra. assert (Na : 0 < vnorm ax) by lra.
  pose proof (unit_parts v Nv) as Uv. pose proof (unit_parts ax Na) as Ua. set (N := vnorm v) in *. set (M := vnorm ax) in *.
  set (a := V3 (vx v / N) (vy v / N) (vz v / N)). set (b := V3 (vx ax / M) (vy ax / M) (vz ax / M)).
  replace (vdot v ax / (N * M)) with (vdot a b) by (unfold vdot, a, b; cbn [vx vy vz]; field; lra).
  change (vx a * vx a + vy a * vy a + vz a * vz a = 1) in Uv. change (vx b * vx b + vy b * vy b + vz b * vz b = 1) in Ua.
  apply dot_err; try (cbn [vx vy vz fp_over]; apply comp_err; assumption).
  - eapply abs_part; exact Uv.
  - apply abs_part with (b := vx a) (c := vz a). lra.
  - apply abs_part with (b := vx a) (c := vy a). lra.
  - eapply abs_part; exact Ua.
  - apply abs_part with (b := vx b) (c := vz b). lra.
  - apply abs_part with (b := vx b) (c := vy b). lra.
  - assert (G : forall x y, Rabs x * Rabs y <= / 2 * (x * x + y * y)).
    { intros x y. rewrite <- Rabs_mult. apply Rabs_le. pose proof (sq_nonneg (x + y)). pose proof (sq_nonneg (x - y)). lra. }
    pose proof (G (vx a) (vx b)). pose proof (G (vy a) (vy b)). pose proof (G (vz a) (vz b)). lra.
Qed.
