(** C97: comparisons with tolerance in double arithmetic. *)
From Coq Require Import Reals Lra Lia.
From Flocq Require Import Core.
From Verif Require Import RBase Trig TrigProps StructDiff Fp FpGrid FpConcrete FpGridProofs FpSumProofs FpTol.
Open Scope R_scope.

Notation e := (/ 67108864).
Lemma e_dbl : dbl e. Proof. exact dbl_eps. Qed.
Lemma u_pos : 0 < u <= / 1000000. Proof. unfold u. lra. Qed.
(** the tolerance is exactly 2^-26 although it is computed in doubles *)
Theorem C97_tolerance : FP_SQRT_EPS = e.
Proof. exact sqrt_eps_exact. Qed.
(** what the comparisons promise, up to a unit in the last place *)
Theorem C97_eps_eq : forall x y, dbl x -> dbl y ->
  fp_eps_eq x y FP_SQRT_EPS = fp_eps_eq y x FP_SQRT_EPS /\
  (Rabs (x - y) <= e -> fp_eps_eq x y FP_SQRT_EPS = true) /\
  (fp_eps_eq x y FP_SQRT_EPS = true -> Rabs (x - y) <= e + bpow radix2 (-78)).
Proof.
  intros x y Dx Dy. rewrite sqrt_eps_exact. change SQRT_DOUBLE_EPS with e. split; [|split].
  - unfold fp_eps_eq. replace (y - x) with (- (x - y)) by ring. now rewrite rnd_opp, Rabs_Ropp.
  - intros H. unfold fp_eps_eq. apply Rleb_true. apply Rabs_le_inv in H. apply Rabs_le. split; [apply rnd_ge_dbl; [lra|apply dbl_opp, e_dbl]|apply rnd_le_dbl; [lra|apply e_dbl]].
  - intros H. unfold fp_eps_eq in H. apply Rleb_true in H. assert (A := add_err x (- y) Dx (dbl_opp y Dy)). fold (x - y) in A. set (z := x - y) in *.
    assert (T : Rabs z <= Rabs (rnd z) + Rabs (rnd z - z)). { replace z with (rnd z + - (rnd z - z)) at 1 by ring. eapply Rle_trans; [apply Rabs_triang|]. rewrite Rabs_Ropp. lra. }
    assert (U := u_pos). replace (bpow radix2 (-78)) with (2 * u * e) by (unfold u; cbn; lra). nra.
Qed.
Theorem C97_eps_gt : forall x y, dbl x -> dbl y ->
  (fp_eps_gt x y FP_SQRT_EPS = true -> y + e < x) /\
  (y + e + u * Rabs (y + e) < x -> fp_eps_gt x y FP_SQRT_EPS = true) /\
  (forall x' y', fp_eps_gt x y FP_SQRT_EPS = true -> x <= x' -> y' <= y -> fp_eps_gt x' y' FP_SQRT_EPS = true).
Proof.
  intros x y Dx Dy. rewrite sqrt_eps_exact. change SQRT_DOUBLE_EPS with e. unfold fp_eps_gt. split; [|split].
  - intros H. apply Rltb_true in H. destruct (Rlt_le_dec (y + e) x) as [K|K]; [exact K|]. pose proof (rnd_ge_dbl x (y + e) K Dx). lra.
  - intros H. apply Rltb_true. pose proof (add_err y e Dy e_dbl) as A. apply Rabs_le_inv in A. lra.
  - intros x' y' H Hx Hy. apply Rltb_true in H. apply Rltb_true. assert (rnd (y' + e) <= rnd (y + e)) by (apply rnd_le; lra). lra.
Qed.
Theorem C97_eps_lt : forall x y, dbl x -> dbl y ->
  (fp_eps_lt x y FP_SQRT_EPS = true -> x < y - e) /\
  (x < y - e - u * Rabs (y - e) -> fp_eps_lt x y FP_SQRT_EPS = true) /\
  (fp_eps_lt x y FP_SQRT_EPS = true -> fp_eps_gt x y FP_SQRT_EPS = false).
Proof.
  intros x y Dx Dy. rewrite sqrt_eps_exact. change SQRT_DOUBLE_EPS with e. unfold fp_eps_lt. split; [|split].
  - intros H. apply Rltb_true in H. destruct (Rlt_le_dec x (y - e)) as [K|K]; [exact K|]. pose proof (rnd_le_dbl (y - e) x K Dx). lra.
  - intros H. apply Rltb_true. pose proof (add_err y (- e) Dy (dbl_opp _ e_dbl)) as A. fold (y - e) in A. apply Rabs_le_inv in A. lra.
  - intros H. unfold fp_eps_gt. apply Rltb_true in H. apply Rltb_false. assert (rnd (y - e) <= y) by (apply rnd_le_dbl; [lra|exact Dy]). assert (y <= rnd (y + e)) by (apply rnd_ge_dbl; [lra|exact Dy]). lra.
Qed.
(** two doubles need not be equal, greater or less: 2^27 and the next double *)
Theorem C97_trichotomy_refuted : ~ (forall x y, dbl x -> dbl y -> fp_eps_eq x y FP_SQRT_EPS = true \/ fp_eps_gt x y FP_SQRT_EPS = true \/ fp_eps_lt x y FP_SQRT_EPS = true).
Proof.
  intros H. set (x := bpow radix2 27). set (y := IZR (2 ^ 52 + 1) * bpow radix2 (-25)).
  assert (Dx : dbl x) by (apply dbl_bpow; lia). assert (Dy : dbl y) by (apply dbl_form; lia). assert (E : y = x + 2 * e) by (unfold x, y; cbn; lra).
  rewrite sqrt_eps_exact in H. change SQRT_DOUBLE_EPS with e in H. destruct (H x y Dx Dy) as [K|[K|K]].
  - unfold fp_eps_eq in K. apply Rleb_true in K. rewrite E in K. replace (x - (x + 2 * e)) with (- (2 * e)) by ring. replace (x - (x + 2 * e)) with (- (2 * e)) in K by ring.
    rewrite rnd_opp, Rabs_Ropp, (rnd_id (2 * e)) in K by (replace (2 * e) with (bpow radix2 (-25)) by (cbn; lra); apply dbl_bpow; lia). rewrite Rabs_pos_eq in K by lra. lra.
  - unfold fp_eps_gt in K. apply Rltb_true in K. assert (y <= rnd (y + e)) by (apply rnd_ge_dbl; [lra|exact Dy]). lra.
  - unfold fp_eps_lt in K. apply Rltb_true in K. replace (y - e) with (x + e) in K by lra.
    assert (R : rnd (x + e) = x).
    { unfold rnd, round, scaled_mantissa, F2R. assert (C : cexp radix2 fexp (x + e) = (-25)%Z).
      { unfold cexp. replace (mag radix2 (x + e) : Z) with 28%Z; [reflexivity|]. symmetry. apply mag_unique. rewrite Rabs_pos_eq by (unfold x; cbn; lra). unfold x. cbn. lra. }
      rewrite C. cbn [Fnum Fexp]. replace ((x + e) * bpow radix2 (- -25)) with (IZR (2 ^ 52) + / 2) by (unfold x; cbn; lra).
      assert (Z : ZnearestE (IZR (2 ^ 52) + / 2) = (2 ^ 52)%Z).
      { unfold ZnearestE, Znearest. assert (F : Zfloor (IZR (2 ^ 52) + / 2) = (2 ^ 52)%Z) by (apply Zfloor_imp; rewrite plus_IZR; lra). rewrite F. replace (IZR (2 ^ 52) + / 2 - IZR (2 ^ 52)) with (/ 2) by ring. rewrite Rcompare_Eq by reflexivity. reflexivity. }
      rewrite Z. unfold x. cbn. lra. }
    rewrite R in K. lra.
Qed.
(** the fractional coordinates of the unit cell are in [0, 1), stay there, and are those of the point up to the tolerance *)
Theorem C97_unit_cell : forall x, dbl x -> 0 <= fp_ucv x < 1 /\ fp_ucv (fp_ucv x) = fp_ucv x /\ exists n : Z, Rabs (fp_ucv x - (x - IZR n)) <= / 67108863.
Proof.
  intros x Dx. set (z := x - IZR (Rfloor x)). assert (Z : 0 <= z < 1) by (unfold z; pose proof (Rfloor_spec x); lra). assert (D1 : dbl 1) by (apply (dbl_Z 1); lia).
  set (r := rnd z). assert (R0 : 0 <= r <= 1) by (unfold r; split; [apply rnd_nonneg; lra|apply rnd_le_dbl; [lra|exact D1]]). assert (Dr : dbl r) by apply rnd_dbl.
  assert (E : Rabs (r - z) <= u + u). { unfold r. eapply Rle_trans; [apply rnd_err|]. rewrite (Rabs_pos_eq z) by lra. assert (bpow radix2 (-1074) <= u) by (replace u with (bpow radix2 (-53)) by (unfold u; cbn; lra); apply bpow_le; lia). pose proof u_pos. nra. }
  assert (U := u_pos). assert (U2 : u <= / 9007199254740992) by (unfold u; lra). apply Rabs_le_inv in E.
  destruct (C97_eps_eq r 1 Dr D1) as (_ & EQ1 & EQ2). unfold fp_ucv. cbv zeta. fold z r. destruct (fp_eps_eq r 1 FP_SQRT_EPS) eqn:B.
  - split; [lra|]. split.
    + replace (Rfloor 0) with 0%Z by (symmetry; apply Z.le_antisymm; [enough (Rfloor 0 < 1)%Z by lia; apply lt_IZR; pose proof (Rfloor_spec 0); lra|enough (-1 < Rfloor 0)%Z by lia; apply lt_IZR; pose proof (Rfloor_spec 0); lra]).
      rewrite Rminus_0_r, rnd_0. now destruct (fp_eps_eq 0 1 FP_SQRT_EPS).
    + exists (Rfloor x + 1)%Z. specialize (EQ2 eq_refl). replace (bpow radix2 (-78)) with (2 * u * e) in EQ2 by (unfold u; cbn; lra). rewrite plus_IZR. replace (0 - (x - (IZR (Rfloor x) + 1))) with (1 - z) by (unfold z; ring). apply Rabs_le_inv in EQ2. apply Rabs_le. lra.
  - assert (R1 : r < 1). { destruct (Rlt_le_dec r 1) as [K|K]; [exact K|]. assert (X : r = 1) by lra. enough (false = true) by discriminate. apply EQ1. rewrite X, Rminus_diag_eq by reflexivity. rewrite Rabs_R0. lra. }
    split; [lra|]. split.
    + assert (F : Rfloor r = 0%Z) by (apply Z.le_antisymm; [enough (Rfloor r < 1)%Z by lia; apply lt_IZR; pose proof (Rfloor_spec r); lra|enough (-1 < Rfloor r)%Z by lia; apply lt_IZR; pose proof (Rfloor_spec r); lra]).
      rewrite F, Rminus_0_r, (rnd_id r Dr), B. reflexivity.
    + exists (Rfloor x). fold z. apply Rabs_le. lra.
Qed.
(** the test for a fast update gives the exact answer for all structures up to 2^24 sites *)
Theorem C97_fast_update_test : forall n0 p : nat, (Z.of_nat n0 <= 16777216)%Z -> fp_allowsfast n0 p = allowsfast n0 p.
Proof.
  intros n0 p HN. destruct n0 as [|n1].
  { unfold fp_allowsfast. cbn [INR]. rewrite Rmult_0_r, rnd_0. replace (Rltb (INR p) 0) with false by (symmetry; apply Rltb_false; apply pos_INR). unfold allowsfast. destruct p; reflexivity. }
  set (n0 := S n1) in *. set (N := INR n0). assert (N1 : 1 <= N) by (unfold N, n0; rewrite S_INR; pose proof (pos_INR n1); lra).
  assert (N2 : N <= 16777216) by (unfold N; rewrite INR_IZR_INZ; apply IZR_le; exact HN).
  set (h := sqrt (/ 2)). assert (HH : h * h = / 2) by (apply sqrt_sqrt; lra). assert (H0 : 0 <= h) by apply sqrt_pos. assert (HB : 7 / 10 < h < 71 / 100) by nra.
  assert (U := u_pos). assert (big : forall t, / 8 <= t -> bpow radix2 (-1022) <= Rabs t). { intros t Ht. rewrite Rabs_pos_eq by lra. apply Rle_trans with (bpow radix2 (-3)); [apply bpow_le; lia|cbn; lra]. }
  assert (A1 : Rabs (rnd h - h) <= u * h). { assert (T : / 8 <= h) by lra. pose proof (rnd_rel h (big h T)) as R. rewrite (Rabs_pos_eq h) in R by lra. exact R. }
  set (s := rnd h) in *. apply Rabs_le_inv in A1. assert (SB : 69 / 100 < s < 72 / 100) by nra.
  assert (A2 : Rabs (rnd (1 - s) - (1 - s)) <= u * (1 - s)). { assert (T : / 8 <= 1 - s) by lra. pose proof (rnd_rel (1 - s) (big _ T)) as R. rewrite (Rabs_pos_eq (1 - s)) in R by lra. exact R. }
  set (c := rnd (1 - s)) in *. apply Rabs_le_inv in A2. assert (CB : 27 / 100 < c < 32 / 100) by nra.
  assert (A3 : Rabs (rnd (c * N) - c * N) <= u * (c * N)). { assert (T : / 8 <= c * N) by nra. pose proof (rnd_rel (c * N) (big _ T)) as R. rewrite (Rabs_pos_eq (c * N)) in R by lra. exact R. }
  apply Rabs_le_inv in A3. unfold fp_allowsfast. fold h s c N. set (B := rnd (c * N)) in *.
  assert (AC : - (2 * u) * N <= B - (1 - h) * N <= 2 * u * N).
  { assert (X : - (16 / 10 * u) <= c - (1 - h) <= 16 / 10 * u) by nra. assert (Y : u * (c * N) <= u * (32 / 100 * N)) by (apply Rmult_le_compat_l; [lra|apply Rmult_le_compat_r; lra]).
    assert (X1 : (c - (1 - h)) * N <= 16 / 10 * u * N) by (apply Rmult_le_compat_r; lra). assert (X2 : - (16 / 10 * u) * N <= (c - (1 - h)) * N) by (apply Rmult_le_compat_r; lra). nra. }
  assert (UN : 8 * u * (N * N) < 1). { apply Rle_lt_trans with (8 * u * (16777216 * 16777216)); [apply Rmult_le_compat_l; [lra|apply Rmult_le_compat; lra]|unfold u; lra]. }
  unfold allowsfast. destruct (Nat.leb_spec p n0) as [HP|HP]; cbn [andb].
  - set (q := (n0 - p)%nat). assert (EQ : INR p = N - INR q) by (unfold q, N; rewrite minus_INR by exact HP; ring). assert (Q0 := pos_INR q). assert (QN : INR q <= N) by (unfold N, q; apply le_INR; lia). rewrite EQ. clearbody q.
    destruct (Nat.ltb_spec (n0 * n0) (2 * (q * q))) as [K|K].
    + apply Rltb_true. assert (K' : N * N + 1 <= 2 * (INR q * INR q)). { apply le_INR in K. rewrite S_INR, !mult_INR in K. fold N in K. cbn [INR] in K. lra. }
      assert (F : 2 * (INR q - h * N) * (INR q + h * N) = 2 * (INR q * INR q) - N * N) by (replace (N * N) with (2 * (h * h) * (N * N)) by (rewrite HH; field); ring).
      assert (P0 : 0 < INR q + h * N) by nra. assert (P1 : INR q + h * N <= 2 * N) by nra. assert (G : 0 < INR q - h * N) by nra.
      assert (G2 : 1 <= 4 * N * (INR q - h * N)) by nra. assert (G3 : 2 * u * N < INR q - h * N) by nra. lra.
    + apply Rltb_false. assert (K' : 2 * (INR q * INR q) + 1 <= N * N).
      { assert (NE : (2 * (q * q) <> n0 * n0)%nat). { clear -n0 n1. intros X. assert (NS : forall m k : nat, (2 * (m * m) = k * k)%nat -> k = O).
          { induction m as [m IH] using (well_founded_induction lt_wf). intros k Y. destruct k as [|k']; [reflexivity|exfalso]. set (k := S k') in *. assert (EV : Nat.Even k). { assert (Nat.Even (k * k)) by (exists (m * m)%nat; lia). destruct (Nat.Even_or_Odd k) as [?|[w W]]; [assumption|]. destruct H as [v V]. lia. }
            destruct EV as [j J]. assert (Y2 : (2 * (j * j) = m * m)%nat) by nia. assert (J0 : (j < k)%nat) by lia. assert (M0 : (m < k)%nat) by nia. assert (JM : (j < m)%nat) by nia. pose proof (IH j JM m Y2) as Z. lia. }
          specialize (NS q n0 X). discriminate. }
        assert (K2 : (2 * (q * q) < n0 * n0)%nat) by lia. apply le_INR in K2. rewrite S_INR, !mult_INR in K2. fold N in K2. cbn [INR] in K2. lra. }
      assert (F : 2 * (h * N - INR q) * (INR q + h * N) = N * N - 2 * (INR q * INR q)) by (replace (N * N) with (2 * (h * h) * (N * N)) by (rewrite HH; field); ring).
      assert (P0 : 0 < INR q + h * N) by nra. assert (P1 : INR q + h * N <= 2 * N) by nra. assert (G : 0 < h * N - INR q) by nra.
      assert (G2 : 1 <= 4 * N * (h * N - INR q)) by nra. assert (G3 : 2 * u * N < h * N - INR q) by nra. lra.
  - apply Rltb_false. assert (N <= INR p) by (unfold N; apply le_INR; lia). nra.
Qed.
(** sind loses small angles: it is accurate in the absolute sense only *)
Lemma sin_small t : Rabs (sin t) <= Rabs t.
Proof.
  assert (P : forall x, 0 <= x -> Rabs (sin x) <= x).
  { intros x Hx. destruct (Rlt_le_dec x 1) as [K|K].
    - assert (S : 0 <= sin x) by (apply sin_ge_0; pose proof PI_RGT_0; pose proof PI2_1; lra). rewrite Rabs_pos_eq by exact S. destruct (Req_dec x 0) as [->|N]; [rewrite sin_0; lra|left; apply sin_lt_x; lra].
    - pose proof (SIN_bound x). apply Rabs_le. lra. }
  destruct (Rle_lt_dec 0 t) as [K|K]; [rewrite (Rabs_pos_eq t) by exact K; now apply P|]. rewrite (Rabs_left t K), <- (Rabs_Ropp (sin t)), <- sin_neg. apply P. lra.
Qed.
Lemma cos_lip a b : Rabs (cos a - cos b) <= Rabs (a - b).
Proof.
  rewrite form2. rewrite !Rabs_mult. replace (Rabs (-2)) with 2 by (rewrite Rabs_left by lra; ring). assert (A := sin_small ((a - b) / 2)). assert (B : Rabs (sin ((a + b) / 2)) <= 1) by (pose proof (SIN_bound ((a + b) / 2)); apply Rabs_le; lra).
  assert (E : Rabs (a - b) = 2 * Rabs ((a - b) / 2)). { rewrite <- (Rabs_pos_eq 2) at 1 by lra. rewrite <- Rabs_mult. f_equal. field. }
  rewrite E. pose proof (Rabs_pos (sin ((a - b) / 2))). pose proof (Rabs_pos (sin ((a + b) / 2))). nra.
Qed.
Theorem C97_sind : forall x, dbl x -> Rabs (fp_sind x - sin (x / 180 * PI)) <= bpow radix2 (-58) * Rabs (90 - x).
Proof.
  intros x Dx. unfold fp_sind. rewrite C49_cosd. replace (sin (x / 180 * PI)) with (cos ((90 - x) / 180 * PI)) by (rewrite <- cos_shift; f_equal; field).
  eapply Rle_trans; [apply cos_lip|]. replace (rnd (90 - x) / 180 * PI - (90 - x) / 180 * PI) with ((rnd (90 - x) - (90 - x)) * (PI / 180)) by field. rewrite Rabs_mult.
  assert (A := add_err 90 (- x) (dbl_Z 90 ltac:(lia)) (dbl_opp x Dx)). fold (90 - x) in A. assert (P : Rabs (PI / 180) <= / 32). { pose proof PI_RGT_0. pose proof PI_4. rewrite Rabs_pos_eq by lra. lra. }
  replace (bpow radix2 (-58)) with (u * / 32) by (unfold u; cbn; lra). pose proof (Rabs_pos (90 - x)). pose proof (Rabs_pos (PI / 180)). pose proof (Rabs_pos (rnd (90 - x) - (90 - x))). pose proof u_pos.
  apply Rle_trans with (u * Rabs (90 - x) * / 32); [apply Rmult_le_compat; assumption|lra].
Qed.
Theorem C97_sind_positive_refuted : ~ (forall x, dbl x -> 0 < x < 180 -> 0 < fp_sind x).
Proof.
  intros H. set (x := bpow radix2 (-49)). specialize (H x (dbl_bpow (-49) ltac:(lia))). assert (X : x = / 562949953421312) by (unfold x; cbn; lra).
  assert (E : rnd (90 - x) = 90).
  { rewrite (rnd_at (90 - x) 6333186975989760 (-46)); [cbn; lra|lia|lia|]. rewrite X. cbn. apply Rabs_def1; lra. }
  unfold fp_sind in H. rewrite E in H. rewrite C49_cosd in H. replace (90 / 180 * PI) with (PI / 2) in H by field. rewrite cos_PI2 in H. assert (0 < 0) by (apply H; rewrite X; lra). lra.
Qed.
Example C97_nonvacuous : dbl (1 / 4) /\ dbl (-1 / 4) /\ fp_ucv (-1 / 4) = 3 / 4 /\ fp_allowsfast 4 1 = true /\ fp_allowsfast 10 3 = false.
Proof.
  assert (D : dbl (1 / 4)) by (replace (1 / 4) with (bpow radix2 (-2)) by (cbn; lra); apply dbl_bpow; lia). split; [exact D|]. split; [replace (-1 / 4) with (- (1 / 4)) by field; now apply dbl_opp|]. split.
  - assert (F : Rfloor (-1 / 4) = (-1)%Z) by (pose proof (Rfloor_spec (-1 / 4)); apply Z.le_antisymm; [enough (Rfloor (-1 / 4) < 0)%Z by lia; apply lt_IZR; lra|enough (-2 < Rfloor (-1 / 4))%Z by lia; apply lt_IZR; lra]).
    unfold fp_ucv. cbv zeta. rewrite F. replace (-1 / 4 - IZR (-1)) with (IZR 3 * bpow radix2 (-2)) by (cbn; lra). rewrite rnd_id by (apply dbl_form; lia).
    destruct (fp_eps_eq (IZR 3 * bpow radix2 (-2)) 1 FP_SQRT_EPS) eqn:E; [|cbn; lra]. apply C97_eps_eq in E; [|apply dbl_form; lia|apply (dbl_Z 1); lia]. exfalso. revert E. cbn. rewrite Rabs_left by lra. lra.
  - rewrite !C97_fast_update_test by lia. split; reflexivity.
Qed.
Print Assumptions C97_tolerance.
Print Assumptions C97_eps_eq.
Print Assumptions C97_eps_gt.
Print Assumptions C97_eps_lt.
Print Assumptions C97_trichotomy_refuted.
Print Assumptions C97_unit_cell.
Print Assumptions C97_fast_update_test.
Print Assumptions C97_sind.
Print Assumptions C97_sind_positive_refuted.
