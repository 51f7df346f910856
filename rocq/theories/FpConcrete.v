(** Machine operations on concrete doubles, decided on integers. *)
From Flocq Require Import Core.
From Verif Require Import RBase Trig Fp.
Open Scope R_scope.

(** the double m 2^e *)
Definition D (m e : Z) : R := IZR m * bpow radix2 e.
Lemma pow2 k : (0 <= k)%Z -> IZR (2 ^ k) = bpow radix2 k. Proof. exact (IZR_Zpower radix2 k). Qed.
Lemma D_dbl m e : (Z.abs m < 2 ^ 53)%Z -> (-1074 <= e)%Z -> dbl (D m e). Proof. apply dbl_form. Qed.
Lemma D_shift m e k : (0 <= k)%Z -> D m (e + k) = D (m * 2 ^ k) e.
Proof. intros H. unfold D. rewrite mult_IZR, (pow2 k H), bpow_plus. ring. Qed.
Lemma D_align m e k : (k <= e)%Z -> D m e = D (m * 2 ^ (e - k)) k.
Proof. intros H. replace e with (k + (e - k))%Z at 1 by ring. apply D_shift. lia. Qed.
Lemma D_pos m e : (0 < m)%Z -> 0 < D m e.
Proof. intros H. apply Rmult_lt_0_compat; [now apply IZR_lt|apply bpow_gt_0]. Qed.
Lemma D_lt m n e : (m < n)%Z -> D m e < D n e. Proof. intros H. apply Rmult_lt_compat_r; [apply bpow_gt_0|now apply IZR_lt]. Qed.
Lemma D_le m n e : (m <= n)%Z -> D m e <= D n e. Proof. intros H. apply Rmult_le_compat_r; [apply bpow_ge_0|now apply IZR_le]. Qed.
Lemma D_add m n e : D m e + D n e = D (m + n) e. Proof. unfold D. rewrite plus_IZR. ring. Qed.
Lemma D_opp m e : - D m e = D (- m) e. Proof. unfold D. rewrite opp_IZR. ring. Qed.

(** rounding an integer number of units below the last place *)
Lemma rnd_D m e n k : (0 <= k)%Z -> (-1074 <= e + k)%Z -> (2 ^ 52 < n < 2 ^ 53)%Z -> (2 * Z.abs (m - n * 2 ^ k) < 2 ^ k)%Z -> rnd (D m e) = D n (e + k).
Proof.
  intros Hk He Hn H. unfold D at 2. apply rnd_at; [exact He|exact Hn|]. unfold D. rewrite Rmult_assoc, <- bpow_plus. replace (e + - (e + k))%Z with (- k)%Z by ring.
  rewrite bpow_opp, <- (pow2 k Hk). set (p := (2 ^ k)%Z) in *. assert (P : (0 < p)%Z) by (apply Z.pow_pos_nonneg; lia). assert (PR := IZR_lt _ _ P).
  apply (Rmult_lt_reg_r (IZR p)); [exact PR|]. replace (Rabs (IZR m * / IZR p - IZR n) * IZR p) with (Rabs (IZR (m - n * p))).
  - rewrite <- abs_IZR. apply (Rmult_lt_reg_l 2); [lra|]. rewrite <- mult_IZR. replace (2 * (/ 2 * IZR p)) with (IZR p) by field. now apply IZR_lt.
  - rewrite <- (Rabs_pos_eq (IZR p)) at 2 by lra. rewrite <- Rabs_mult. f_equal. rewrite minus_IZR, mult_IZR. field. lra.
Qed.
Lemma D_mul m a n b : D m a * D n b = D (m * n) (a + b). Proof. unfold D. rewrite mult_IZR, bpow_plus. ring. Qed.
(** a rounded quotient *)
Lemma rnd_quot m a n b q e : (0 < n)%Z -> (-1074 <= e)%Z -> (e <= a - b)%Z -> (2 ^ 52 < q < 2 ^ 53)%Z ->
  (2 * Z.abs (m * 2 ^ (a - b - e) - q * n) < n)%Z -> rnd (D m a / D n b) = D q e.
Proof.
  intros Hn He Hk Hq H. unfold D at 3. apply rnd_at; [exact He|exact Hq|]. assert (NR := IZR_lt _ _ Hn).
  assert (E : D m a / D n b * bpow radix2 (- e) = IZR (m * 2 ^ (a - b - e)) / IZR n).
  { unfold D. rewrite mult_IZR, pow2 by lia. unfold Z.sub. rewrite !bpow_plus, !bpow_opp. field. repeat split; try lra; apply Rgt_not_eq, bpow_gt_0. }
  rewrite E. apply (Rmult_lt_reg_r (IZR n)); [exact NR|]. set (x := (m * 2 ^ (a - b - e))%Z) in *.
  replace (Rabs (IZR x / IZR n - IZR q) * IZR n) with (Rabs (IZR (x - q * n))).
  - rewrite <- abs_IZR. apply (Rmult_lt_reg_l 2); [lra|]. rewrite <- mult_IZR. replace (2 * (/ 2 * IZR n)) with (IZR n) by field. now apply IZR_lt.
  - rewrite <- (Rabs_pos_eq (IZR n)) at 2 by lra. rewrite <- Rabs_mult. f_equal. rewrite minus_IZR, mult_IZR. field. lra.
Qed.
Lemma ceil_D m e z : (e <= 0)%Z -> ((z - 1) * 2 ^ (- e) < m <= z * 2 ^ (- e))%Z -> Rceil (D m e) = z.
Proof.
  intros He [H1 H2]. assert (Z0 : forall t, IZR t = D (t * 2 ^ (- e)) e). { intros t. replace (IZR t) with (D t 0) by (unfold D; cbn; ring). rewrite (D_align t 0 e He). repeat f_equal. }
  apply Z.le_antisymm; [apply Rceil_le; rewrite Z0; now apply D_le|]. enough (z - 1 < Rceil (D m e))%Z by lia. apply Rceil_gt. rewrite Z0. now apply D_lt.
Qed.
