(** Proofs: grids and limits in double arithmetic. *)
From Coq Require Import Sorted.
From Flocq Require Import Core.
From Verif Require Import RBase Trig Fp PdfGrid FpGrid.
Import ListNotations.
Open Scope R_scope.
Notation length := List.length.

Lemma eps_pow : SQRT_DOUBLE_EPS = bpow radix2 (-26). Proof. unfold SQRT_DOUBLE_EPS. cbn. lra. Qed.
Lemma sqrt_eps_exact : FP_SQRT_EPS = SQRT_DOUBLE_EPS.
Proof.
  unfold FP_SQRT_EPS, FP_EPS. replace (bpow radix2 (-52)) with (bpow radix2 (-26) * bpow radix2 (-26)) by (rewrite <- bpow_plus; reflexivity).
  rewrite sqrt_square by apply bpow_ge_0. rewrite (rnd_id (bpow radix2 (-26))) by (apply dbl_bpow; lia).
  assert (E : bpow radix2 (-26) + 1 = IZR 67108865 * bpow radix2 (-26)) by (cbn; lra). rewrite E.
  rewrite (rnd_id (IZR 67108865 * bpow radix2 (-26))) by (apply dbl_form; lia).
  replace (IZR 67108865 * bpow radix2 (-26) - 1) with (bpow radix2 (-26)) by (cbn; lra). rewrite rnd_id by (apply dbl_bpow; lia). symmetry. exact eps_pow.
Qed.
Lemma dbl_eps : dbl SQRT_DOUBLE_EPS. Proof. rewrite eps_pow. apply dbl_bpow. lia. Qed.
Lemma eps_0 : 0 < SQRT_DOUBLE_EPS. Proof. unfold SQRT_DOUBLE_EPS. lra. Qed.

Lemma dpos_div a d n : 0 < d -> a / d < n <-> a < n * d.
Proof. intros H. split; intros K; [apply (Rmult_lt_compat_r d) in K; [|exact H]; replace (a / d * d) with a in K by (field; lra); exact K|]. apply (Rmult_lt_reg_r d); [exact H|]. replace (a / d * d) with a by (field; lra). exact K. Qed.
Lemma dpos_div_ge a d n : 0 < d -> n <= a / d <-> n * d <= a.
Proof. intros H. pose proof (dpos_div a d n H). destruct (Rle_lt_dec n (a / d)), (Rle_lt_dec (n * d) a); split; intros; try lra. Qed.
Lemma dpos_div_gt a d n : 0 < d -> n < a / d <-> n * d < a.
Proof. intros H. split; intros K; [apply (Rmult_lt_compat_r d) in K; [|exact H]; replace (a / d * d) with a in K by (field; lra); exact K|]. apply (Rmult_lt_reg_r d); [exact H|]. replace (a / d * d) with a by (field; lra). exact K. Qed.
Lemma dpos_div_le a d n : 0 < d -> a / d <= n <-> a <= n * d.
Proof. intros H. pose proof (dpos_div_gt a d n H). destruct (Rle_lt_dec (a / d) n), (Rle_lt_dec a (n * d)); split; intros; try lra. Qed.
Lemma div_mono a b d : 0 < d -> a <= b -> a / d <= b / d.
Proof. intros H K. unfold Rdiv. apply Rmult_le_compat_r; [left; now apply Rinv_0_lt_compat|exact K]. Qed.
Lemma ceil_mono a b : a <= b -> (Rceil a <= Rceil b)%Z.
Proof. intros H. apply Rceil_le. pose proof (Rceil_spec b). lra. Qed.
(** the rounded quotient exceeds an integer only if the quotient does *)
Lemma above_int q n : (Z.abs n <= 2 ^ 53)%Z -> (n < Rceil (rnd q))%Z -> IZR n < q.
Proof. intros Hn H. apply Rceil_gt in H. destruct (Rlt_le_dec (IZR n) q) as [K|K]; [exact K|]. pose proof (rnd_le_dbl q (IZR n) K (dbl_Z n Hn)). lra. Qed.
Lemma below_int q n : (Z.abs n <= 2 ^ 53)%Z -> q <= IZR n -> (Rceil (rnd q) <= n)%Z.
Proof. intros Hn H. apply Rceil_le. apply rnd_le_dbl; [exact H|now apply dbl_Z]. Qed.
Lemma ceil_small q : Rabs q <= 2147483647 -> (Z.abs (Rceil (rnd q)) <= 2147483647)%Z.
Proof.
  intros H. apply Rabs_le_inv in H. assert (A : (Rceil (rnd q) <= 2147483647)%Z) by (apply below_int; [lia|lra]).
  enough (-2147483648 < Rceil (rnd q))%Z by lia. apply Rceil_gt. apply Rlt_le_trans with (IZR (-2147483647)); [lra|]. apply rnd_ge_dbl; [lra|apply dbl_Z; lia].
Qed.

Section Step.
  Context (dr : R) (Hdr : SQRT_DOUBLE_EPS < dr) (Ddr : dbl dr).
  Let Hd0 : 0 < dr. Proof. pose proof eps_0. lra. Qed.
  Notation fits r := (Rabs (r / dr) <= 2147483647).
  Lemma rmax_mono a b : a <= b -> (fp_rmaxSteps a dr <= fp_rmaxSteps b dr)%Z.
  Proof. intros H. unfold fp_rmaxSteps. apply ceil_mono, rnd_le, div_mono; auto. Qed.
  Lemma rmin_between r : (Rceil (rnd (r / dr)) - 1 <= fp_rminSteps r dr <= Rceil (rnd (r / dr)))%Z.
  Proof. unfold fp_rminSteps. cbv zeta. destruct (fp_eps_eq _ _ _); lia. Qed.
  (** the lower candidate is not above r *)
  Lemma lower_le r : dbl r -> fits r -> rnd (IZR (Rceil (rnd (r / dr)) - 1) * dr) <= r.
  Proof.
    intros D F. pose proof (ceil_small _ F) as B. apply rnd_le_dbl; [|exact D]. left. apply dpos_div_gt; [exact Hd0|]. apply above_int; lia.
  Qed.
  Lemma rmin_mono a b : dbl a -> dbl b -> fits a -> fits b -> a <= b -> (fp_rminSteps a dr <= fp_rminSteps b dr)%Z.
  Proof.
    intros Da Db Fa Fb H. pose proof (rmin_between a) as Ba. pose proof (rmin_between b) as Bb.
    assert (M : (Rceil (rnd (a / dr)) <= Rceil (rnd (b / dr)))%Z) by (apply ceil_mono, rnd_le, div_mono; auto).
    destruct (Z.eq_dec (Rceil (rnd (a / dr))) (Rceil (rnd (b / dr)))) as [E|N]; [|lia].
    pose proof (lower_le a Da Fa) as L. unfold fp_rminSteps. cbv zeta. rewrite <- E. set (c := rnd (IZR (Rceil (rnd (a / dr)) - 1) * dr)) in *.
    destruct (fp_eps_eq b c FP_SQRT_EPS) eqn:Eb; [|destruct (fp_eps_eq a c FP_SQRT_EPS); lia]. replace (fp_eps_eq a c FP_SQRT_EPS) with true; [lia|].
    symmetry. unfold fp_eps_eq in *. apply Rleb_true in Eb. apply Rleb_true. eapply Rle_trans; [|exact Eb].
    assert (0 <= rnd (a - c)) by (apply rnd_nonneg; lra). assert (0 <= rnd (b - c)) by (apply rnd_nonneg; lra). rewrite !Rabs_pos_eq by assumption. apply rnd_le. lra.
  Qed.
  Lemma rmin_nonneg r : 0 <= r -> (0 <= fp_rminSteps r dr)%Z.
  Proof.
    intros H. assert (Q : 0 <= r / dr) by (apply Rmult_le_pos; [exact H|left; now apply Rinv_0_lt_compat]).
    assert (C : (0 <= Rceil (rnd (r / dr)))%Z). { enough (-1 < Rceil (rnd (r / dr)))%Z by lia. apply Rceil_gt. pose proof (rnd_nonneg _ Q). lra. }
    destruct (Z.eq_dec (Rceil (rnd (r / dr))) 0) as [E|N]; [|pose proof (rmin_between r); lia].
    unfold fp_rminSteps. cbv zeta. rewrite E. replace (fp_eps_eq r (rnd (IZR (0 - 1) * dr)) FP_SQRT_EPS) with false; [lia|].
    symmetry. unfold fp_eps_eq. apply Rleb_false. rewrite sqrt_eps_exact. replace (IZR (0 - 1) * dr) with (- dr) by (cbn; ring). rewrite rnd_opp, (rnd_id dr Ddr).
    assert (K : dr <= rnd (r - - dr)) by (apply rnd_ge_dbl; [lra|exact Ddr]). rewrite Rabs_pos_eq by lra. lra.
  Qed.

  (** *** the grid *)
  Lemma grid_upper rmin rmax r : dbl rmax -> Rabs (rmin / dr) <= 2147483647 -> Rabs (rmax / dr) <= 2147483647 -> In r (fp_rgrid rmin rmax dr) ->
    exists n, r = rnd (IZR n * dr) /\ IZR n * dr < rmax /\ r <= rmax.
  Proof.
    intros D F1 F2 H. apply in_map_iff in H as (n & <- & Hn). apply zrange_In in Hn. pose proof (rmin_between rmin) as B. pose proof (ceil_small _ F1) as C1. pose proof (ceil_small _ F2) as C2.
    unfold fp_rmaxSteps in Hn. assert (K : IZR n < rmax / dr) by (apply above_int; lia). apply dpos_div_gt in K; [|exact Hd0]. exists n. split; [reflexivity|]. split; [exact K|]. apply rnd_le_dbl; [lra|exact D].
  Qed.
  Lemma upper_listed rmax n : 0 <= rmax -> dr <= rmax -> IZR n * dr <= rmax - bpow radix2 (-52) * rmax -> (n < fp_rmaxSteps rmax dr)%Z.
  Proof.
    intros H0 H1 H2. unfold fp_rmaxSteps. apply Rceil_gt. set (Q := rmax / dr). assert (HQ : 1 <= Q) by (unfold Q; apply dpos_div_ge; lra).
    assert (E : Rabs (rnd Q - Q) <= u * Rabs Q). { apply rnd_rel. rewrite Rabs_pos_eq by lra. apply Rle_trans with (bpow radix2 0); [apply bpow_le; lia|cbn; lra]. }
    rewrite (Rabs_pos_eq Q) in E by lra. apply Rabs_le_inv in E. assert (HR : rmax = Q * dr) by (unfold Q; field; lra). rewrite HR in H2.
    assert (K : IZR n <= Q - bpow radix2 (-52) * Q). { apply (Rmult_le_reg_r dr); [exact Hd0|]. lra. }
    replace (bpow radix2 (-52)) with (2 * u) in K by (unfold u; cbn; lra). assert (0 < u) by (unfold u; lra). nra.
  Qed.
  Lemma lower_listed rmin n : (Z.abs n <= 2 ^ 53)%Z -> rmin <= IZR n * dr -> (fp_rminSteps rmin dr <= n)%Z.
  Proof. intros Hn H. pose proof (rmin_between rmin) as B. enough (Rceil (rnd (rmin / dr)) <= n)%Z by lia. apply below_int; [exact Hn|]. now apply dpos_div_le. Qed.
  Lemma grid_lower rmin n : dbl rmin -> 0 <= rmin -> dr <= bpow radix2 1000 -> rmin / dr <= 2147483647 -> (fp_rminSteps rmin dr <= n < 2 ^ 53)%Z ->
    rmin - SQRT_DOUBLE_EPS - bpow radix2 (-50) * (rmin + 1) <= rnd (IZR n * dr).
  Proof.
    intros D H0 HD F Hn. assert (Fa : Rabs (rmin / dr) <= 2147483647) by (rewrite Rabs_pos_eq; [exact F|apply Rmult_le_pos; [exact H0|left; now apply Rinv_0_lt_compat]]).
    assert (M : rnd (IZR (fp_rminSteps rmin dr) * dr) <= rnd (IZR n * dr)) by (apply rnd_le, Rmult_le_compat_r; [lra|apply IZR_le; lia]). eapply Rle_trans; [|exact M]. clear M.
    pose proof (ceil_small _ Fa) as C. set (q := rmin / dr) in *. assert (Q0 : 0 <= q) by (unfold q; apply Rmult_le_pos; [exact H0|left; now apply Rinv_0_lt_compat]).
    assert (Eq : rmin = q * dr) by (unfold q; field; lra). assert (U : 0 < u <= / 1000000) by (unfold u; lra). assert (B50 : bpow radix2 (-50) = 8 * u) by (unfold u; cbn; lra).
    assert (T : bpow radix2 (-1074) <= u * u). { replace (u * u) with (bpow radix2 (-106)) by (unfold u; cbn; lra). apply bpow_le. lia. } pose proof (bpow_gt_0 radix2 (-1074)) as TP.
    assert (TD : bpow radix2 (-1074) * dr <= u). { apply Rle_trans with (bpow radix2 (-1074) * bpow radix2 1000); [apply Rmult_le_compat_l; lra|]. rewrite <- bpow_plus. replace u with (bpow radix2 (-53)) by (unfold u; cbn; lra). apply bpow_le. lia. }
    unfold fp_rminSteps. cbv zeta. fold q. destruct (fp_eps_eq rmin (rnd (IZR (Rceil (rnd q) - 1) * dr)) FP_SQRT_EPS) eqn:E.
    - unfold fp_eps_eq in E. apply Rleb_true in E. rewrite sqrt_eps_exact in E. set (c := rnd (IZR (Rceil (rnd q) - 1) * dr)) in *. pose proof (rnd_err (rmin - c)) as EE. destruct (Rle_lt_dec (rmin - c) 0) as [K|K].
      + pose proof eps_0. nra.
      + rewrite (Rabs_pos_eq (rmin - c)) in EE by lra. apply Rabs_le_inv in EE. apply Rabs_le_inv in E. pose proof (eps_0). assert (SE : SQRT_DOUBLE_EPS <= 1) by (unfold SQRT_DOUBLE_EPS; lra). rewrite B50. nra.
    - pose proof (Rceil_spec (rnd q)) as [_ CS]. set (m := Rceil (rnd q)) in *. pose proof (rnd_err q) as E1. rewrite (Rabs_pos_eq q Q0) in E1. apply Rabs_le_inv in E1.
      pose proof (rnd_err (IZR m * dr)) as E2. assert (Hm : 0 <= IZR m * dr). { apply Rmult_le_pos; [|lra]. apply Rle_trans with (rnd q); [now apply rnd_nonneg|exact CS]. }
      rewrite (Rabs_pos_eq _ Hm) in E2. apply Rabs_le_inv in E2. assert (L : rmin * (1 - u) - u <= IZR m * dr).
      { rewrite Eq. apply Rle_trans with ((q * (1 - u) - bpow radix2 (-1074)) * dr); [nra|]. apply Rmult_le_compat_r; lra. }
      pose proof eps_0. rewrite B50. nra.
  Qed.
  Lemma grid_step n : (0 <= n < 2 ^ 50)%Z -> rnd (IZR n * dr) < rnd (IZR (n + 1) * dr).
  Proof.
    intros Hn. assert (U : 0 < u) by (unfold u; lra). assert (N0 : 0 <= IZR n) by (apply IZR_le; lia). assert (N1 : IZR n <= IZR (2 ^ 50)) by (apply IZR_le; lia). rewrite plus_IZR.
    assert (big : forall z, dr <= z -> bpow radix2 (-1022) <= Rabs z). { intros z Hz. rewrite Rabs_pos_eq by lra. apply Rle_trans with SQRT_DOUBLE_EPS; [rewrite eps_pow; apply bpow_le; lia|lra]. }
    assert (A : rnd (IZR n * dr) <= IZR n * dr * (1 + u)).
    { destruct (Z.eq_dec n 0) as [->|N]; [rewrite !Rmult_0_l, rnd_0; lra|]. assert (1 <= IZR n) by (apply IZR_le; lia). assert (HB : dr <= IZR n * dr) by nra. pose proof (rnd_rel (IZR n * dr) (big _ HB)) as E. rewrite (Rabs_pos_eq (IZR n * dr)) in E by lra. apply Rabs_le_inv in E. lra. }
    assert (HB : dr <= (IZR n + 1) * dr) by nra. pose proof (rnd_rel ((IZR n + 1) * dr) (big _ HB)) as E. rewrite (Rabs_pos_eq ((IZR n + 1) * dr)) in E by lra. apply Rabs_le_inv in E.
    assert (2 * u * IZR n + u <= / 2). { apply Rle_trans with (2 * u * IZR (2 ^ 50) + u); [apply Rplus_le_compat_r, Rmult_le_compat_l; lra|]. unfold u. cbn. lra. } nra.
  Qed.
  Lemma grid_sorted a b : (0 <= a)%Z -> (b <= 2 ^ 50)%Z -> StronglySorted Rlt (map (fun n => rnd (IZR n * dr)) (zrange a b)).
  Proof.
    intros Ha Hb. assert (S : forall n m, (0 <= n)%Z -> (m <= 2 ^ 50)%Z -> (n < m)%Z -> rnd (IZR n * dr) < rnd (IZR m * dr)).
    { intros n m Hn Hm H. assert (HN : (0 <= n < 2 ^ 50)%Z) by lia. pose proof (grid_step n HN) as G. eapply Rlt_le_trans; [exact G|]. apply rnd_le, Rmult_le_compat_r; [lra|apply IZR_le; lia]. }
    remember (Z.to_nat (b - a)) as k eqn:Ek. revert a Ha Ek. induction k as [|k IH]; intros a Ha Ek.
    - rewrite zrange_nil by lia. constructor.
    - rewrite zrange_cons by lia. cbn [map]. constructor; [apply IH; lia|]. apply Forall_forall. intros r Hr. apply in_map_iff in Hr as (m & <- & Hm). apply zrange_In in Hm. apply S; lia.
  Qed.
End Step.
