(** Proofs: the range limits in double arithmetic. *)
From Coq Require Import Sorted.
From Flocq Require Import Core.
From Verif Require Import RBase Trig Fp PdfGrid FpGrid FpGridProofs.
Import ListNotations.
Open Scope R_scope.
Notation length := List.length.

Lemma zrange_length a b : length (zrange a b) = Z.to_nat (b - a). Proof. unfold zrange. now rewrite map_length, seq_length. Qed.
Lemma pow_le_u e : (e <= -200)%Z -> bpow radix2 e <= u * u * u * / 1000.
Proof. intros H. apply Rle_trans with (bpow radix2 (-200)); [apply bpow_le; lia|]. replace (bpow radix2 (-200)) with (u * u * u * bpow radix2 (-41)) by (unfold u; cbn; lra). apply Rmult_le_compat_l; [unfold u; lra|cbn; lra]. Qed.

Lemma ripples_bounds mqmax dr : SQRT_DOUBLE_EPS < dr -> dbl dr -> dbl mqmax -> dbl (fp_ripples mqmax dr) /\ 0 <= fp_ripples mqmax dr <= 4294967296.
Proof.
  intros H D DM. unfold fp_ripples. cbv zeta. destruct (fp_eps_gt _ _ _ && _) eqn:E; [|split; [apply dbl_0|lra]]. apply andb_true_iff in E as [E _].
  unfold fp_eps_gt in E. apply Rltb_true in E. rewrite sqrt_eps_exact, Rplus_0_l, (rnd_id _ dbl_eps) in E. set (q := fp_getQmax mqmax dr) in *.
  pose proof eps_0. split; [apply rnd_dbl|]. assert (P : 0 <= FP_PI <= 4) by (unfold FP_PI; cbn; lra).
  assert (P2 : 0 <= rnd (12 * FP_PI) <= 48). { split; [apply rnd_nonneg; lra|]. apply rnd_le_dbl; [lra|]. apply (dbl_Z 48). lia. }
  split; [apply rnd_nonneg, Rmult_le_pos; [lra|left; apply Rinv_0_lt_compat; lra]|]. apply rnd_le_dbl; [|apply (dbl_Z 4294967296); lia].
  apply dpos_div_le; [lra|]. unfold SQRT_DOUBLE_EPS in *. lra.
Qed.

Section Limits.
  Context (rmin rmax dr maxext mqmax tails : R).
  Hypothesis (Hdr : SQRT_DOUBLE_EPS < dr) (Ddr : dbl dr) (Dmin : dbl rmin) (Dmax : dbl rmax) (Dext : dbl maxext) (Dq : dbl mqmax).
  Hypothesis (P1 : 0 <= rmin) (P2 : 0 <= rmax) (P3 : 0 <= maxext) (P4 : 0 <= tails).
  Hypothesis (F1 : rmin / dr <= 2147483000) (F2 : maxext / dr <= 2147483000) (F3 : (rmax + maxext) / dr <= 2147483000).
  Let R0 := fp_ripples mqmax dr.
  Let T0 := rnd (R0 + tails).

  (** scaling down keeps the ripples inside the total *)
  Lemma scaled : / 131072 <= tails -> maxext = 0 \/ bpow radix2 (-500) <= maxext -> 0 <= rnd (R0 * rnd (maxext / T0)) <= maxext.
  Proof using Hdr Ddr Dq Dext P3.
    clear F1 F2 F3 P4. intros HT HM. destruct (ripples_bounds mqmax dr Hdr Ddr Dq) as (_ & B). fold R0 in B. set (S := R0 + tails) in *.
    assert (SU : 0 < u <= / 1000000) by (unfold u; lra). assert (HS : / 131072 <= S) by (unfold S; lra).
    assert (E : Rabs (T0 - S) <= u * Rabs S). { unfold T0. apply rnd_rel. rewrite Rabs_pos_eq by lra. apply Rle_trans with (bpow radix2 (-17)); [apply bpow_le; lia|cbn; lra]. }
    rewrite (Rabs_pos_eq S) in E by lra. apply Rabs_le_inv in E. assert (TP : 0 < T0) by nra.
    assert (Q0 : 0 <= maxext / T0) by (apply Rmult_le_pos; [lra|left; now apply Rinv_0_lt_compat]).
    split; [apply rnd_nonneg, Rmult_le_pos; [lra|now apply rnd_nonneg]|]. apply rnd_le_dbl; [|exact Dext].
    destruct HM as [->|HM]; [replace (0 / T0) with 0 by (field; lra); rewrite rnd_0; lra|].
    pose proof (rnd_err (maxext / T0)) as E2. rewrite (Rabs_pos_eq _ Q0) in E2. apply Rabs_le_inv in E2. set (q := maxext / T0) in *.
    assert (Eq : q * T0 = maxext) by (unfold q; field; lra).
    assert (K : R0 <= S * (1 - 8 * u)). { unfold S in *. assert (U1 : u * 4294967296 <= / 2000000) by (unfold u; lra). nra. }
    assert (T4 : 4294967296 * bpow radix2 (-1074) <= u * maxext).
    { apply Rle_trans with (u * bpow radix2 (-500)); [|apply Rmult_le_compat_l; lra]. replace u with (bpow radix2 (-53)) by (unfold u; cbn; lra). change 4294967296 with (bpow radix2 32). rewrite <- !bpow_plus. apply bpow_le. lia. }
    assert (EP := bpow_ge_0 radix2 (-1074)). set (eta := bpow radix2 (-1074)) in *.
    apply Rle_trans with (R0 * (q * (1 + u) + eta)); [apply Rmult_le_compat_l; lra|].
    assert (A1 : R0 * eta <= u * maxext) by (eapply Rle_trans; [|exact T4]; apply Rmult_le_compat_r; lra).
    assert (A2 : R0 * (1 + u) <= T0 * (1 - u)). { apply Rle_trans with (S * (1 - 8 * u) * (1 + u)); [apply Rmult_le_compat_r; lra|]. apply Rle_trans with (S * (1 - u) * (1 - u)); [|apply Rmult_le_compat_r; lra]. rewrite !Rmult_assoc. apply Rmult_le_compat_l; [lra|]. nra. }
    assert (A3 : q * (R0 * (1 + u)) <= q * (T0 * (1 - u))) by (apply Rmult_le_compat_l; lra).
    replace (q * (T0 * (1 - u))) with (maxext * (1 - u)) in A3 by (rewrite <- Eq; ring). lra.
  Qed.

  Hypothesis (HC : T0 <= maxext \/ (/ 131072 <= tails /\ (maxext = 0 \/ bpow radix2 (-500) <= maxext))).
  Hypothesis HG : (fp_rminSteps rmin dr < fp_rmaxSteps rmax dr)%Z.
  Let d0 : 0 < dr. Proof. pose proof eps_0. lra. Qed.

  Lemma steps_of rip tot : dbl rip -> dbl tot -> 0 <= rip -> rip <= tot -> tot <= maxext ->
    (0 <= Z.max 0 (fp_rminSteps (rnd (rmin - tot)) dr) <= Z.max 0 (fp_rminSteps (rnd (rmin - rip)) dr))%Z /\
    (Z.max 0 (fp_rminSteps (rnd (rmin - rip)) dr) <= fp_rminSteps rmin dr)%Z /\
    (fp_rmaxSteps rmax dr <= fp_rmaxSteps (rnd (rmax + rip)) dr <= fp_rmaxSteps (rnd (rmax + tot)) dr)%Z /\
    (fp_rmaxSteps (rnd (rmax + tot)) dr <= 2147483647)%Z.
  Proof using Hdr Ddr Dmin Dmax Dext P1 P2 P3 F1 F2 F3 d0.
    intros D1 D2 H1 H2 H3.
    assert (FF : forall t, dbl t -> 0 <= t <= maxext -> Rabs (rnd (rmin - t) / dr) <= 2147483647).
    { intros t Dt Ht. assert (L : - maxext <= rnd (rmin - t)) by (apply rnd_ge_dbl; [lra|now apply dbl_opp]). assert (U : rnd (rmin - t) <= rmin) by (apply rnd_le_dbl; [lra|exact Dmin]).
      pose proof (proj1 (dpos_div_le _ _ _ d0) F1) as G1. pose proof (proj1 (dpos_div_le _ _ _ d0) F2) as G2. apply Rabs_le. split; [apply dpos_div_ge; [exact d0|]|apply dpos_div_le; [exact d0|]]; lra. }
    assert (Fm : Rabs (rmin / dr) <= 2147483647) by (rewrite Rabs_pos_eq; [lra|apply Rmult_le_pos; [lra|left; now apply Rinv_0_lt_compat]]).
    split; [|split; [|split; [split|]]].
    - split; [lia|]. apply Z.max_le_compat_l. apply rmin_mono; auto using rnd_dbl. { apply FF; [exact D2|lra]. } { apply FF; [exact D1|lra]. } apply rnd_le. lra.
    - apply Z.max_lub; [now apply rmin_nonneg|]. apply rmin_mono; auto using rnd_dbl. { apply FF; [exact D1|lra]. } apply rnd_le_dbl; [lra|exact Dmin].
    - apply rmax_mono; [exact Hdr|]. apply rnd_ge_dbl; [lra|exact Dmax].
    - apply rmax_mono; [exact Hdr|]. apply rnd_le. lra.
    - unfold fp_rmaxSteps. enough (Z.abs (Rceil (rnd (rnd (rmax + tot) / dr))) <= 2147483647)%Z by lia. apply ceil_small.
      assert (N : 0 <= rnd (rmax + tot)) by (apply rnd_nonneg; lra). rewrite Rabs_pos_eq by (apply Rmult_le_pos; [exact N|left; now apply Rinv_0_lt_compat]).
      pose proof (proj1 (dpos_div_le _ _ _ d0) F3) as G3. apply dpos_div_le; [exact d0|]. apply Rle_trans with (rnd (rmax + maxext)); [apply rnd_le; lra|].
      pose proof (rnd_err (rmax + maxext)) as E. rewrite (Rabs_pos_eq (rmax + maxext)) in E by lra. apply Rabs_le_inv in E. pose proof (pow_le_u (-1074)) as PU. assert (PU' := PU ltac:(lia)). clear PU.
      assert (U : 0 < u <= / 1000000000) by (unfold u; lra). pose proof eps_0.
      assert (UX : u * (rmax + maxext) <= / 1000000000 * (2147483000 * dr)) by (apply Rmult_le_compat; lra). assert (U3 : u * u * u * / 1000 <= SQRT_DOUBLE_EPS) by (unfold u, SQRT_DOUBLE_EPS; lra). lra.
  Qed.
  Lemma limits_order : let l := fp_limits rmin rmax dr maxext mqmax tails in
    (0 <= calclo l <= extmin l)%Z /\ (extmin l <= fp_rminSteps rmin dr)%Z /\ (fp_rminSteps rmin dr < fp_rmaxSteps rmax dr)%Z /\
    (fp_rmaxSteps rmax dr <= extmax l)%Z /\ (extmax l <= calchi l)%Z /\ (calchi l <= 2147483647)%Z.
  Proof using All.
    cbv zeta. unfold fp_limits. cbv zeta. destruct (fp_rmaxSteps rmax dr <=? fp_rminSteps rmin dr)%Z eqn:E0; [apply Z.leb_le in E0; lia|clear E0].
    fold R0 T0. destruct (ripples_bounds mqmax dr Hdr Ddr Dq) as (DR & BR). fold R0 in DR, BR. destruct (Rltb maxext T0) eqn:E.
    - apply Rltb_true in E. destruct HC as [HC'|(HT & HM)]; [lra|]. pose proof (scaled HT HM) as SC.
      destruct (steps_of (rnd (R0 * rnd (maxext / T0))) maxext) as ((A & B) & C & (D & D') & F); auto using rnd_dbl; try lra. cbn [extmin extmax calclo calchi]. repeat split; assumption.
    - apply Rltb_false in E. assert (RT : R0 <= T0) by (unfold T0; apply rnd_ge_dbl; [lra|exact DR]).
      destruct (steps_of R0 T0) as ((A & B) & C & (D & D') & F); auto; try lra. { apply rnd_dbl. } cbn [extmin extmax calclo calchi]. repeat split; assumption.
  Qed.
  (** the results are cut out of the array *)
  Lemma getRDF_safe scale v : length v = Z.to_nat (calchi (fp_limits rmin rmax dr maxext mqmax tails) - calclo (fp_limits rmin rmax dr maxext mqmax tails)) ->
    exists y, fp_getRDF rmin rmax dr (fp_limits rmin rmax dr maxext mqmax tails) scale v = Ok y /\ length y = length (fp_rgrid rmin rmax dr) /\
      forall k, (k < length y)%nat -> nth k y 0 = rnd (nth (Z.to_nat (fp_rminSteps rmin dr + Z.of_nat k - calclo (fp_limits rmin rmax dr maxext mqmax tails))) v 0 * scale).
  Proof using All.
    intros HL. pose proof limits_order as O. cbv zeta in O. destruct O as ((O1 & O2) & O3 & O4 & O5 & O6 & O7). set (l := fp_limits rmin rmax dr maxext mqmax tails) in *.
    unfold fp_getRDF, range. cbv zeta. set (a := fp_rminSteps rmin dr) in *. set (b := fp_rmaxSteps rmax dr) in *. rewrite HL.
    replace ((0 <=? extmin l - calclo l) && (extmin l - calclo l <=? extmax l - calclo l) && (extmax l - calclo l <=? Z.of_nat (Z.to_nat (calchi l - calclo l))))%Z with true by (symmetry; rewrite !andb_true_iff, !Z.leb_le; lia).
    cbn [bind]. set (w := firstn _ (skipn _ v)). assert (Hw : length w = Z.to_nat (extmax l - extmin l)) by (unfold w; rewrite firstn_length, skipn_length; lia).
    set (y := map _ w). assert (Hy : length y = Z.to_nat (extmax l - extmin l)) by (unfold y; rewrite map_length; exact Hw).
    assert (Ny : forall k, (k < length y)%nat -> nth k y 0 = rnd (nth (Z.to_nat (extmin l - calclo l) + k) v 0 * scale)).
    { intros k Hk. unfold y. rewrite (nth_indep _ 0 (rnd (0 * scale))) by exact Hk. rewrite (map_nth (fun t => rnd (t * scale)) w 0). f_equal. f_equal. unfold w. rewrite <- (firstn_skipn (Z.to_nat (extmin l - calclo l)) v) at 2.
      assert (L1 : length (firstn (Z.to_nat (extmin l - calclo l)) v) = Z.to_nat (extmin l - calclo l)) by (rewrite firstn_length; lia).
      rewrite app_nth2 by lia. rewrite L1. replace (Z.to_nat (extmin l - calclo l) + k - Z.to_nat (extmin l - calclo l))%nat with k by lia.
      set (s := skipn _ v). rewrite <- (firstn_skipn (Z.to_nat (extmax l - calclo l - (extmin l - calclo l))) s) at 2. rewrite app_nth1; [reflexivity|]. unfold s. rewrite firstn_length, skipn_length. rewrite Hy in Hk. lia. }
    destruct y as [|y0 y'] eqn:Ey; [cbn in Hy; lia|]. rewrite <- Ey in *. clear Ey. rewrite Hy.
    replace (extmax l - b <? 0)%Z with false by (symmetry; apply Z.ltb_ge; lia). rewrite Z.leb_refl.
    replace (true && (0 <=? Z.of_nat (Z.to_nat (extmax l - extmin l)) - (extmax l - b)) && (Z.of_nat (Z.to_nat (extmax l - extmin l)) - (extmax l - b) <=? Z.of_nat (Z.to_nat (extmax l - extmin l))))%Z with true by (symmetry; rewrite !andb_true_iff, !Z.leb_le; lia).
    cbn [bind]. change (skipn (Z.to_nat 0) y) with y. set (y1 := firstn _ y). assert (H1 : length y1 = Z.to_nat (b - extmin l)) by (unfold y1; rewrite firstn_length; lia).
    replace (a - extmin l <? 0)%Z with false by (symmetry; apply Z.ltb_ge; lia). rewrite H1.
    replace ((0 <=? a - extmin l) && (a - extmin l <=? Z.of_nat (Z.to_nat (b - extmin l))) && (Z.of_nat (Z.to_nat (b - extmin l)) <=? Z.of_nat (Z.to_nat (b - extmin l))))%Z with true by (symmetry; rewrite !andb_true_iff, !Z.leb_le; lia).
    rewrite firstn_all2 by (rewrite skipn_length; lia). exists (skipn (Z.to_nat (a - extmin l)) y1). split; [reflexivity|].
    assert (H2 : length (skipn (Z.to_nat (a - extmin l)) y1) = Z.to_nat (b - a)) by (rewrite skipn_length; lia). split.
    - rewrite H2. unfold fp_rgrid. rewrite map_length. fold a b. rewrite zrange_length. lia.
    - intros k Hk. rewrite H2 in Hk. replace (nth k (skipn (Z.to_nat (a - extmin l)) y1) 0) with (nth (Z.to_nat (a - extmin l) + k) y1 0).
      2: { rewrite <- (firstn_skipn (Z.to_nat (a - extmin l)) y1) at 1. assert (L1 : length (firstn (Z.to_nat (a - extmin l)) y1) = Z.to_nat (a - extmin l)) by (rewrite firstn_length; lia). rewrite app_nth2 by lia. rewrite L1. f_equal. lia. }
      replace (nth (Z.to_nat (a - extmin l) + k) y1 0) with (nth (Z.to_nat (a - extmin l) + k) y 0).
      2: { rewrite <- (firstn_skipn (Z.to_nat (Z.of_nat (Z.to_nat (extmax l - extmin l)) - (extmax l - b) - 0)) y) at 1. fold y1. apply app_nth1. lia. }
      rewrite Ny by lia. do 3 f_equal. lia.
  Qed.
End Limits.
