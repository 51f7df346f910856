(** C94, C95: grids and range limits of PDFCalculator in double arithmetic. *)
From Coq Require Import Sorted.
From Flocq Require Import Core.
From Verif Require Import RBase Trig Fp PdfGrid FpGrid FpGridSpec FpConcrete FpGridProofs FpLimits.
Import ListNotations.
Open Scope R_scope.
Notation length := List.length.

Lemma eps_lit : / 67108864 = SQRT_DOUBLE_EPS. Proof. reflexivity. Qed.
Lemma fits_abs r d : 0 <= r -> / 67108864 < d -> r <= 2147483000 * d -> Rabs (r / d) <= 2147483647.
Proof. intros H D K. rewrite Rabs_pos_eq by (apply Rmult_le_pos; [lra|left; apply Rinv_0_lt_compat; lra]). apply dpos_div_le; lra. Qed.

(** the points are rounded multiples of the step in the range, up to the tolerance at rmin *)
Theorem C94_rgrid_points_partial rmin rmax rstep r : grid_settings rmin rmax rstep -> In r (fp_rgrid rmin rmax rstep) ->
  exists n, (0 <= n)%Z /\ r = rnd (IZR n * rstep) /\ IZR n * rstep < rmax /\ r <= rmax /\ rmin - / 67108864 - bpow radix2 (-50) * (rmin + 1) <= r.
Proof.
  intros [[D1 P1] [D2 P2] [D3 P3] [F1 F2]] H. assert (S := fits_abs rmin rstep P1 (proj1 P3) F1). assert (T := fits_abs rmax rstep P2 (proj1 P3) F2).
  pose proof (rmin_nonneg rstep (proj1 P3) D3 rmin P1) as N. pose proof H as H'. apply in_map_iff in H' as (n & E & Hn). apply zrange_In in Hn.
  pose proof (ceil_small _ T) as C. unfold fp_rmaxSteps in Hn. pose proof (rmin_between rstep rmin) as B.
  exists n. split; [lia|]. split; [now symmetry|]. assert (K : IZR n < rmax / rstep) by (apply above_int; lia). apply dpos_div_gt in K; [|lra]. split; [exact K|].
  split; [rewrite <- E; apply rnd_le_dbl; [lra|exact D2]|]. rewrite <- E. assert (S' : rmin / rstep <= 2147483647) by (eapply Rle_trans; [apply Rle_abs|exact S]). apply grid_lower; try assumption; try (apply P3); lia.
Qed.
Theorem C94_rgrid_ascending rmin rmax rstep : grid_settings rmin rmax rstep -> StronglySorted Rlt (fp_rgrid rmin rmax rstep).
Proof.
  intros [[D1 P1] [D2 P2] [D3 P3] [F1 F2]]. apply grid_sorted; [apply P3|now apply rmin_nonneg|]. unfold fp_rmaxSteps. pose proof (ceil_small _ (fits_abs rmax rstep P2 (proj1 P3) F2)). lia.
Qed.
(** no multiple is missing, up to one in the last place of rmax *)
Theorem C94_rgrid_complete rmin rmax rstep n : grid_settings rmin rmax rstep -> rstep <= rmax -> rmin <= IZR n * rstep -> IZR n * rstep <= rmax - bpow radix2 (-52) * rmax ->
  In (rnd (IZR n * rstep)) (fp_rgrid rmin rmax rstep).
Proof.
  intros [[D1 P1] [D2 P2] [D3 P3] [F1 F2]] HR HL HU. apply (in_map (fun n => rnd (IZR n * rstep))). apply zrange_In. split; [|now apply upper_listed].
  apply lower_listed; [apply P3| |exact HL]. assert (N0 : -1 < IZR n) by (destruct (Rlt_le_dec (-1) (IZR n)) as [?|K]; [assumption|nra]). apply lt_IZR in N0.
  assert (N1 : IZR n < 2147483648). { apply Rlt_le_trans with (2147483000 + 1); [|lra]. apply (Rmult_lt_reg_r rstep); [lra|]. pose proof (bpow_ge_0 radix2 (-52)). nra. } apply lt_IZR in N1. lia.
Qed.
(** the range is half open only in exact arithmetic: with the default step 0.01 and rmax = 4.19 the grid ends with rmax *)
Theorem C94_rgrid_below_rmax_refuted : ~ (forall rmin rmax rstep r, grid_settings rmin rmax rstep -> In r (fp_rgrid rmin rmax rstep) -> r < rmax).
Proof.
  intros H. set (rmax := D 4717520609670595 (-50)). set (dr := D 5764607523034235 (-59)). enough (G : grid_settings 0 rmax dr /\ In rmax (fp_rgrid 0 rmax dr)) by (pose proof (H _ _ _ _ (proj1 G) (proj2 G)); lra).
  assert (B1 : / 100 - / 1000 < dr < / 100 + / 1000) by (unfold dr, D; cbn; lra). assert (B2 : 4 < rmax < 5) by (unfold rmax, D; cbn; lra). split.
  - split; [split; [apply dbl_0|lra]|split; [apply D_dbl; [reflexivity|lia]|lra]|split; [apply D_dbl; [reflexivity|lia]|split; [lra|]]|lra].
    apply Rle_trans with (bpow radix2 0); [cbn; lra|apply bpow_le; lia].
  - assert (E1 : fp_rmaxSteps rmax dr = 420%Z).
    { unfold fp_rmaxSteps, rmax, dr. rewrite (rnd_quot _ _ _ _ 7371125952610305 (-44)) by (vm_compute; (reflexivity || (split; reflexivity) || discriminate)). apply ceil_D; [lia|vm_compute; split; [reflexivity|discriminate]]. }
    assert (E2 : rnd (IZR 419 * dr) = rmax).
    { unfold dr, D. rewrite <- Rmult_assoc, <- mult_IZR. apply (rnd_D (419 * 5764607523034235) (-59) 4717520609670595 9); vm_compute; (reflexivity || (split; reflexivity) || discriminate). }
    rewrite <- E2 at 1. apply (in_map (fun n => rnd (IZR n * dr))). apply zrange_In. rewrite E1. split; [|lia].
    apply lower_listed; [|lia|nra]. unfold SQRT_DOUBLE_EPS. lra.
Qed.
(** the Q-grid *)
Theorem C94_qgrid qmax qstep : grid_settings 0 qmax qstep ->
  (forall q, In q (fp_qgrid qmax qstep) -> exists n, (0 <= n)%Z /\ q = rnd (IZR n * qstep) /\ IZR n * qstep < qmax /\ q <= qmax) /\
  StronglySorted Rlt (fp_qgrid qmax qstep) /\
  (forall n, (0 <= n)%Z -> qstep <= qmax -> IZR n * qstep <= qmax - bpow radix2 (-52) * qmax -> In (rnd (IZR n * qstep)) (fp_qgrid qmax qstep)).
Proof.
  intros [_ [D2 P2] [D3 P3] [_ F2]]. assert (T := fits_abs qmax qstep P2 (proj1 P3) F2). pose proof (ceil_small _ T) as C. assert (E : fp_qgrid qmax qstep = map (fun n => rnd (IZR n * qstep)) (zrange 0 (fp_rmaxSteps qmax qstep))).
  { unfold fp_qgrid. destruct (Rleb qstep 0) eqn:E; [apply Rleb_true in E; lra|reflexivity]. }
  rewrite E. split; [|split].
  - intros q H. apply in_map_iff in H as (n & <- & Hn). apply zrange_In in Hn. unfold fp_rmaxSteps in Hn. exists n. split; [lia|]. split; [reflexivity|].
    assert (K : IZR n < qmax / qstep) by (apply above_int; lia). apply dpos_div_gt in K; [|lra]. split; [exact K|apply rnd_le_dbl; [lra|exact D2]].
  - apply grid_sorted; [apply P3|lia|unfold fp_rmaxSteps; lia].
  - intros n Hn HS HU. apply (in_map (fun n => rnd (IZR n * qstep))). apply zrange_In. split; [exact Hn|]. apply upper_listed; try assumption. apply P3.
Qed.
Example C94_nonvacuous : grid_settings 1 5 (/ 128) /\ (128 <= length (fp_rgrid 1 5 (/ 128)))%nat.
Proof.
  assert (E : / 128 = bpow radix2 (-7)) by (cbn; lra). assert (G : grid_settings 1 5 (/ 128)).
  { split; [split; [apply (dbl_Z 1); lia|lra]|split; [apply (dbl_Z 5); lia|lra]|rewrite E; split; [apply dbl_bpow; lia|split; [cbn; lra|apply bpow_le; lia]]|lra]. }
  split; [exact G|]. assert (I : forall k, (k < 128)%nat -> In (rnd (IZR (200 + Z.of_nat k) * / 128)) (fp_rgrid 1 5 (/ 128))).
  { intros k Hk. apply C94_rgrid_complete; [exact G|lra| |]; rewrite plus_IZR, <- INR_IZR_INZ; assert (INR k <= 128) by (replace 128 with (INR 128) by (simpl; ring); apply le_INR; lia); pose proof (pos_INR k); try lra. cbn. lra. }
  assert (NI : forall n, (0 <= n <= 400)%Z -> rnd (IZR n * / 128) = IZR n * bpow radix2 (-7)) by (intros n Hn; rewrite E; apply rnd_id, dbl_form; lia).
  set (L := map (fun k => rnd (IZR (200 + Z.of_nat k) * / 128)) (seq 0 128)). replace 128%nat with (length L) by (unfold L; rewrite map_length; apply seq_length).
  apply NoDup_incl_length.
  - unfold L. clear L. assert (N : NoDup (seq 0 128)) by apply seq_NoDup.
    assert (Hs : forall k, In k (seq 0 128) -> (k < 128)%nat) by (intros k K; apply in_seq in K; lia). induction (seq 0 128) as [|a l IH]; cbn [map]; constructor.
    + intros K. apply in_map_iff in K as (b & Eb & Hb). assert (Ha := Hs a (or_introl eq_refl)). assert (Hb' := Hs b (or_intror Hb)). rewrite !NI in Eb by lia. apply Rmult_eq_reg_r in Eb; [|apply Rgt_not_eq, bpow_gt_0]. apply eq_IZR in Eb. assert (a = b) by lia. subst. now inversion N.
    + apply IH; [now inversion N|intros k K; apply Hs; now right].
  - intros r Hr. apply in_map_iff in Hr as (k & <- & Hk). apply I. apply in_seq in Hk. lia.
Qed.
Print Assumptions C94_rgrid_points_partial.
Print Assumptions C94_rgrid_ascending.
Print Assumptions C94_rgrid_complete.
Print Assumptions C94_rgrid_below_rmax_refuted.
Print Assumptions C94_qgrid.
(** Without a positive step the grid is empty. *)
Theorem C94_qgrid_no_step qmax qstep : qstep <= 0 -> fp_qgrid qmax qstep = [].
Proof. intros H. unfold fp_qgrid. replace (Rleb qstep 0) with true by (symmetry; now apply Rleb_true). rewrite zrange_nil by lia. reflexivity. Qed.
Print Assumptions C94_qgrid_no_step.

(** the limits are ordered and nothing is read outside the array *)
Lemma rs_facts rmin rmax rstep maxext qmax tails : range_settings rmin rmax rstep maxext qmax tails ->
  rmin / rstep <= 2147483000 /\ maxext / rstep <= 2147483000 /\ (rmax + maxext) / rstep <= 2147483000.
Proof. intros [[? ? [_ G] [F1 F2]] _ _ _ [F3 F4]]. repeat split; apply dpos_div_le; lra. Qed.
Theorem C95_limits_partial rmin rmax rstep maxext qmax tails (l := fp_limits rmin rmax rstep maxext qmax tails) : range_settings rmin rmax rstep maxext qmax tails ->
  rnd (fp_ripples qmax rstep + tails) <= maxext \/ (/ 131072 <= tails /\ (maxext = 0 \/ bpow radix2 (-500) <= maxext)) ->
  fp_rgrid rmin rmax rstep <> [] ->
  (0 <= calclo l <= extmin l)%Z /\ (extmin l <= fp_rminSteps rmin rstep)%Z /\ (fp_rminSteps rmin rstep < fp_rmaxSteps rmax rstep)%Z /\
  (fp_rmaxSteps rmax rstep <= extmax l)%Z /\ (extmax l <= calchi l)%Z /\ (calchi l <= 2147483647)%Z.
Proof.
  intros RS HC HG. destruct (rs_facts _ _ _ _ _ _ RS) as (F1 & F2 & F3). destruct RS as [[[D1 P1] [D2 P2] [D3 P3] _] [D4 P4] D5 P5 _].
  apply limits_order; try assumption; [apply P3|]. destruct (Z_lt_le_dec (fp_rminSteps rmin rstep) (fp_rmaxSteps rmax rstep)) as [K|K]; [exact K|]. unfold fp_rgrid in HG. rewrite (zrange_nil _ _ K) in HG. contradiction.
Qed.
Theorem C95_getRDF_memory_partial rmin rmax rstep maxext qmax tails scale v (l := fp_limits rmin rmax rstep maxext qmax tails) : range_settings rmin rmax rstep maxext qmax tails ->
  rnd (fp_ripples qmax rstep + tails) <= maxext \/ (/ 131072 <= tails /\ (maxext = 0 \/ bpow radix2 (-500) <= maxext)) ->
  length v = Z.to_nat (calchi l - calclo l) ->
  exists y, fp_getRDF rmin rmax rstep l scale v = Ok y /\ length y = length (fp_rgrid rmin rmax rstep) /\
    forall k, (k < length y)%nat -> nth k y 0 = rnd (nth (Z.to_nat (fp_rminSteps rmin rstep + Z.of_nat k - calclo l)) v 0 * scale).
Proof.
  intros RS HC HL. destruct (Z_lt_le_dec (fp_rminSteps rmin rstep) (fp_rmaxSteps rmax rstep)) as [K|K].
  - destruct (rs_facts _ _ _ _ _ _ RS) as (F1 & F2 & F3). destruct RS as [[[D1 P1] [D2 P2] [D3 P3] _] [D4 P4] D5 P5 _]. apply getRDF_safe; try assumption. apply P3.
  - assert (E : l = {| extmin := 0; extmax := 0; calclo := 0; calchi := 0 |}) by (unfold l, fp_limits; apply Z.leb_le in K; rewrite K; reflexivity). rewrite E in *. cbn in HL.
    apply length_zero_iff_nil in HL. subst v. exists []. split; [|split]; [reflexivity| |cbn; intros; lia]. unfold fp_rgrid. rewrite (zrange_nil _ _ K). reflexivity.
Qed.
(** without the condition on the tails: rmin 0, rmax 5, default step 0.01 and maximum extension 10, qmax 2.1, no peak width (no atoms or
    no displacements): one element past the array is read *)
Section Past.
  Let dr := D 5764607523034235 (-59).
  Let q := D 4728779608739021 (-51).
  Let qb : 2 < q < 3. Proof. unfold q, D. cbn. lra. Qed.
  Let rb : / 128 < dr < / 64. Proof. unfold dr, D. cbn. lra. Qed.
  Let pidr : rnd (FP_PI / dr) = D 5526748243772219 (-44).
  Proof. unfold dr. change FP_PI with (D 884279719003555 (-48)). apply rnd_quot; vm_compute; (reflexivity || (split; reflexivity) || discriminate). Qed.
  Let big : 300 < D 5526748243772219 (-44) < 400. Proof. unfold D. cbn. lra. Qed.
  Let rip : fp_ripples q dr = D 5053026965734600 (-48).
  Proof using qb pidr big.
    unfold fp_ripples, fp_getQmax. cbv zeta. rewrite pidr, (Rmin_left q) by lra. unfold fp_eps_gt, fp_eps_lt. rewrite sqrt_eps_exact, Rplus_0_l, (rnd_id _ dbl_eps).
    replace (Rltb SQRT_DOUBLE_EPS q) with true by (symmetry; apply Rltb_true; unfold SQRT_DOUBLE_EPS; lra).
    assert (K : 299 <= rnd (D 5526748243772219 (-44) - SQRT_DOUBLE_EPS)) by (apply rnd_ge_dbl; [unfold SQRT_DOUBLE_EPS; lra|apply (dbl_Z 299); lia]).
    replace (Rltb q (rnd (D 5526748243772219 (-44) - SQRT_DOUBLE_EPS))) with true by (symmetry; apply Rltb_true; lra). cbn [andb].
    assert (E : rnd (12 * FP_PI) = D 5305678314021330 (-47)).
    { replace (12 * FP_PI) with (D 5305678314021330 (-47)); [apply rnd_id, D_dbl; [reflexivity|lia]|]. unfold D, FP_PI. replace (bpow radix2 (-47)) with (2 * bpow radix2 (-48)) by (cbn; lra). rewrite <- !Rmult_assoc. f_equal. lra. }
    rewrite E. apply rnd_quot; vm_compute; (reflexivity || (split; reflexivity) || discriminate).
  Qed.
  Let ten : dbl 10. Proof. apply (dbl_Z 10). lia. Qed.
  Let five : dbl 5. Proof. apply (dbl_Z 5). lia. Qed.
  Let scaled10 : rnd (D 5053026965734600 (-48) * rnd (10 / D 5053026965734600 (-48))) = D 5629499534213121 (-49).
  Proof.
    assert (E : rnd (10 / D 5053026965734600 (-48)) = D 5017390996819827 (-53)).
    { replace 10 with (D 10 0) by (unfold D; cbn; ring). apply rnd_quot; vm_compute; (reflexivity || (split; reflexivity) || discriminate). }
    rewrite E, D_mul. apply (rnd_D _ (-101) 5629499534213121 52); vm_compute; (reflexivity || (split; reflexivity) || discriminate).
  Qed.
  Lemma past_limits : range_settings 0 5 dr 10 q 0 /\ fp_rgrid 0 5 dr <> [] /\ fp_limits 0 5 dr 10 q 0 = {| extmin := 0; extmax := 1501; calclo := 0; calchi := 1500 |}.
  Proof.
    assert (RS : range_settings 0 5 dr 10 q 0).
    { split; [split; [split; [apply dbl_0|lra]|split; [apply five|lra]|split; [apply D_dbl; [reflexivity|lia]|]|lra]|split; [apply ten|lra]|apply D_dbl; [reflexivity|lia]|lra|lra].
      split; [lra|]. apply Rle_trans with (bpow radix2 0); [cbn; lra|apply bpow_le; lia]. }
    assert (HE : SQRT_DOUBLE_EPS < dr) by (unfold SQRT_DOUBLE_EPS; lra). assert (DD : dbl dr) by (apply D_dbl; [reflexivity|lia]).
    assert (G : In (rnd (IZR 5 * dr)) (fp_rgrid 0 5 dr)). { apply C94_rgrid_complete; [apply RS|lra|lra|cbn; lra]. }
    split; [exact RS|]. split; [intros E; rewrite E in G; exact G|].
    assert (Z0 : fp_rminSteps 0 dr = 0%Z). { apply Z.le_antisymm; [apply lower_listed; [exact HE|lia|lra]|apply rmin_nonneg; [exact HE|exact DD|lra]]. }
    assert (M5 : (0 < fp_rmaxSteps 5 dr)%Z) by (apply upper_listed; [exact HE|lra|lra|cbn; lra]).
    unfold fp_limits. replace (fp_rmaxSteps 5 dr <=? fp_rminSteps 0 dr)%Z with false by (symmetry; apply Z.leb_gt; lia). cbv zeta. rewrite rip, Rplus_0_r.
    rewrite (rnd_id (D 5053026965734600 (-48))) by (apply D_dbl; [reflexivity|lia]). replace (Rltb 10 (D 5053026965734600 (-48))) with true by (symmetry; apply Rltb_true; unfold D; cbn; lra).
    rewrite scaled10. f_equal.
    - rewrite Rminus_0_l. apply Z.max_l. assert (B : rnd (- D 5629499534213121 (-49)) <= 0) by (apply rnd_le_dbl; [unfold D; cbn; lra|apply dbl_0]). apply lower_listed; [exact HE|lia|lra].
    - assert (E : rnd (5 + D 5629499534213121 (-49)) = D 8444249301319681 (-49)). { replace 5 with (D 2814749767106560 (-49)) by (unfold D; cbn; lra). rewrite D_add. cbn -[D]. apply rnd_id, D_dbl; [reflexivity|lia]. }
      rewrite E. unfold fp_rmaxSteps, dr. rewrite (rnd_quot _ _ _ _ 6597069766656001 (-42)) by (vm_compute; (reflexivity || (split; reflexivity) || discriminate)). apply ceil_D; [lia|vm_compute; split; [reflexivity|discriminate]].
    - rewrite Rminus_0_l. apply Z.max_l. assert (B : rnd (- (10)) <= 0) by (apply rnd_le_dbl; [lra|apply dbl_0]). apply lower_listed; [exact HE|lia|lra].
    - replace (5 + 10) with 15 by lra. rewrite (rnd_id 15) by (apply (dbl_Z 15); lia). unfold fp_rmaxSteps, dr. replace 15 with (D 15 0) by (unfold D; cbn; ring).
      rewrite (rnd_quot _ _ _ _ 6597069766656000 (-42)) by (vm_compute; (reflexivity || (split; reflexivity) || discriminate)). apply ceil_D; [lia|vm_compute; split; [reflexivity|discriminate]].
  Qed.
End Past.
Theorem C95_limits_refuted : ~ (forall rmin rmax rstep maxext qmax tails scale v, range_settings rmin rmax rstep maxext qmax tails ->
  length v = Z.to_nat (calchi (fp_limits rmin rmax rstep maxext qmax tails) - calclo (fp_limits rmin rmax rstep maxext qmax tails)) ->
  exists y, fp_getRDF rmin rmax rstep (fp_limits rmin rmax rstep maxext qmax tails) scale v = Ok y).
Proof.
  intros H. destruct past_limits as (RS & _ & E). specialize (H _ _ _ _ _ _ 1 (repeat 0 1500) RS). rewrite E in H. destruct (H eq_refl) as (y & K). revert K. unfold fp_getRDF, range. cbn [extmin extmax calclo calchi]. rewrite repeat_length. discriminate.
Qed.
Example C95_nonvacuous : range_settings 1 20 (/ 128) 10 25 (/ 2) /\ fp_rgrid 1 20 (/ 128) <> [] /\ / 131072 <= / 2 /\ (10 = 0 \/ bpow radix2 (-500) <= 10).
Proof.
  assert (E : / 128 = bpow radix2 (-7)) by (cbn; lra). assert (RS : range_settings 1 20 (/ 128) 10 25 (/ 2)).
  { split; [split; [split; [apply (dbl_Z 1); lia|lra]|split; [apply (dbl_Z 20); lia|lra]|rewrite E; split; [apply dbl_bpow; lia|split; [cbn; lra|apply bpow_le; lia]]|lra]|split; [apply (dbl_Z 10); lia|lra]|apply (dbl_Z 25); lia|lra|lra]. }
  split; [exact RS|]. split; [|split; [lra|right; apply Rle_trans with (bpow radix2 0); [apply bpow_le; lia|cbn; lra]]].
  assert (G : In (rnd (IZR 256 * / 128)) (fp_rgrid 1 20 (/ 128))) by (apply C94_rgrid_complete; [apply RS|lra|lra|cbn; lra]). intros K. rewrite K in G. exact G.
Qed.
Print Assumptions C95_limits_partial.
Print Assumptions C95_getRDF_memory_partial.
Print Assumptions C95_limits_refuted.
