(** C30-C33, C61-C66: grids, peaks, stash, results, transforms and baseline of PDFCalculator. *)
From Coq Require Import String.
From Verif Require Import RBase AList Trig Sums PdfGrid PdfSpec PdfProofs PdfMain PdfFft PdfResult PdfMask PdfFinal PdfExample.
From Verif Require Masks MasksSpec.
Open Scope R_scope.

(** *** C30 *)
(** After any sequence of calls the r-grid is the sequence of exactly the multiples of rstep in [rmin - eps, rmax). *)
Theorem C30_rgrid ops pk sf env e : exists x, prun ops (newPDF pk sf env e) = Ok x /\
  multiples (c_rstep (cf x)) (fun n => c_rmin (cf x) - SQRT_DOUBLE_EPS <= IZR n * c_rstep (cf x) < c_rmax (cf x)) (getRgrid x).
Proof. exact (rgrid_reachable ops pk sf env e). Qed.
Print Assumptions C30_rgrid.
(** After an evaluation the extended grid is the multiples of rstep in [rmin - e, rmax + e) that are not negative, e being
    the width of the termination ripples unless limited by the maximum extension; the r-grid lies inside the extended grid
    and this inside the limits of the bond generator. *)
Theorem C30_nested_ranges ops pk sf env e o s : evaluates o s -> exists x, prun (ops ++ [o]) (newPDF pk sf env e) = Ok x /\ str x = s /\
  (getRgrid x <> [] -> exists e,
     0 <= e <= c_maxext (cf x) /\ e <= extFromTerminationRipples (cf x) /\
     (extFromTerminationRipples (cf x) + extFromPeakTails (cf x) s <= c_maxext (cf x) -> e = extFromTerminationRipples (cf x)) /\
     multiples (c_rstep (cf x)) (fun n => (0 <= n)%Z /\ c_rmin (cf x) - e - SQRT_DOUBLE_EPS <= IZR n * c_rstep (cf x) < c_rmax (cf x) + e)
       (getExtendedRgrid x)) /\
  (forall r, In r (getRgrid x) -> In r (getExtendedRgrid x)) /\
  (forall r, In r (getExtendedRgrid x) -> 0 <= r /\ fst (bondLimits x) <= r < snd (bondLimits x)).
Proof. exact (ext_reachable ops pk sf env e o s). Qed.
Print Assumptions C30_nested_ranges.
(** Exactly how far the range is extended: by six periods of the termination ripples for the results, and further by the tails of
    the widest peak for the pairs, both reduced in proportion when their sum exceeds the maximum extension. *)
Theorem C30_extension ops pk sf env e o s : evaluates o s -> exists x, prun (ops ++ [o]) (newPDF pk sf env e) = Ok x /\ str x = s /\
  (getRgrid x <> [] -> let c := cf x in
     multiples (c_rstep c) (fun n => (0 <= n)%Z /\ c_rmin c - ripple_part c s - SQRT_DOUBLE_EPS <= IZR n * c_rstep c < c_rmax c + ripple_part c s) (getExtendedRgrid x) /\
     forall n, (0 <= n)%Z -> (fst (bondLimits x) <= IZR n * c_rstep c <-> c_rmin c - whole_extension c s - SQRT_DOUBLE_EPS <= IZR n * c_rstep c) /\
       (IZR n * c_rstep c < snd (bondLimits x) <-> IZR n * c_rstep c < c_rmax c + whole_extension c s)).
Proof. exact (extension_reachable ops pk sf env e o s). Qed.
Print Assumptions C30_extension.
Example C30_nonvacuous : evaluates (PSetStructure ex_stru) ex_stru /\ In (11 / 10) (getRgrid ex_start).
Proof.
  split; [now left|]. unfold getRgrid. cbn [ex_start newPDF cf setStructure resetValue c_rmin c_rmax c_rstep].
  apply In_grid. exists 110%Z. split; [lra|]. split; [|apply rmaxSteps_lt; lra]. apply rminSteps_le; unfold SQRT_DOUBLE_EPS; lra.
Qed.

(** *** C31 *)
(** In every state and for every pair, addPairContribution stays inside the value array, adds the peak at every grid point
    in the cutoff bounds and at the last one below them, and changes nothing else. *)
Theorem C31_peak_inside_array ops pk sf env e b z : exists x v, prun ops (newPDF pk sf env e) = Ok x /\ addPairContribution x b z = Ok v /\
  length v = length (mvalue x) /\
  forall k, (k < length v)%nat -> let r := IZR (calclo (lim x) + Z.of_nat k) * c_rstep (cf x) in
    (peak_lo (cf x) b - c_rstep (cf x) < r <= peak_hi (cf x) b ->
      nth k v 0 = nth k (mvalue x) 0 + sfSite x (b_s0 b) * sfSite x (b_s1 b) * b_mult b * IZR z *
        (pkf (c_pk (cf x)) (r - b_dist b) (b_fwhm b) * ((r - b_dist b) / b_dist b + 1))) /\
    (~ peak_lo (cf x) b - c_rstep (cf x) < r <= peak_hi (cf x) b -> nth k v 0 = nth k (mvalue x) 0).
Proof. exact (add_reachable ops pk sf env e b z). Qed.
Print Assumptions C31_peak_inside_array.

(** *** C32 *)
(** Stash, change of structure and restore keep the values at their r and zero-fill the rest, for any old and new range. *)
Theorem C32_restore_same_r ops pk sf env e s : exists x, prun ops (newPDF pk sf env e) = Ok x /\
  let y := restorePartialValue (setStructure s (stashPartialValue x)) in
  Z.of_nat (length (mvalue y)) = (calchi (lim y) - calclo (lim y))%Z /\
  forall n, (calclo (lim y) <= n < calchi (lim y))%Z ->
    value_at y n = if ((calclo (lim x) <=? n) && (n <? calchi (lim x)))%Z then value_at x n else 0.
Proof. exact (restore_reachable ops pk sf env e s). Qed.
Print Assumptions C32_restore_same_r.
Example C32_nonvacuous : exists y, prun [PEval ex_stru ex_pairs] ex_start = Ok y /\ wf y.
Proof. exact (prun_ok [PEval ex_stru ex_pairs] ex_box ex_sf [] ex_none). Qed.

(** *** C33 *)
(** After any history that ends with a new structure, an evaluation or an update every result is defined and has the length
    of its grid; for the PDF with the FFT the range must stay below 10^8. *)
Theorem C33_result_lengths_partial ops pk sf env e o s : evaluates o s -> exists x, prun (ops ++ [o]) (newPDF pk sf env e) = Ok x /\
  (exists rdf per f, getRDF x = Ok rdf /\ getRDFperR x = Ok per /\ getF x = Ok f /\
    length rdf = length (getRgrid x) /\ length per = length (getRgrid x) /\ length f = length (getQgrid x)) /\
  (c_rmax (cf x) + c_maxext (cf x) + c_rstep (cf x) <= 100000000 ->
    exists pdf, getPDF x = Ok pdf /\ length pdf = length (getRgrid x)).
Proof. exact (lengths ops pk sf env e o s). Qed.
Print Assumptions C33_result_lengths_partial.
(** No sequence of calls itself runs into undefined behaviour. *)
Theorem C33_calls_defined ops pk sf env e : exists x, prun ops (newPDF pk sf env e) = Ok x.
Proof. destruct (prun_ok ops pk sf env e) as (x & H & _). now exists x. Qed.
Print Assumptions C33_calls_defined.
(** Missing: a result requested after lowering rmin without a new evaluation erases from begin() + a negative number. *)
Theorem C33_lower_rmin_refuted : exists ops x, prun ops ex_start = Ok x /\ getRDF x = UB.
Proof. exact (ex_intro _ _ stale_rmin). Qed.
Print Assumptions C33_lower_rmin_refuted.
(** Missing: with a Q-step under the tolerance the steps below qmin are -1 and std::fill runs backwards. *)
Theorem C33_long_range_refuted : exists ops x, prun (ops ++ [PSetStructure ex_stru]) ex_start = Ok x /\ getPDF x = UB.
Proof. exact (ex_intro _ [PRmax 300000000; PRstep 10000000; PQmax (/ 10000000)] big_range). Qed.
Print Assumptions C33_long_range_refuted.

(** *** C61 *)
(** After any history that ends with eval(s), counting the pairs t, RDF and RDF/r are the normalised sum of peaks and F(Q) is
    the sine transform of RDF/r plus baseline. *)
Theorem C61_rdf_is_sum_of_peaks ops pk sf env e s t : pairs_ok s t ->
  exists x, prun (ops ++ [PEval s t]) (newPDF pk sf env e) = Ok x /\ str x = s /\ presents x s (peaks (cf x) s t).
Proof.
  intros H. destruct (history_shows ops pk sf env e s t [] H I) as (x & E & S). exists x. split; [exact E|].
  split; [apply (sh_str _ _ _ S)|apply shows_presents, S].
Qed.
Print Assumptions C61_rdf_is_sum_of_peaks.
Example C61_nonvacuous : pairs_ok ex_stru ex_pairs /\ peaks (cf ex_start) ex_stru ex_pairs 2 = 2 * (6 * (8 * (1 / 2)) * (/ (2 * (4 / 100)))).
Proof. exact (conj ex_pairs_ok ex_peak). Qed.

(** *** C62 *)
(** A pair whose peak has a point of the extended grid in its bounds lies within the limits of the bond generator, except that
    it may be less than one rstep below the lower limit. *)
Theorem C62_pairs_complete_partial ops pk sf env e o s b r : evaluates o s -> exists x, prun (ops ++ [o]) (newPDF pk sf env e) = Ok x /\
  (extFromTerminationRipples (cf x) + extFromPeakTails (cf x) s <= c_maxext (cf x) -> tails_bounded (cf x) s b -> 0 <= b_dist b ->
   In r (getExtendedRgrid x) -> inside (cf x) b r ->
   fst (bondLimits x) - c_rstep (cf x) - SQRT_DOUBLE_EPS < b_dist b <= snd (bondLimits x)).
Proof. exact (pairs_complete ops pk sf env e o s b r). Qed.
Print Assumptions C62_pairs_complete_partial.
(** Missing: the lower limit is rounded up to the grid, so such a pair can be below it and is not counted. *)
Theorem C62_pair_missed_refuted : ~ (forall ops o s x b r, evaluates o s -> prun (ops ++ [o]) ex_start = Ok x ->
  extFromTerminationRipples (cf x) + extFromPeakTails (cf x) s <= c_maxext (cf x) -> tails_bounded (cf x) s b -> 0 <= b_dist b ->
  In r (getRgrid x) -> inside (cf x) b r -> fst (bondLimits x) <= b_dist b).
Proof.
  intros H. destruct missed_pair as (x & E & H1 & H2 & H3 & H4 & H5).
  specialize (H [PRmin (105 / 100); PRstep (1 / 10)] (PSetStructure ex_stru) ex_stru x _ _ (or_introl eq_refl) E H1 H2 ltac:(cbn; lra) H3 H4). lra.
Qed.
Print Assumptions C62_pair_missed_refuted.

(** *** C63 *)
(** fftgtof of an array on a grid starting at p*dr is the sine transform, and fftftog gives the array back, zero-padded; no
    access is out of bounds. *)
Theorem C63_transforms g dr p : 0 < dr -> (0 <= p)%Z -> g <> [] ->
  exists n f h, (p + Z.of_nat (length g) <= Z.of_nat n)%Z /\
  fftgtof g dr (IZR p * dr) = Ok f /\ length f = n /\
  (let dq := PI / (INR n * dr) in
   (forall i, (i < n)%nat -> nth i f 0 = dr * sumf (fun k => nth k g 0 * sin (INR i * dq * ((IZR p + INR k) * dr))) (seq 0 (length g))) /\
   fftftog f dq 0 = Ok h /\ length h = n /\ nth 0 h 0 = 0 /\
   forall m, (0 < m < n)%nat ->
     nth m h 0 = if ((p <=? Z.of_nat m) && (Z.of_nat m <? p + Z.of_nat (length g)))%Z then nth (m - Z.to_nat p) g 0 else 0).
Proof. exact (transform_roundtrip g dr p). Qed.
Print Assumptions C63_transforms.
(** The start of the grid is rounded to its nearest multiple of the step, so an error below half a step (such as the rounding error in
    rmin = p * rstep) makes no difference. *)
Theorem C63_start_rounded g dr p rmin : 0 < dr -> (0 <= p)%Z -> Rabs (rmin - IZR p * dr) < dr / 2 ->
  fftgtof g dr rmin = fftgtof g dr (IZR p * dr) /\ fftftog g dr rmin = fftftog g dr (IZR p * dr).
Proof.
  intros Hd Hp H. assert (E : cround (rmin / dr) = cround (IZR p * dr / dr)).
  { replace (IZR p * dr / dr) with (IZR p) by (field; lra). rewrite cround_IZR. unfold cround. set (t := rmin / dr).
    assert (Et : rmin = t * dr) by (unfold t; field; lra). rewrite Et in H.
    assert (Ht : Rabs (t - IZR p) < / 2).
    { apply (Rmult_lt_reg_r dr); [exact Hd|]. replace (/ 2 * dr) with (dr / 2) by field.
      replace (Rabs (t - IZR p) * dr) with (Rabs (t * dr - IZR p * dr)); [exact H|].
      rewrite <- (Rabs_pos_eq dr) at 3 by lra. rewrite <- Rabs_mult. f_equal. ring. }
    apply Rabs_def2 in Ht. apply Z.le_antisymm.
    - apply Z.lt_succ_r, Rfloor_lt. rewrite succ_IZR. lra.
    - apply Rfloor_le. lra. }
  assert (F : fftgtof g dr rmin = fftgtof g dr (IZR p * dr)) by (unfold fftgtof; now rewrite E).
  split; [exact F|]. unfold fftftog. now rewrite F.
Qed.
Print Assumptions C63_start_rounded.
Example C63_nonvacuous_start : Rabs (31 / 100 - IZR 3 * (1 / 10)) < 1 / 10 / 2.
Proof. apply Rabs_def1; lra. Qed.
Example C63_nonvacuous : 0 < 1 / 10 /\ (0 <= 3)%Z /\ [1; 2; 5] <> [].
Proof. split; [lra|split; [lia|discriminate]]. Qed.

(** *** C64 *)
(** The PDF is RDF/r plus baseline, or what remains of it after removing everything outside qmin and qmax, times the envelopes. *)
Theorem C64_pdf_band_limited ops pk sf env e s t : pairs_ok s t ->
  exists x, prun (ops ++ [PEval s t]) (newPDF pk sf env e) = Ok x /\ str x = s /\
  (c_rmax (cf x) + c_maxext (cf x) + c_rstep (cf x) <= 100000000 -> presents_pdf x s (peaks (cf x) s t)).
Proof.
  intros H. destruct (history_shows ops pk sf env e s t [] H I) as (x & E & S). exists x. split; [exact E|].
  split; [apply (sh_str _ _ _ S)|apply shows_pdf, S].
Qed.
Print Assumptions C64_pdf_band_limited.
Example C64_nonvacuous : pairs_ok ex_stru ex_pairs /\ c_rmax (cf ex_start) + c_maxext (cf ex_start) + c_rstep (cf ex_start) <= 100000000.
Proof. split; [exact ex_pairs_ok|]. cbn. lra. Qed.

(** *** C65 *)
(** With the default baseline the slope is -4 pi rho0 times the fraction of pairs that are not masked out, for every mask a
    user can set up. *)
Theorem C65_baseline_slope ops pk sf env e o s m : evaluates o s -> exists x, prun (ops ++ [o]) (newPDF pk sf env e) = Ok x /\
  (MasksSpec.reach m -> c_dflt (cf x) = Masks.dflt m -> c_inv (cf x) = Masks.invp m -> 0 < tot_occ s ->
   forall k, base x = Linear k -> k = linear_slope (fun i j => Masks.getPairMask m (Z.of_nat i) (Z.of_nat j)) s).
Proof. exact (baseline_reachable ops pk sf env e o s m). Qed.
Print Assumptions C65_baseline_slope.
(** No call but the replacement of the baseline changes its kind. *)
Theorem C65_baseline_stays_linear ops pk sf env e : (forall pk' sf' env' d inv b, ~ In (PObjects pk' sf' env' d inv b) ops) ->
  exists x k, prun ops (newPDF pk sf env e) = Ok x /\ base x = Linear k.
Proof. exact (linear_kept ops pk sf env e). Qed.
Print Assumptions C65_baseline_stays_linear.
(** Hence the baselines of a partial PDF and of its complement add up to that of the full PDF. *)
Theorem C65_partial_slopes_add mask s : 0 < tot_occ s ->
  linear_slope mask s + linear_slope (fun i j => negb (mask i j)) s = -4 * PI * p_numdens s.
Proof. exact (slopes_add mask s). Qed.
Print Assumptions C65_partial_slopes_add.
Example C65_nonvacuous : 0 < tot_occ ex_stru /\ MasksSpec.reach Masks.pq0.
Proof. split; [|constructor]. unfold tot_occ. cbn. lra. Qed.

(** *** C66 *)
(** After any history, an evaluation and any number of fast updates, all results are those of the tracked sum of peaks. *)
Theorem C66_fast_updates ops pk sf env e s t us : pairs_ok s t -> updates_ok s us ->
  exists x, prun (ops ++ PEval s t :: update_ops us) (newPDF pk sf env e) = Ok x /\
  let (s1, P) := tracked (cf x) s (peaks (cf x) s t) us in
  str x = s1 /\ presents x s1 P /\
  (c_rmax (cf x) + c_maxext (cf x) + c_rstep (cf x) <= 100000000 -> presents_pdf x s1 P).
Proof.
  intros H Hu. destruct (history_shows ops pk sf env e s t us H Hu) as (x & E & S). exists x. split; [exact E|].
  destruct (tracked _ _ _ _) as [s1 P]. cbn [fst snd] in S.
  split; [apply (sh_str _ _ _ S)|split; [apply shows_presents, S|apply shows_pdf, S]].
Qed.
Print Assumptions C66_fast_updates.
(** If the tracked peaks are those of the pairs t' of the last structure on the grid, a complete evaluation of it gives the same
    results. *)
Theorem C66_fast_equals_complete ops pk sf env e s t us t' : pairs_ok s t -> updates_ok s us ->
  exists x, prun (ops ++ PEval s t :: update_ops us) (newPDF pk sf env e) = Ok x /\
  let s1 := fst (tracked (cf x) s (peaks (cf x) s t) us) in let P := snd (tracked (cf x) s (peaks (cf x) s t) us) in
  pairs_ok s1 t' ->
  exists y, prun (ops ++ [PEval s1 t']) (newPDF pk sf env e) = Ok y /\
  ((forall r, In r (getExtendedRgrid x) -> P r = peaks (cf x) s1 t' r) ->
   getRgrid x = getRgrid y /\ getQgrid x = getQgrid y /\ getRDF x = getRDF y /\ getRDFperR x = getRDFperR y /\ getF x = getF y /\
   (c_rmax (cf x) + c_maxext (cf x) + c_rstep (cf x) <= 100000000 -> getPDF x = getPDF y)).
Proof. exact (fast_equals ops pk sf env e s t us t'). Qed.
Print Assumptions C66_fast_equals_complete.
Example C66_nonvacuous : pairs_ok ex_stru ex_pairs /\ updates_ok ex_stru [ex_update].
Proof. exact (conj ex_pairs_ok ex_updates_ok). Qed.
