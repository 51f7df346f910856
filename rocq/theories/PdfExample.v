(** Statements for PDFCalculator assembled from the lemmas, a concrete structure and counterexamples. *)
From Coq Require Import String.
From Verif Require Import RBase AList Trig Sums PdfGrid PdfSpec PdfProofs PdfMain PdfFft PdfResult PdfMask PdfFinal.
From Verif Require Masks MasksSpec.
Open Scope R_scope.

(** ** Grids *)
Lemma rgrid_multiples x : settings_ok (cf x) ->
  multiples (c_rstep (cf x)) (fun n => c_rmin (cf x) - SQRT_DOUBLE_EPS <= IZR n * c_rstep (cf x) < c_rmax (cf x)) (getRgrid x).
Proof.
  intros (_ & _ & Hd & _). pose proof eps_pos. eexists _, _. split; [reflexivity|]. intros n.
  rewrite rminSteps_le, rmaxSteps_lt by (auto; lra). tauto.
Qed.
Lemma rgrid_reachable ops pk sf env e : exists x, prun ops (newPDF pk sf env e) = Ok x /\
  multiples (c_rstep (cf x)) (fun n => c_rmin (cf x) - SQRT_DOUBLE_EPS <= IZR n * c_rstep (cf x) < c_rmax (cf x)) (getRgrid x).
Proof. destruct (prun_ok ops pk sf env e) as (x & E & W). exists x. split; [assumption|]. apply rgrid_multiples, W. Qed.
Lemma In_grid a b dr r : In r (grid a b dr) <-> exists n, r = IZR n * dr /\ (a <= n < b)%Z.
Proof.
  unfold grid. rewrite in_map_iff. split; intros (n & H1 & H2); exists n; rewrite zrange_In in *; auto.
Qed.
Lemma ext_limits c s : settings_ok c -> nonempty_range c -> exists e E,
  0 <= e <= E /\ E <= c_maxext c /\ e <= extFromTerminationRipples c /\ E <= extFromTerminationRipples c + extFromPeakTails c s /\
  (extFromTerminationRipples c + extFromPeakTails c s <= c_maxext c ->
     e = extFromTerminationRipples c /\ E = extFromTerminationRipples c + extFromPeakTails c s) /\
  cacheRlimitsData c s = {| extmin := Z.max 0 (rminSteps (c_rmin c - e) (c_rstep c)); extmax := rmaxSteps (c_rmax c + e) (c_rstep c);
    calclo := Z.max 0 (rminSteps (c_rmin c - E) (c_rstep c)); calchi := rmaxSteps (c_rmax c + E) (c_rstep c) |}.
Proof.
  intros H Hne. exists (fst (ext_pair c s)), (snd (ext_pair c s)). pose proof (ext_pair_ok c s H).
  pose proof (ext_core c s H) as [E1 E2]. assert (E3 : core_ext c <= extFromTerminationRipples c) by apply Rmin_l.
  split; [assumption|]. split; [|split; [lra|split; [|split]]].
  - unfold ext_pair. destruct (Rltb _ _) eqn:E; cbn [snd]; rb; lra.
  - unfold ext_pair. destruct (Rltb _ _) eqn:E; cbn [snd]; rb; lra.
  - intros Hc. unfold ext_pair. destruct (Rltb _ _) eqn:E; cbn [fst snd]; rb; [lra|auto].
  - rewrite cacheRlimits_eq. unfold nonempty_range in Hne.
    destruct (Z.leb_spec (rmaxSteps (c_rmax c) (c_rstep c)) (rminSteps (c_rmin c) (c_rstep c))); [lia|reflexivity].
Qed.
Lemma ext_reachable ops pk sf env e o s : evaluates o s -> exists x, prun (ops ++ [o]) (newPDF pk sf env e) = Ok x /\ str x = s /\
  (getRgrid x <> [] -> exists e,
     0 <= e <= c_maxext (cf x) /\ e <= extFromTerminationRipples (cf x) /\
     (extFromTerminationRipples (cf x) + extFromPeakTails (cf x) s <= c_maxext (cf x) -> e = extFromTerminationRipples (cf x)) /\
     multiples (c_rstep (cf x)) (fun n => (0 <= n)%Z /\ c_rmin (cf x) - e - SQRT_DOUBLE_EPS <= IZR n * c_rstep (cf x) < c_rmax (cf x) + e)
       (getExtendedRgrid x)) /\
  (forall r, In r (getRgrid x) -> In r (getExtendedRgrid x)) /\
  (forall r, In r (getExtendedRgrid x) -> 0 <= r /\ fst (bondLimits x) <= r < snd (bondLimits x)).
Proof.
  intros Ho. destruct (prun_ok (ops ++ [o]) pk sf env e) as (x & E & W). exists x. split; [assumption|].
  destruct (prun_app ops o _ x (new_wf pk sf env e) E) as (z & Wz & Ez & Hz).
  destruct (eval_current o s z x Wz Ho Hz) as (_ & C & Es & _). split; [assumption|].
  pose proof (wf_conf x W) as Hc. pose proof eps_pos. assert (Hd : SQRT_DOUBLE_EPS < c_rstep (cf x)) by apply Hc.
  unfold current in C. rewrite Es in C. split; [|split].
  - intros Hg. assert (Hne : nonempty_range (cf x)).
    { destruct (Z_lt_dec (rminSteps (c_rmin (cf x)) (c_rstep (cf x))) (rmaxSteps (c_rmax (cf x)) (c_rstep (cf x)))) as [|n]; [assumption|].
      exfalso. apply Hg. unfold getRgrid, grid. rewrite zrange_nil by lia. reflexivity. }
    destruct (ext_limits (cf x) s Hc Hne) as (e' & E' & H1 & H2 & H3 & H4 & H5 & H6). exists e'.
    split; [lra|split; [assumption|split; [intros K; apply H5, K|]]].
    unfold getExtendedRgrid. rewrite C, H6. cbn [extmin extmax]. eexists _, _. split; [reflexivity|]. intros n.
    rewrite Z.max_lub_iff, rminSteps_le, rmaxSteps_lt by lra. tauto.
  - intros r. unfold getRgrid, getExtendedRgrid. rewrite !In_grid. intros (n & -> & Hn). exists n. split; [reflexivity|].
    pose proof (limits_inside (cf x) s Hc) as L. cbv zeta in L. rewrite <- C in L. unfold nonempty_range in L. lia.
  - intros r. unfold getExtendedRgrid, bondLimits. rewrite In_grid. intros (n & -> & Hn). cbn [fst snd].
    pose proof (wf_lims x W) as L. unfold lims_ok in L. assert (Hd0 : 0 < c_rstep (cf x)) by lra.
    assert (0 <= IZR n) by (apply (IZR_le 0); lia). assert (IZR (calclo (lim x)) <= IZR n) by (apply IZR_le; lia).
    assert (IZR n < IZR (calchi (lim x))) by (apply IZR_lt; lia). nra.
Qed.

Lemma ripple_is c : extFromTerminationRipples c = ripple_width c.
Proof.
  unfold extFromTerminationRipples, ripple_width, getQmax, eps_gt, eps_lt. cbv zeta. rewrite Rplus_0_l.
  destruct (Rlt_dec _ _) as [H|H]; [|replace (Rltb SQRT_DOUBLE_EPS (Rmin (c_qmax c) (PI / c_rstep c))) with false by (symmetry; apply Rltb_false; lra); reflexivity].
  replace (Rltb SQRT_DOUBLE_EPS (Rmin (c_qmax c) (PI / c_rstep c))) with true by (symmetry; now apply Rltb_true).
  destruct (Rlt_dec _ _) as [K|K].
  - replace (Rltb (Rmin (c_qmax c) (PI / c_rstep c)) (PI / c_rstep c - SQRT_DOUBLE_EPS)) with true by (symmetry; now apply Rltb_true). cbn [andb]. unfold Rdiv. ring.
  - replace (Rltb (Rmin (c_qmax c) (PI / c_rstep c)) (PI / c_rstep c - SQRT_DOUBLE_EPS)) with false by (symmetry; apply Rltb_false; lra). reflexivity.
Qed.
Lemma ext_exact c s : nonempty_range c -> let e := ripple_part c s in let E := whole_extension c s in
  cacheRlimitsData c s = {| extmin := Z.max 0 (rminSteps (c_rmin c - e) (c_rstep c)); extmax := rmaxSteps (c_rmax c + e) (c_rstep c);
    calclo := Z.max 0 (rminSteps (c_rmin c - E) (c_rstep c)); calchi := rmaxSteps (c_rmax c + E) (c_rstep c) |}.
Proof.
  intros Hne e E. unfold cacheRlimitsData. unfold nonempty_range in Hne.
  destruct (Z.leb_spec (rmaxSteps (c_rmax c) (c_rstep c)) (rminSteps (c_rmin c) (c_rstep c))); [lia|]. rewrite ripple_is. change (extFromPeakTails c s) with (tail_width c s).
  unfold e, E, ripple_part, whole_extension. cbv zeta. destruct (Rle_dec _ _) as [K|K].
  - replace (Rltb (c_maxext c) (ripple_width c + tail_width c s)) with false by (symmetry; now apply Rltb_false). now rewrite Rmin_left.
  - replace (Rltb (c_maxext c) (ripple_width c + tail_width c s)) with true by (symmetry; apply Rltb_true; lra). rewrite Rmin_right by lra. reflexivity.
Qed.
Lemma extension_reachable ops pk sf env e o s : evaluates o s -> exists x, prun (ops ++ [o]) (newPDF pk sf env e) = Ok x /\ str x = s /\
  (getRgrid x <> [] -> let c := cf x in
     multiples (c_rstep c) (fun n => (0 <= n)%Z /\ c_rmin c - ripple_part c s - SQRT_DOUBLE_EPS <= IZR n * c_rstep c < c_rmax c + ripple_part c s) (getExtendedRgrid x) /\
     forall n, (0 <= n)%Z -> (fst (bondLimits x) <= IZR n * c_rstep c <-> c_rmin c - whole_extension c s - SQRT_DOUBLE_EPS <= IZR n * c_rstep c) /\
       (IZR n * c_rstep c < snd (bondLimits x) <-> IZR n * c_rstep c < c_rmax c + whole_extension c s)).
Proof.
  intros Ho. destruct (prun_ok (ops ++ [o]) pk sf env e) as (x & E & W). exists x. split; [assumption|].
  destruct (prun_app ops o _ x (new_wf pk sf env e) E) as (z & Wz & Ez & Hz).
  destruct (eval_current o s z x Wz Ho Hz) as (_ & C & Es & _). split; [assumption|].
  pose proof (wf_conf x W) as Hc. pose proof eps_pos. assert (Hd : SQRT_DOUBLE_EPS < c_rstep (cf x)) by apply Hc.
  unfold current in C. rewrite Es in C. intros Hg c. assert (Hne : nonempty_range (cf x)).
  { destruct (Z_lt_dec (rminSteps (c_rmin (cf x)) (c_rstep (cf x))) (rmaxSteps (c_rmax (cf x)) (c_rstep (cf x)))) as [|n]; [assumption|].
    exfalso. apply Hg. unfold getRgrid, grid. rewrite zrange_nil by lia. reflexivity. }
  pose proof (ext_exact (cf x) s Hne) as H6. cbv zeta in H6. split.
  - unfold getExtendedRgrid. rewrite C, H6. cbn [extmin extmax]. eexists _, _. split; [reflexivity|]. intros n. unfold c.
    rewrite Z.max_lub_iff, rminSteps_le, rmaxSteps_lt by lra. tauto.
  - intros n Hn. unfold bondLimits. rewrite C, H6. cbn [calclo calchi fst snd]. fold c.
    assert (Hd0 : 0 < c_rstep c) by (unfold c; lra). split.
    + rewrite <- rminSteps_le by (unfold c; lra). split; intros K.
      * assert (L : IZR (Z.max 0 (rminSteps (c_rmin c - whole_extension c s) (c_rstep c))) <= IZR n) by (apply (Rmult_le_reg_r (c_rstep c)); lra). apply le_IZR in L. lia.
      * apply Rmult_le_compat_r; [lra|]. apply IZR_le. lia.
    + rewrite <- (rmaxSteps_lt (c_rmax c + whole_extension c s)) by (unfold c; lra). split; intros K.
      * apply lt_IZR. apply (Rmult_lt_reg_r (c_rstep c)); lra.
      * apply Rmult_lt_compat_r; [lra|]. now apply IZR_lt.
Qed.

(** ** Peaks *)
Lemma add_reachable ops pk sf env e b z : exists x v, prun ops (newPDF pk sf env e) = Ok x /\ addPairContribution x b z = Ok v /\
  length v = length (mvalue x) /\
  forall k, (k < length v)%nat -> let r := IZR (calclo (lim x) + Z.of_nat k) * c_rstep (cf x) in
    (peak_lo (cf x) b - c_rstep (cf x) < r <= peak_hi (cf x) b ->
      nth k v 0 = nth k (mvalue x) 0 + sfSite x (b_s0 b) * sfSite x (b_s1 b) * b_mult b * IZR z *
        (pkf (c_pk (cf x)) (r - b_dist b) (b_fwhm b) * ((r - b_dist b) / b_dist b + 1))) /\
    (~ peak_lo (cf x) b - c_rstep (cf x) < r <= peak_hi (cf x) b -> nth k v 0 = nth k (mvalue x) 0).
Proof.
  destruct (prun_ok ops pk sf env e) as (x & E & W). destruct (addPair_spec x b z W) as (v & Ev & Lv & Hv).
  exists x, v. split; [assumption|split; [assumption|split; [assumption|]]]. intros k Hk. cbv zeta.
  rewrite (Hv k) by lia. fold (rpoint x k). unfold contribution, reached. 
  destruct (Rltb _ _) eqn:E1; destruct (Rleb _ _) eqn:E2; cbn [andb]; rb; split; intros H; try reflexivity; try ring; try (exfalso; apply H; split; assumption);
    destruct H; lra.
Qed.

(** ** Stash *)
Lemma restore_reachable ops pk sf env e s : exists x, prun ops (newPDF pk sf env e) = Ok x /\
  let y := restorePartialValue (setStructure s (stashPartialValue x)) in
  Z.of_nat (length (mvalue y)) = (calchi (lim y) - calclo (lim y))%Z /\
  forall n, (calclo (lim y) <= n < calchi (lim y))%Z ->
    value_at y n = if ((calclo (lim x) <=? n) && (n <? calchi (lim x)))%Z then value_at x n else 0.
Proof.
  destruct (prun_ok ops pk sf env e) as (x & E & W). exists x. split; [assumption|]. cbv zeta.
  set (x1 := setStructure s (stashPartialValue x)). destruct (wf_setStructure s (stashPartialValue x) (wf_conf x W)) as [W1 _]. fold x1 in W1.
  split; [apply (wf_len _ (wf_restore _ W1))|]. intros n Hn.
  assert (El : lim (restorePartialValue x1) = lim x1) by (unfold restorePartialValue; destruct (stashed x1); reflexivity).
  unfold value_at at 1. rewrite El in *. pose proof (wf_len x1 W1) as L1. pose proof (wf_len x W) as L. unfold countCalcPoints in *.
  rewrite restore_nth by lia. replace (stashed x1) with (mvalue x, calclo (lim x)) by reflexivity. cbn [fst snd].
  rewrite Z2Nat.id by lia. replace (calclo (lim x1) + (n - calclo (lim x1)) - calclo (lim x))%Z with (n - calclo (lim x))%Z by lia.
  replace ((0 <=? n - calclo (lim x)) && (n - calclo (lim x) <? Z.of_nat (length (mvalue x))))%Z with ((calclo (lim x) <=? n) && (n <? calchi (lim x)))%Z.
  - destruct (_ && _); [reflexivity|]. exact (value_reset s (stashPartialValue x) n).
  - rewrite L. f_equal; [destruct (Z.leb_spec (calclo (lim x)) n), (Z.leb_spec 0 (n - calclo (lim x))); auto; lia|].
    destruct (Z.ltb_spec n (calchi (lim x))), (Z.ltb_spec (n - calclo (lim x)) (calchi (lim x) - calclo (lim x))); auto; lia.
Qed.

(** ** Lengths *)
Lemma sampled x : wf x -> forall n, (extmin (lim x) <= n < extmax (lim x))%Z ->
  value_at x n = (fun r => value_at x (cround (r / c_rstep (cf x)))) (IZR n * c_rstep (cf x)).
Proof.
  intros W n _. cbn beta. pose proof eps_pos. assert (Hd : SQRT_DOUBLE_EPS < c_rstep (cf x)) by apply W.
  replace (IZR n * c_rstep (cf x) / c_rstep (cf x)) with (IZR n) by (field; lra). now rewrite cround_IZR.
Qed.
Lemma lengths ops pk sf env e o s : evaluates o s -> exists x, prun (ops ++ [o]) (newPDF pk sf env e) = Ok x /\
  (exists rdf per f, getRDF x = Ok rdf /\ getRDFperR x = Ok per /\ getF x = Ok f /\
    length rdf = length (getRgrid x) /\ length per = length (getRgrid x) /\ length f = length (getQgrid x)) /\
  (c_rmax (cf x) + c_maxext (cf x) + c_rstep (cf x) <= 100000000 ->
    exists pdf, getPDF x = Ok pdf /\ length pdf = length (getRgrid x)).
Proof.
  intros Ho. destruct (prun_ok (ops ++ [o]) pk sf env e) as (x & E & W). exists x. split; [assumption|].
  destruct (prun_app ops o _ x (new_wf pk sf env e) E) as (z & Wz & Ez & Hz).
  destruct (eval_current o s z x Wz Ho Hz) as (_ & C & Es & _).
  pose proof (sampled x W) as HV. split.
  - do 3 eexists. split; [apply (rdf_result x W C _ HV)|split; [apply (per_result x W C _ HV)|split; [apply (F_result x W C _ HV)|]]].
    rewrite !map_length. auto.
  - intros Hb. destruct (Z_le_dec (extmax (lim x)) 0) as [Z0|Z0].
    + destruct (pdf_empty x W C _ HV) as [E1 E2]; [pose proof (wf_lims x W) as L; unfold lims_ok in L; lia|].
      exists []. rewrite E1, E2. auto.
    + destruct (skipfft x) eqn:Es'.
      * eexists; split; [apply (pdf_skip x W C _ HV Es')|apply map_length].
      * eexists; split; [apply (pdf_fft x W C _ HV Es'); [lia|apply qstep_bound; auto; lia]|apply map_length].
Qed.

(** ** Baseline *)
Lemma baseline_reachable ops pk sf env e o s m : evaluates o s -> exists x, prun (ops ++ [o]) (newPDF pk sf env e) = Ok x /\
  (MasksSpec.reach m -> c_dflt (cf x) = Masks.dflt m -> c_inv (cf x) = Masks.invp m -> 0 < tot_occ s ->
   forall k, base x = Linear k -> k = linear_slope (fun i j => Masks.getPairMask m (Z.of_nat i) (Z.of_nat j)) s).
Proof.
  intros Ho. destruct (prun_ok (ops ++ [o]) pk sf env e) as (x & E & W). exists x. split; [assumption|].
  intros Hr Hd Hi Ht k Hk. destruct (prun_app ops o _ x (new_wf pk sf env e) E) as (z & Wz & Ez & Hz).
  assert (B : forall x0, base (setStructure s x0) = Linear k -> cf x0 = cf x -> k = linear_slope (fun i j => Masks.getPairMask m (Z.of_nat i) (Z.of_nat j)) s).
  { intros x0 B Ec. cbn [base setStructure resetValue] in B. rewrite Ec in B. cbn [str] in B. destruct (base x0); [|discriminate].
    assert (Bk : forall a b, Linear a = Linear b -> a = b) by (intros ? ? [= ?]; assumption). apply Bk in B. rewrite <- B. rewrite cache_totocc. destruct (Reqb 0 (tot_occ s)) eqn:E0; [apply Reqb_true in E0; lra|].
    unfold linear_slope. rewrite <- (active_eq (cf x) s m Hr Hd Hi Ht).
    cbn [cf]. field. lra. }
  destruct Ho as [->|[[t ->]|(t0 & t1 & ->)]]; cbn [pstep] in Hz.
  - destruct Hz as [[= <-]|[er [=]]]. apply (B z); auto.
  - destruct (wf_setStructure s z (wf_conf z Wz)) as [W1 _].
    destruct (addPairs_spec t _ W1) as (y & Ey & _ & S & _). rewrite Ey in Hz. destruct Hz as [[= <-]|[er [=]]].
    destruct S as (S1 & _ & _ & _ & S5 & _). apply (B z); [congruence|]. rewrite S1. reflexivity.
  - unfold fastUpdate in Hz. destruct (addPairs_spec t0 z Wz) as (y0 & Ey0 & Wy0 & S0 & _). rewrite Ey0 in Hz. cbn [bind] in Hz.
    destruct (wf_setStructure s (stashPartialValue y0) (wf_conf y0 Wy0)) as [W1 _].
    destruct (addPairs_spec t1 _ (wf_restore _ W1)) as (y & Ey & _ & S & _). rewrite Ey in Hz. destruct Hz as [[= <-]|[er [=]]].
    destruct S as (S1 & _ & _ & _ & S5 & _). apply (B (stashPartialValue y0)).
    + rewrite <- Hk, S5. unfold restorePartialValue. destruct (stashed _). reflexivity.
    + rewrite S1. unfold restorePartialValue. destruct (stashed _). reflexivity.
Qed.
Lemma linear_kept ops pk sf env e : (forall pk' sf' env' d inv b, ~ In (PObjects pk' sf' env' d inv b) ops) ->
  exists x k, prun ops (newPDF pk sf env e) = Ok x /\ base x = Linear k.
Proof.
  intros H. destruct (prun_ok ops pk sf env e) as (x & E & W).
  cut (exists k, base x = Linear k); [intros [k Hk]; eauto|].
  assert (G : forall ops0 x0 y, (forall pk' sf' env' d inv b, ~ In (PObjects pk' sf' env' d inv b) ops0) -> wf x0 ->
     (exists k, base x0 = Linear k) -> prun ops0 x0 = Ok y -> exists k, base y = Linear k).
  { clear. induction ops0 as [|o ops0 IH]; intros x0 y Hno W [k Hk] E; [injection E as <-; eauto|].
    unfold prun in E. cbn [fold_left] in E. destruct (pstep_wf o x0 W) as (y1 & Hy & Wy).
    assert (E1 : prun ops0 y1 = Ok y) by (destruct Hy as [Hy|(er & Hy & ->)]; rewrite Hy in E; exact E).
    apply (IH y1 y); auto; [intros; intros K; eapply Hno; right; exact K|].
    assert (I : forall c, exists k', base (initialUpdate (set_conf x0 c)) = Linear k').
    { intros c. unfold initialUpdate. destruct (p_empty _); cbn [base resetValue set_conf]; rewrite Hk; eauto. }
    destruct Hy as [Hy|(er & _ & ->)]; [|eauto].
    destruct o as [r|r|r|q|q|mx|pk sf env d inv b|s|s t|t0 s t1]; cbn [pstep] in Hy.
    - unfold setRmin in Hy. destruct (Rltb _ _); [discriminate|]. injection Hy as <-. cbn. eauto.
    - unfold setRmax in Hy. destruct (Rltb _ _); [discriminate|]. injection Hy as <-. apply I.
    - unfold setRstep in Hy. destruct (negb _); [discriminate|]. injection Hy as <-. apply I.
    - unfold setQmin in Hy. destruct (Rltb _ _); [discriminate|]. injection Hy as <-. cbn. eauto.
    - unfold setQmax in Hy. destruct (Rltb q 0); [discriminate|]. injection Hy as <-. apply I.
    - unfold setMaxExtension in Hy. destruct (Rltb _ _); [discriminate|]. injection Hy as <-. cbn. eauto.
    - exfalso. eapply Hno. left. reflexivity.
    - injection Hy as <-. cbn [base setStructure resetValue]. rewrite Hk. eauto.
    - destruct (wf_setStructure s x0 (wf_conf x0 W)) as [W1 _].
      destruct (addPairs_spec t _ W1) as (z & Ez & _ & S & _). rewrite Ez in Hy. injection Hy as <-.
      destruct S as (_ & _ & _ & _ & S5 & _). rewrite S5. cbn [base setStructure resetValue]. rewrite Hk. eauto.
    - unfold fastUpdate in Hy. destruct (addPairs_spec t0 x0 W) as (y0 & Ey0 & Wy0 & S0 & _). rewrite Ey0 in Hy. cbn [bind] in Hy.
      destruct (wf_setStructure s (stashPartialValue y0) (wf_conf y0 Wy0)) as [W1 _].
      destruct (addPairs_spec t1 _ (wf_restore _ W1)) as (z & Ez & _ & S & _). rewrite Ez in Hy. injection Hy as <-.
      destruct S as (_ & _ & _ & _ & S5 & _). rewrite S5. destruct S0 as (_ & _ & _ & _ & S05 & _).
      unfold restorePartialValue. destruct (stashed _). cbn [base setStructure resetValue stashPartialValue]. rewrite S05, Hk. eauto. }
  apply (G ops (newPDF pk sf env e) x H (new_wf pk sf env e)); [|assumption].
  unfold newPDF. cbn [base setStructure resetValue]. eauto.
Qed.
Lemma slopes_add mask s : 0 < tot_occ s ->
  linear_slope mask s + linear_slope (fun i j => negb (mask i j)) s = -4 * PI * p_numdens s.
Proof.
  intros Ht. unfold linear_slope.
  assert (A : allowed_occ mask s + allowed_occ (fun i j => negb (mask i j)) s = tot_occ s * tot_occ s).
  { rewrite <- all_pairs. unfold allowed_occ. rewrite <- sumf_plus. apply sumf_ext. intros i _. rewrite <- sumf_plus. apply sumf_ext.
    intros j _. destruct (mask i j); cbn [negb]; ring. }
  replace (allowed_occ (fun i j => negb (mask i j)) s) with (tot_occ s * tot_occ s - allowed_occ mask s) by lra. field. lra.
Qed.

(** ** Which pairs are counted *)
Lemma Rabs_def2' a b : Rabs a <= b -> - b <= a <= b.
Proof. intros H. split; [pose proof (Rle_abs (- a)) as K; rewrite Rabs_Ropp in K; lra|pose proof (Rle_abs a); lra]. Qed.
Lemma pairs_complete ops pk sf env e o s b r : evaluates o s -> exists x, prun (ops ++ [o]) (newPDF pk sf env e) = Ok x /\
  (extFromTerminationRipples (cf x) + extFromPeakTails (cf x) s <= c_maxext (cf x) -> tails_bounded (cf x) s b -> 0 <= b_dist b ->
   In r (getExtendedRgrid x) -> inside (cf x) b r ->
   fst (bondLimits x) - c_rstep (cf x) - SQRT_DOUBLE_EPS < b_dist b <= snd (bondLimits x)).
Proof.
  intros Ho. destruct (prun_ok (ops ++ [o]) pk sf env e) as (x & E & W). exists x. split; [assumption|].
  intros Hm [T1 T2] Hb Hr [I1 I2]. destruct (prun_app ops o _ x (new_wf pk sf env e) E) as (z & Wz & Ez & Hz).
  destruct (eval_current o s z x Wz Ho Hz) as (_ & C & Es & _).
  pose proof (wf_conf x W) as Hc. pose proof eps_pos. assert (Hd : SQRT_DOUBLE_EPS < c_rstep (cf x)) by apply Hc.
  unfold getExtendedRgrid in Hr. apply In_grid in Hr. destruct Hr as (n & -> & Hn).
  unfold current in C. rewrite Es in C.
  assert (Hne : nonempty_range (cf x)).
  { destruct (Z_lt_dec (rminSteps (c_rmin (cf x)) (c_rstep (cf x))) (rmaxSteps (c_rmax (cf x)) (c_rstep (cf x)))) as [|K]; [assumption|].
    rewrite C, (limits_empty _ _ K) in Hn. cbn in Hn. lia. }
  destruct (ext_limits (cf x) s Hc Hne) as (e' & E' & H1 & H2 & H3 & H4 & H5 & H6). destruct (H5 Hm) as [He HE].
  unfold bondLimits. rewrite C, H6 in *. cbn [extmin extmax calclo calchi fst snd] in *.
  unfold peak_lo, peak_hi in *. set (dr := c_rstep (cf x)) in *. assert (Hd0 : 0 < dr) by lra.
  assert (T1' := Rabs_def2' _ _ T1). assert (T2' := Rabs_def2' _ _ T2).
  destruct Hn as [Hn1 Hn2].
  assert (Hn1' : (rminSteps (c_rmin (cf x) - e') dr <= n)%Z) by lia. apply (rminSteps_le _ _ _ Hd) in Hn1'.
  apply (rmaxSteps_lt _ _ _ Hd0) in Hn2. split.
  - destruct (Z_le_dec (rminSteps (c_rmin (cf x) - E') dr) 0) as [K|K].
    + rewrite Z.max_l by lia. rewrite Rmult_0_l. lra.
    + rewrite Z.max_r by lia. set (k := rminSteps (c_rmin (cf x) - E') dr) in *.
      assert (L : ~ c_rmin (cf x) - E' - SQRT_DOUBLE_EPS <= IZR (k - 1) * dr).
      { intros L. apply (rminSteps_le _ _ _ Hd) in L. fold k in L. lia. }
      rewrite minus_IZR in L. lra.
  - set (k := rmaxSteps (c_rmax (cf x) + E') dr).
    assert (L : ~ IZR k * dr < c_rmax (cf x) + E').
    { intros L. apply (rmaxSteps_lt _ _ _ Hd0) in L. fold k in L. lia. }
    lra.
Qed.

(** ** Transforms *)
Lemma transform_roundtrip g dr p : 0 < dr -> (0 <= p)%Z -> g <> [] ->
  exists n f h, (p + Z.of_nat (length g) <= Z.of_nat n)%Z /\
  fftgtof g dr (IZR p * dr) = Ok f /\ length f = n /\
  (let dq := PI / (INR n * dr) in
   (forall i, (i < n)%nat -> nth i f 0 = dr * sumf (fun k => nth k g 0 * sin (INR i * dq * ((IZR p + INR k) * dr))) (seq 0 (length g))) /\
   fftftog f dq 0 = Ok h /\ length h = n /\ nth 0 h 0 = 0 /\
   forall m, (0 < m < n)%nat ->
     nth m h 0 = if ((p <=? Z.of_nat m) && (Z.of_nat m <? p + Z.of_nat (length g)))%Z then nth (m - Z.to_nat p) g 0 else 0).
Proof.
  intros Hd Hp Hg. assert (Lg : (0 < length g)%nat) by (destruct g; [congruence|cbn; lia]).
  set (N := padded (p + Z.of_nat (length g))). pose proof (padded_ge (p + Z.of_nat (length g)) ltac:(lia)) as HN. fold N in HN.
  set (n := Z.to_nat N). assert (EN : IZR N = INR n) by (unfold n; rewrite INR_IZR_INZ, Z2Nat.id by lia; reflexivity).
  assert (Hn : 0 < INR n) by (rewrite <- EN; apply (IZR_lt 0); lia).
  set (G := fun k => if ((p <=? Z.of_nat k) && (Z.of_nat k <? p + Z.of_nat (length g)))%Z then nth (k - Z.to_nat p) g 0 else 0).
  set (f := map (fun i => dr * sumf (fun k => nth k g 0 * sin (PI * INR i * (IZR p + INR k) / IZR N)) (seq 0 (length g))) (seq 0 n)).
  assert (Ef : f = map (dst dr G n) (seq 0 n)).
  { apply map_ext. intros i. unfold dst. f_equal.
    assert (En : n = (Z.to_nat p + (length g + (n - Z.to_nat p - length g)))%nat) by lia.
    transitivity (sumf (fun k => G k * sin (PI * INR i * INR k / INR n)) (seq 0 (Z.to_nat p)) +
      (sumf (fun k => G k * sin (PI * INR i * INR k / INR n)) (seq (Z.to_nat p) (length g)) +
       sumf (fun k => G k * sin (PI * INR i * INR k / INR n)) (seq (Z.to_nat p + length g) (n - Z.to_nat p - length g)))).
    2:{ rewrite <- !sumf_app. f_equal. transitivity (seq 0 (Z.to_nat p + (length g + (n - Z.to_nat p - length g)))); [|now rewrite <- En]. now rewrite !seq_app. }
    rewrite (sumf_zero _ (seq 0 (Z.to_nat p))), (sumf_zero _ (seq (Z.to_nat p + length g) _)).
    - rewrite Rplus_0_l, Rplus_0_r. rewrite (sumf_shift _ _ (Z.to_nat p)). apply sumf_ext. intros k Hk%in_seq. unfold G.
      destruct (Z.leb_spec p (Z.of_nat (Z.to_nat p + k))); [|lia]. destruct (Z.ltb_spec (Z.of_nat (Z.to_nat p + k)) (p + Z.of_nat (length g))); [|lia].
      cbn [andb]. replace (Z.to_nat p + k - Z.to_nat p)%nat with k by lia. rewrite plus_INR, INR_IZR, EN by assumption. reflexivity.
    - intros k Hk%in_seq. unfold G. destruct (Z.ltb_spec (Z.of_nat k) (p + Z.of_nat (length g))); [lia|]. rewrite andb_false_r. ring.
    - intros k Hk%in_seq. unfold G. destruct (Z.leb_spec p (Z.of_nat k)); [lia|]. cbn [andb]. ring. }
  set (dq := PI / (INR n * dr)). assert (Hq : 0 < dq).
  { apply Rdiv_lt_0_compat; [apply PI_RGT_0|]. now apply Rmult_lt_0_compat. }
  exists n, f, (map (fun y => y * (2 / PI)) (map (dst dq (dst dr G n) n) (seq 0 n))).
  split; [lia|]. split; [apply fftgtof_eq; auto|]. split; [unfold f; rewrite map_length, seq_length; reflexivity|]. cbv zeta. fold dq.
  split; [|split; [|split; [|split]]].
  - intros i Hi. unfold f. rewrite nth_map_seq by assumption. f_equal. apply sumf_ext. intros k _. f_equal. f_equal. rewrite EN.
    unfold dq. field. lra.
  - unfold fftftog. rewrite Ef. replace 0 with (IZR 0 * dq) at 1 by ring.
    rewrite fftgtof_eq; [|assumption|lia|destruct n as [|n']; [cbn in Hn; lra|discriminate]]. cbn [bind].
    rewrite map_length, seq_length. replace (0 + Z.of_nat n)%Z with N by lia. unfold N. rewrite padded_padded by lia. fold N. fold n.
    f_equal. f_equal. apply map_ext. intros i. match goal with |- _ = dst dq ?h n i => change (dst dq h n i) with (dq * sumf (fun k => h k * sin (PI * INR i * INR k / INR n)) (seq 0 n)) end. f_equal. apply sumf_ext. intros k Hk%in_seq.
    rewrite nth_map_seq by lia. f_equal. f_equal. rewrite EN, Rplus_0_l. reflexivity.
  - now rewrite !map_length, seq_length.
  - rewrite map_map. destruct n as [|n']; [cbn in Hn; lra|]. cbn [seq map nth]. unfold dst at 1.
    rewrite (sumf_zero _ (seq 0 (S n'))); [ring|]. intros k _. replace (PI * INR 0 * INR k / INR (S n')) with 0; [rewrite sin_0; ring|].
    change (INR 0) with 0. unfold Rdiv. ring.
  - intros m Hm. rewrite map_map, nth_map_seq by lia. rewrite dst_dst by lia. unfold dq. fold (G m). field.
    pose proof PI_RGT_0. lra.
Qed.

(** ** A concrete structure: two sites 2 apart, a box-shaped peak profile *)
Definition ex_stru : pstru := {| p_n := 2; p_type := fun i => if (i =? 0)%nat then "C"%string else "O"%string;
  p_occ := fun i => if (i =? 0)%nat then 1 else 1 / 2; p_mult := fun _ => 1%nat; p_numdens := 1 / 100;
  p_maxwidth := fun _ _ => 4 / 100; p_empty := false |}.
Definition ex_none : pstru := {| p_n := 0; p_type := fun _ => ""%string; p_occ := fun _ => 0; p_mult := fun _ => 1%nat; p_numdens := 0;
  p_maxwidth := fun _ _ => 0; p_empty := true |}.
Definition ex_box : profile := {| xboundlo := fun w => - w; xboundhi := fun w => w; pkf := fun x w => if Rleb (Rabs x) w then / (2 * w) else 0 |}.
Definition ex_sf (smbl : string) : R := if string_dec smbl "C"%string then 6 else 8.
Definition ex_bond (d : R) : pbond := {| b_s0 := 0; b_s1 := 1; b_mult := 1; b_dist := d; b_fwhm := 4 / 100 |}.
Definition ex_pairs : list (pbond * Z) := [(ex_bond 2, 2%Z)].
Definition ex_start : pdfc := newPDF ex_box ex_sf [] ex_none.
Lemma ex_pairs_ok : pairs_ok ex_stru ex_pairs.
Proof. intros b z [[= <- <-]|[]]. cbn. split; [lia|split; [lia|lra]]. Qed.
Definition ex_update : update := {| u_t0 := [(ex_bond 2, (-2)%Z)]; u_s := ex_stru; u_t1 := [(ex_bond 3, 2%Z)] |}.
Lemma ex_updates_ok : updates_ok ex_stru [ex_update].
Proof.
  cbn. split; [|split; [|exact I]]; intros b z [[= <- <-]|[]]; cbn; (split; [lia|split; [lia|lra]]).
Qed.
(** two pairs with scattering factors 6 and 8 * 1/2 at the centre of the peak *)
Lemma ex_peak : peaks (cf ex_start) ex_stru ex_pairs 2 = 2 * (6 * (8 * (1 / 2)) * (/ (2 * (4 / 100)))).
Proof.
  unfold peaks, ex_pairs. rewrite sumf_cons, sumf_nil. cbn [fst snd]. unfold peak_at, reached, peak_lo, peak_hi. cbn.
  destruct (Rltb _ _) eqn:E1; [|exfalso; rb; lra]. destruct (Rleb (2) _) eqn:E2; [|exfalso; rb; lra]. cbn.
  replace (2 - 2) with 0 by ring. rewrite Rabs_R0. destruct (Rleb 0 _) eqn:E3; [|exfalso; rb; lra].
  unfold site_sf, ex_sf. cbn. field.
Qed.

(** pairs below the lower limit of the bond generator may reach the r-grid *)
Lemma rmin_is r dr n : SQRT_DOUBLE_EPS < dr -> IZR (n - 1) * dr < r - SQRT_DOUBLE_EPS <= IZR n * dr -> rminSteps r dr = n.
Proof.
  intros Hd [H1 H2]. apply (rminSteps_le _ _ _ Hd) in H2.
  assert (~ (rminSteps r dr <= n - 1)%Z) by (rewrite (rminSteps_le _ _ _ Hd); lra). lia.
Qed.
Lemma rmax_is r dr n : 0 < dr -> IZR (n - 1) * dr < r <= IZR n * dr -> rmaxSteps r dr = n.
Proof.
  intros Hd [H1 H2]. apply (rmaxSteps_lt _ _ _ Hd) in H1.
  assert (~ (n < rmaxSteps r dr)%Z) by (rewrite (rmaxSteps_lt _ _ _ Hd); lra). lia.
Qed.
Ltac decide_R := repeat match goal with
  | |- context [Rltb ?a ?b] => let E := fresh in destruct (Rltb a b) eqn:E; [apply Rltb_true in E|apply Rltb_false in E]; try (exfalso; lra)
  | |- context [Rleb ?a ?b] => let E := fresh in destruct (Rleb a b) eqn:E; [apply Rleb_true in E|apply Rleb_false in E]; try (exfalso; lra)
  end.
Definition ex_set (rmin rmax rstep : R) : conf := upd_conf (cf ex_start) rmin rmax rstep 0 DOUBLE_MAX 10.
Lemma dmax_big : 1000000 <= DOUBLE_MAX. Proof. unfold DOUBLE_MAX. apply IZR_le. vm_compute. discriminate. Qed.
Lemma PI_lt_4 : PI <= 4. Proof. apply PI_4. Qed.
(** without a Qmax there are no termination ripples *)
Lemma ex_ripples rmin rmax rstep : 1 / 100 <= rstep -> extFromTerminationRipples (ex_set rmin rmax rstep) = 0.
Proof.
  intros H. unfold extFromTerminationRipples, getQmax, eps_lt. cbn [ex_set upd_conf c_qmax c_rstep].
  rewrite Rmin_right.
  - destruct (Rltb _ (_ - _)) eqn:E; rb; [pose proof eps_pos; lra|]. rewrite andb_false_r. reflexivity.
  - pose proof dmax_big. pose proof PI_lt_4. apply Rle_trans with (4 / rstep).
    + unfold Rdiv. apply Rmult_le_compat_r; [apply Rlt_le, Rinv_0_lt_compat|]; lra.
    + apply div_le_iff; nra.
Qed.
Lemma ex_ext rmin rmax rstep : 1 / 100 <= rstep ->
  extFromTerminationRipples (ex_set rmin rmax rstep) + extFromPeakTails (ex_set rmin rmax rstep) ex_stru = 4 / 100.
Proof.
  intros H. rewrite ex_ripples by assumption. unfold extFromPeakTails. cbn. rewrite Rabs_Ropp, Rmax_left by lra. rewrite Rabs_pos_eq by lra. lra.
Qed.
Lemma ex_ext_pair rmin rmax rstep : 1 / 100 <= rstep -> ext_pair (ex_set rmin rmax rstep) ex_stru = (0, 4 / 100).
Proof.
  intros H. unfold ext_pair. rewrite ex_ext by assumption. cbn [c_maxext ex_set upd_conf]. decide_R. now rewrite ex_ripples.
Qed.

Lemma missed_pair : exists x, prun [PRmin (105 / 100); PRstep (1 / 10); PSetStructure ex_stru] ex_start = Ok x /\
  extFromTerminationRipples (cf x) + extFromPeakTails (cf x) ex_stru <= c_maxext (cf x) /\
  tails_bounded (cf x) ex_stru (ex_bond (109 / 100)) /\ In (11 / 10) (getRgrid x) /\ inside (cf x) (ex_bond (109 / 100)) (11 / 10) /\
  b_dist (ex_bond (109 / 100)) < fst (bondLimits x).
Proof.
  set (c := ex_set (105 / 100) 10 (1 / 10)).
  assert (E : exists x, prun [PRmin (105 / 100); PRstep (1 / 10); PSetStructure ex_stru] ex_start = Ok x /\ cf x = c /\ str x = ex_stru /\ current x).
  { unfold prun. cbn [fold_left pstep]. unfold setRmin, setRstep, eps_gt. decide_R; [|unfold SQRT_DOUBLE_EPS in *; exfalso; lra].
    cbn [negb]. eexists. split; [reflexivity|]. split; [reflexivity|]. split; reflexivity. }
  destruct E as (x & Ex & Ec & Es & C). exists x. split; [assumption|]. rewrite Ec.
  pose proof (ex_ext (105 / 100) 10 (1 / 10) ltac:(lra)) as Et. pose proof (ex_ripples (105 / 100) 10 (1 / 10) ltac:(lra)) as Er. fold c in Et, Er.
  assert (Ed : SQRT_DOUBLE_EPS < 1 / 10) by (unfold SQRT_DOUBLE_EPS; lra). assert (Ee : SQRT_DOUBLE_EPS < 1 / 1000) by (unfold SQRT_DOUBLE_EPS; lra).
  pose proof eps_pos.
  assert (A1 : rminSteps (105 / 100) (1 / 10) = 11%Z) by (apply rmin_is; cbn; lra).
  assert (A2 : rmaxSteps 10 (1 / 10) = 100%Z) by (apply rmax_is; cbn; lra).
  split; [rewrite Et; cbn; lra|]. split; [|split; [|split]].
  - unfold tails_bounded. rewrite Er in Et. replace (extFromPeakTails c ex_stru) with (4 / 100) by lra.
    cbn. rewrite Rabs_Ropp, Rabs_pos_eq by lra. lra.
  - unfold getRgrid. rewrite Ec. cbn [c ex_set upd_conf c_rmin c_rmax c_rstep]. rewrite A1, A2. apply In_grid. exists 11%Z. split; [cbn; lra|lia].
  - unfold inside, peak_lo, peak_hi. cbn. lra.
  - unfold bondLimits. unfold current in C. rewrite C, Ec, Es, cacheRlimits_eq. pose proof (ex_ext_pair (105 / 100) 10 (1 / 10) ltac:(lra)) as Ep.
    fold c in Ep. rewrite Ep. cbn [c ex_set upd_conf c_rmin c_rmax c_rstep fst snd]. rewrite A1, A2. cbn [Z.leb Z.compare Pos.compare Pos.compare_cont calclo].
    rewrite (rmin_is (105 / 100 - 4 / 100) (1 / 10) 11) by (cbn; lra). cbn. lra.
Qed.

(** a lower rmin without a new evaluation *)
Lemma stale_rmin : exists x, prun [PRmin 1; PSetStructure ex_stru; PRmin 0] ex_start = Ok x /\ getRDF x = UB.
Proof.
  set (c := ex_set 1 10 (1 / 100)).
  assert (E : exists x, prun [PRmin 1; PSetStructure ex_stru; PRmin 0] ex_start = Ok x /\ wf x /\ cf x = ex_set 0 10 (1 / 100) /\
     lim x = cacheRlimitsData c ex_stru).
  { destruct (prun_ok [PRmin 1; PSetStructure ex_stru; PRmin 0] ex_box ex_sf [] ex_none) as (x & Ex & W). exists x. split; [assumption|].
    split; [assumption|]. revert Ex. unfold prun. cbn [fold_left pstep]. unfold setRmin. fold ex_start. decide_R. 
    intros [= <-]. split; reflexivity. }
  destruct E as (x & Ex & W & Ec & El). exists x. split; [assumption|]. unfold getRDF. rewrite (extRDF_map x W). cbn [bind].
  pose proof eps_pos. assert (Ed : SQRT_DOUBLE_EPS < 1 / 1000) by (unfold SQRT_DOUBLE_EPS; lra).
  assert (A1 : rminSteps 1 (1 / 100) = 100%Z) by (apply rmin_is; cbn; lra).
  assert (A2 : rmaxSteps 10 (1 / 100) = 1000%Z) by (apply rmax_is; cbn; lra).
  assert (A3 : rminSteps 0 (1 / 100) = 0%Z) by (apply rmin_is; cbn; lra).
  assert (L : extmin (lim x) = 100%Z /\ extmax (lim x) = 1000%Z).
  { rewrite El, cacheRlimits_eq. pose proof (ex_ext_pair 1 10 (1 / 100) ltac:(lra)) as Ep. fold c in Ep. rewrite Ep.
    cbn [c ex_set upd_conf c_rmin c_rmax c_rstep fst snd]. rewrite A1, A2. cbn [Z.leb Z.compare Pos.compare Pos.compare_cont extmin extmax].
    rewrite Rminus_0_r, Rplus_0_r, A1, A2. split; reflexivity. }
  destruct L as [L1 L2]. rewrite L1, L2. rewrite zrange_cons by lia. cbn [map]. unfold cutRipplePoints. rewrite Ec, L1, L2.
  cbn [ex_set upd_conf c_rmin c_rmax c_rstep]. rewrite A2, A3.
  replace (1000 - 1000 <? 0)%Z with false by reflexivity. replace (0 - 100 <? 0)%Z with true by reflexivity.
  match goal with |- bind ?a _ = _ => destruct a end; reflexivity.
Qed.

(** a Q-step below the tolerance: std::fill from begin to begin - 1 *)
Lemma initial_cf x : cf (initialUpdate x) = cf x. Proof. unfold initialUpdate. now destruct (p_empty _). Qed.
Lemma conf_run rmax rstep qmax s x : wf x -> 0 <= rmax -> SQRT_DOUBLE_EPS < rstep -> 0 < qmax ->
  exists y, prun [PRmax rmax; PRstep rstep; PQmax qmax; PSetStructure s] x = Ok y /\ wf y /\
    cf y = upd_conf (cf x) (c_rmin (cf x)) rmax rstep (c_qmin (cf x)) qmax (c_maxext (cf x)) /\ str y = s /\ current y.
Proof.
  intros W H1 H2 H3. unfold prun. cbn [fold_left pstep]. unfold setRmax. destruct (Rltb rmax 0) eqn:E1; [rb; lra|].
  unfold setRstep, eps_gt. rewrite Rplus_0_l. destruct (Rltb SQRT_DOUBLE_EPS rstep) eqn:E2; [|rb; lra]. cbn [negb].
  unfold setQmax. destruct (Rltb qmax 0) eqn:E3; [rb; lra|]. destruct (Rltb 0 qmax) eqn:E4; [|rb; lra].
  eexists. split; [reflexivity|].
  match goal with |- wf (setStructure s ?z) /\ _ => set (z0 := z) end.
  assert (Ec : cf z0 = upd_conf (cf x) (c_rmin (cf x)) rmax rstep (c_qmin (cf x)) qmax (c_maxext (cf x))).
  { unfold z0. repeat (rewrite initial_cf || (progress unfold set_conf; cbn [cf upd_conf c_rmin c_rmax c_rstep c_qmin c_qmax c_maxext])). reflexivity. }
  assert (Hs : settings_ok (cf z0)).
  { rewrite Ec. destruct (wf_conf x W) as (C1 & C2 & C3 & C4 & C5 & C6). unfold settings_ok. cbn. auto 10. }
  destruct (wf_setStructure s z0 Hs) as [W1 C1]. split; [assumption|]. split; [exact Ec|]. split; [reflexivity|assumption].
Qed.
Definition ex_big : list pop := [PRmax 300000000; PRstep 10000000; PQmax (/ 10000000); PSetStructure ex_stru].
Lemma big_range : exists x, prun ex_big ex_start = Ok x /\ getPDF x = UB.
Proof.
  set (c := upd_conf (cf ex_start) 0 300000000 10000000 0 (/ 10000000) 10).
  assert (E : exists x, prun ex_big ex_start = Ok x /\ wf x /\ cf x = c /\ str x = ex_stru /\ current x).
  { destruct (conf_run 300000000 10000000 (/ 10000000) ex_stru ex_start (new_wf _ _ _ _)) as (x & E1 & E2 & E3 & E4 & E5); [lra|unfold SQRT_DOUBLE_EPS; lra|lra|].
    exists x. split; [exact E1|]. split; [exact E2|]. split; [exact E3|]. split; [exact E4|exact E5]. }
  destruct E as (x & Ex & W & Ec & Es & C). exists x. split; [exact Ex|]. clear Ex. pose proof eps_pos.
  assert (Ee : SQRT_DOUBLE_EPS < 1 / 1000) by (unfold SQRT_DOUBLE_EPS; lra).
  assert (Hl : extmax (lim x) = 31%Z).
  { unfold current in C. rewrite C, Ec, Es, cacheRlimits_eq. pose proof (ext_core c ex_stru) as Hx. pose proof (ext_pair_ok c ex_stru) as Hy.
    assert (Hc : settings_ok c) by (rewrite <- Ec; apply W). specialize (Hx Hc). specialize (Hy Hc).
    assert (R0 : 0 < extFromTerminationRipples c).
    { unfold extFromTerminationRipples, getQmax, eps_gt, eps_lt. cbn [c upd_conf c_qmax c_rstep].
      pose proof PI2_3_2. rewrite Rmin_left by (apply le_div_iff; lra).
      assert (P3 : 3 / 10000000 <= PI / 10000000) by lra.
      destruct (Rltb (0 + _) _) eqn:E1; [|exfalso; rb; unfold SQRT_DOUBLE_EPS in *; lra].
      destruct (Rltb _ (_ - _)) eqn:E2; [|exfalso; rb; unfold SQRT_DOUBLE_EPS in *; lra]. cbn [andb].
      apply Rdiv_lt_0_compat; lra. }
    assert (F : 0 < fst (ext_pair c ex_stru) <= 10).
    { split.
      - unfold ext_pair. pose proof (tails_nonneg c ex_stru). destruct (Rltb _ _); cbn [fst]; [|assumption].
        apply Rmult_lt_0_compat; [assumption|]. apply Rdiv_lt_0_compat; [cbn; lra|lra].
      - assert (core_ext c <= 10) by apply Rmin_r. lra. }
    set (ee := fst (ext_pair c ex_stru)) in *. set (e2 := snd (ext_pair c ex_stru)) in *. clearbody ee e2.
    cbn [c upd_conf c_rmin c_rmax c_rstep cf ex_start].
    rewrite (rmin_is 0 10000000 0) by (cbn; lra). rewrite (rmax_is 300000000 10000000 30) by (cbn; lra).
    cbn [Z.leb Z.compare extmax]. apply rmax_is; cbn; lra. }
  assert (Hp : padded 31 = 32%Z).
  { destruct (padded_spec 31 ltac:(lia)) as (k & Hk & -> & H1 & H2).
    assert (~ (k <= 4)%Z). { intros K. pose proof (Z.pow_le_mono_r 2 k 4 ltac:(lia) K). cbn in *. lia. }
    assert (~ (6 <= k)%Z). { intros K. specialize (H2 ltac:(lia)). pose proof (Z.pow_le_mono_r 2 5 (k - 1) ltac:(lia) ltac:(lia)). cbn in *. lia. }
    replace k with 5%Z by lia. reflexivity. }
  assert (Hq : getQstep x = PI / (IZR 32 * 10000000)).
  { unfold getQstep. rewrite Hl, Hp, Ec. reflexivity. }
  assert (Q0 : 0 < getQstep x < SQRT_DOUBLE_EPS).
  { rewrite Hq. pose proof PI2_3_2. pose proof PI_lt_4. unfold SQRT_DOUBLE_EPS. split; lra. }
  assert (Hqm : qminSteps 0 (getQstep x) = (-1)%Z).
  { rewrite qminSteps_rmin by lra. unfold rminSteps. replace (0 / getQstep x) with (IZR 0) by (unfold Rdiv; ring).
    replace (Rceil (IZR 0)) with 0%Z by (destruct (Rceil_spec (IZR 0)) as [B1 B2]; apply Z.le_antisymm; [apply le_IZR; exact B2|apply Z.lt_succ_r, lt_IZR; rewrite succ_IZR; lra]). unfold eps_eq. cbn [Z.sub Z.add Z.opp]. rewrite Rminus_0_l, Rabs_Ropp, Rabs_left by lra.
    destruct (Rleb _ _) eqn:E; [reflexivity|rb; lra]. }
  assert (Hsk : skipfft x = false).
  { unfold skipfft, eps_lt, getQmax. rewrite Ec. cbn [c upd_conf c_qmax c_rstep]. pose proof PI2_3_2.
    rewrite Rmin_left by (apply le_div_iff; lra). assert (P3 : 3 / 10000000 <= PI / 10000000) by lra.
    destruct (Rltb _ _) eqn:E; [reflexivity|rb; unfold SQRT_DOUBLE_EPS in *; lra]. }
  unfold getPDF, getExtendedPDF. rewrite Hsk, (ext_F x W C _ (sampled x W)). cbn [bind].
  rewrite Ec at 1. cbn [c_qmin c upd_conf]. rewrite Hqm. unfold fill0 at 1.
  match goal with |- context [range ?v 0 ?j] => assert (R : range v 0 j = UB) end.
  { unfold range. rewrite Z.min_l by lia. reflexivity. }
  rewrite R. reflexivity.
Qed.
