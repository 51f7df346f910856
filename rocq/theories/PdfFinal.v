(** PDFCalculator: what a user obtains after evaluations and updates. *)
From Coq Require Import String.
From Verif Require Import RBase AList Trig Sums PdfGrid PdfSpec PdfProofs PdfMain PdfFft PdfResult PdfMask.
From Verif Require Masks MasksSpec.
Open Scope R_scope.

(** ** The value array *)
Definition structural (x : pdfc) : Prop := sc x = cacheStructureData (cf x) (str x).
Lemma sfSite_eq x i : structural x -> (i < p_n (str x))%nat -> sfSite x i = site_sf (cf x) (str x) i.
Proof. intros S H. unfold sfSite. rewrite S. unfold cacheStructureData; cbn [sfsite]. rewrite sfsites_eq. now apply nth_map_seq. Qed.
Lemma contribution_eq x b z r : structural x -> (b_s0 b < p_n (str x))%nat -> (b_s1 b < p_n (str x))%nat -> 0 < b_dist b ->
  contribution x b z r = IZR z * peak_at (cf x) (str x) b r.
Proof.
  intros H H0 H1 Hd. unfold contribution, peak_at. destruct (reached _ _ _); [|ring].
  rewrite !sfSite_eq by assumption. field. lra.
Qed.
Lemma contributions_eq x t r : structural x -> pairs_ok (str x) t ->
  sumf (fun e => contribution x (fst e) (snd e) r) t = peaks (cf x) (str x) t r.
Proof.
  intros H Hp. apply sumf_ext. intros [b z] Hin. destruct (Hp b z Hin) as (? & ? & ?). cbn [fst snd]. now apply contribution_eq.
Qed.
Lemma addPairs_value t x : wf x -> structural x -> pairs_ok (str x) t -> exists y, addPairs x t = Ok y /\ wf y /\ same_but_value x y /\
  forall n, (calclo (lim x) <= n < calchi (lim x))%Z -> value_at y n = value_at x n + peaks (cf x) (str x) t (IZR n * c_rstep (cf x)).
Proof.
  intros W S Hp. destruct (addPairs_spec t x W) as (y & E & Wy & Sy & Hv). exists y. split; [assumption|split; [assumption|split; [assumption|]]].
  intros n Hn. unfold value_at. pose proof (proj1 (proj2 (proj2 (proj2 Sy)))) as El. rewrite El.
  pose proof (wf_len x W) as Hs. unfold countCalcPoints in Hs. rewrite Hv by lia. f_equal.
  rewrite contributions_eq by assumption. f_equal. unfold rpoint. f_equal. f_equal. lia.
Qed.
Lemma value_reset s x n : value_at (setStructure s x) n = 0.
Proof.
  unfold value_at, setStructure, resetValue. cbn [mvalue].
  match goal with |- nth ?k (repeat 0 ?m) 0 = 0 => generalize k; generalize m end.
  intros m. induction m as [|m IH]; intros [|k]; cbn; auto.
Qed.
Lemma structural_set s x : structural (setStructure s x). Proof. reflexivity. Qed.
Lemma structural_same x y : same_but_value x y -> structural x -> structural y.
Proof. intros (A & B & C & _) H. unfold structural in *. congruence. Qed.

(** the range of steps that every calculation covers, whatever the structure *)
Definition core_ext (c : conf) : R := Rmin (extFromTerminationRipples c) (c_maxext c).
Definition core_lo (c : conf) : Z := Z.max 0 (rminSteps (c_rmin c - core_ext c) (c_rstep c)).
Definition core_hi (c : conf) : Z := rmaxSteps (c_rmax c + core_ext c) (c_rstep c).
Lemma ext_core c s : settings_ok c -> fst (ext_pair c s) <= core_ext c <= snd (ext_pair c s).
Proof.
  intros H. pose proof (ripples_nonneg c H). pose proof (tails_nonneg c s). destruct H as (_ & _ & _ & _ & _ & Hm).
  unfold ext_pair, core_ext. set (rip := extFromTerminationRipples c) in *. set (tl := extFromPeakTails c s) in *.
  destruct (Rltb (c_maxext c) (rip + tl)) eqn:E; cbn [fst snd]; rb.
  - split; [|apply Rmin_r]. assert (Hk : 0 <= c_maxext c / (rip + tl)).
    { apply Rmult_le_pos; [lra|]. apply Rlt_le, Rinv_0_lt_compat. lra. }
    assert (Hk1 : c_maxext c / (rip + tl) <= 1).
    { apply div_le_iff; lra. }
    apply Rmin_glb; [nra|].
    assert (c_maxext c / (rip + tl) * (rip + tl) = c_maxext c) by (field; lra). nra.
  - split; [apply Rmin_glb; lra|]. eapply Rle_trans; [apply Rmin_l|lra].
Qed.
Lemma core_inside c s : settings_ok c -> let l := cacheRlimitsData c s in
  (extmin l < extmax l -> (calclo l <= core_lo c /\ core_hi c <= calchi l /\ core_lo c <= extmin l /\ extmax l <= core_hi c))%Z.
Proof.
  intros H l. subst l. rewrite cacheRlimits_eq. destruct (Z.leb_spec (rmaxSteps (c_rmax c) (c_rstep c)) (rminSteps (c_rmin c) (c_rstep c))); cbn [extmin extmax calclo calchi]; [lia|]. intros _.
  pose proof (ext_core c s H). destruct H as (_ & _ & Hd & _). pose proof eps_pos. unfold core_lo, core_hi.
  pose proof (rminSteps_mono (c_rmin c - snd (ext_pair c s)) (c_rmin c - core_ext c) (c_rstep c) Hd ltac:(lra)).
  pose proof (rminSteps_mono (c_rmin c - core_ext c) (c_rmin c - fst (ext_pair c s)) (c_rstep c) Hd ltac:(lra)).
  pose proof (rmaxSteps_mono (c_rmax c + core_ext c) (c_rmax c + snd (ext_pair c s)) (c_rstep c) ltac:(lra) ltac:(lra)).
  pose proof (rmaxSteps_mono (c_rmax c + fst (ext_pair c s)) (c_rmax c + core_ext c) (c_rstep c) ltac:(lra) ltac:(lra)). lia.
Qed.
Lemma lims_empty_or c s : extmin (cacheRlimitsData c s) = extmax (cacheRlimitsData c s) \/ nonempty_range c.
Proof.
  rewrite cacheRlimits_eq. unfold nonempty_range. destruct (Z.leb_spec (rmaxSteps (c_rmax c) (c_rstep c)) (rminSteps (c_rmin c) (c_rstep c))); cbn [extmin extmax]; auto.
Qed.
Lemma core_calc c s n : settings_ok c -> nonempty_range c -> (core_lo c <= n < core_hi c)%Z ->
  (calclo (cacheRlimitsData c s) <= n < calchi (cacheRlimitsData c s))%Z.
Proof.
  intros H Hne Hn. pose proof (limits_inside c s H Hne) as L. pose proof (core_inside c s H) as K. cbv zeta in *.
  unfold nonempty_range in Hne. lia.
Qed.

(** the state after evaluations: the value array is the sum of peaks P on the core range *)
Record shows (x : pdfc) (s : pstru) (P : R -> R) : Prop := {
  sh_wf : wf x; sh_cur : current x; sh_str : str x = s; sh_sc : structural x;
  sh_val : nonempty_range (cf x) -> forall n, (core_lo (cf x) <= n < core_hi (cf x))%Z -> value_at x n = P (IZR n * c_rstep (cf x)) }.

Lemma eval_shows x s t : wf x -> pairs_ok s t -> exists y, pstep (PEval s t) x = Ok y /\ cf y = cf x /\ shows y s (peaks (cf x) s t).
Proof.
  intros W Hp. destruct (wf_setStructure s x (wf_conf x W)) as [W1 C1].
  destruct (addPairs_value t (setStructure s x) W1 (structural_set s x) Hp) as (y & E & Wy & Sy & Hv).
  exists y. cbn [pstep]. split; [assumption|]. pose proof Sy as (S1 & S2 & S3 & S4 & _). split; [assumption|].
  constructor; auto.
  - unfold current in *. rewrite S4, S2, S1. exact C1.
  - eapply structural_same; [eassumption|reflexivity].
  - intros Hne n Hn. rewrite S1 in *. cbn [cf setStructure resetValue] in *.
    rewrite Hv, value_reset by (cbn [lim setStructure resetValue cf str]; apply core_calc; auto; apply W). cbn. ring.
Qed.
Lemma stash_shows x s P : shows x s P -> shows (stashPartialValue x) s P.
Proof.
  intros [A B C D E]. constructor; auto.
  - destruct A as [A1 A2 A3 A4]. constructor; auto.
Qed.
Lemma fast_shows x s P u : shows x s P -> pairs_ok s (u_t0 u) -> pairs_ok (u_s u) (u_t1 u) ->
  exists y, pstep (PFast (u_t0 u) (u_s u) (u_t1 u)) x = Ok y /\ cf y = cf x /\
    shows y (u_s u) (fun r => P r + peaks (cf x) s (u_t0 u) r + peaks (cf x) (u_s u) (u_t1 u) r).
Proof.
  intros [W C Es S HP] H0 H1. cbn [pstep]. unfold fastUpdate. subst s.
  destruct (addPairs_value (u_t0 u) x W S H0) as (y0 & E0 & Wy0 & Sy0 & Hv0). rewrite E0. cbn [bind].
  pose proof Sy0 as (S1 & S2 & S3 & S4 & _). set (s1 := u_s u) in *.
  set (x1 := setStructure s1 (stashPartialValue y0)).
  destruct (wf_setStructure s1 (stashPartialValue y0) (wf_conf y0 Wy0)) as [Wx1 Cx1]. fold x1 in Wx1, Cx1.
  assert (R : cf (restorePartialValue x1) = cf x /\ str (restorePartialValue x1) = s1 /\ lim (restorePartialValue x1) = lim x1 /\
    sc (restorePartialValue x1) = sc x1).
  { unfold restorePartialValue. destruct (stashed x1). cbn [cf str lim sc]. subst x1. cbn [cf str lim sc setStructure resetValue stashPartialValue].
    auto. }
  destruct R as (R1 & R2 & R3 & R4).
  assert (Sx : structural (restorePartialValue x1)).
  { unfold structural. rewrite R1, R2, R4. subst x1. cbn. now rewrite S1. }
  destruct (addPairs_value (u_t1 u) (restorePartialValue x1) (wf_restore _ Wx1) Sx) as (y & E & Wy & Sy & Hv); [now rewrite R2|].
  rewrite R1, R2, R3 in *. pose proof Sy as (T1 & T2 & T3 & T4 & _).
  exists y. split; [assumption|]. split; [congruence|].
  assert (El : lim x1 = cacheRlimitsData (cf x) s1) by (unfold current in Cx1; rewrite Cx1; subst x1; cbn; now rewrite S1).
  constructor; [assumption| | | |].
  - unfold current. rewrite T4, T2, T1, R1, R2, R3. exact El.
  - congruence.
  - eapply structural_same; eassumption.
  - rewrite T1, R1. intros Hne n Hn. pose proof (wf_conf x W) as Hc.
    pose proof (core_calc (cf x) s1 n Hc Hne Hn) as K1. rewrite <- El in K1.
    assert (K0 : (calclo (lim x) <= n < calchi (lim x))%Z) by (unfold current in C; rewrite C; apply core_calc; auto).
    rewrite Hv by assumption. f_equal.
    rewrite <- (HP Hne n Hn). rewrite <- Hv0 by assumption.
    unfold value_at at 1. rewrite R3. pose proof (wf_len x1 Wx1) as Hs1. unfold countCalcPoints in Hs1.
    rewrite restore_nth by lia.
    replace (stashed x1) with (mvalue y0, calclo (lim y0)) by reflexivity. cbn [fst snd].
    rewrite Z2Nat.id by lia. replace (calclo (lim x1) + (n - calclo (lim x1)) - calclo (lim y0))%Z with (n - calclo (lim y0))%Z by lia.
    rewrite S4. pose proof (wf_len y0 Wy0) as Hs0. unfold countCalcPoints in Hs0. rewrite S4 in Hs0.
    destruct (Z.leb_spec 0 (n - calclo (lim x))); [|lia]. destruct (Z.ltb_spec (n - calclo (lim x)) (Z.of_nat (length (mvalue y0)))); [|lia].
    cbn [andb]. unfold value_at. now rewrite S4.
Qed.
Lemma updates_show us : forall x s P, shows x s P -> updates_ok s us ->
  exists y, prun (update_ops us) x = Ok y /\ cf y = cf x /\ shows y (fst (tracked (cf x) s P us)) (snd (tracked (cf x) s P us)).
Proof.
  induction us as [|u us IH]; intros x s P H Hu; [exists x; cbn; auto|].
  destruct Hu as (H0 & H1 & Hu). destruct (fast_shows x s P u H H0 H1) as (y & E & Ec & Hy).
  destruct (IH y _ _ Hy Hu) as (z & Ez & Ecz & Hz). exists z.
  unfold prun in *. cbn [update_ops map fold_left]. rewrite E. split; [exact Ez|].
  cbn [tracked]. rewrite Ec in *. auto.
Qed.

(** ** Results *)
Lemma scale_eq x s : structural x -> str x = s ->
  (if Reqb (totocc (sc x) * sfaverage (sc x)) 0 then 0 else 1 / (totocc (sc x) * sfaverage (sc x) * sfaverage (sc x))) =
  (if Reqb (tot_occ s * mean_sf (cf x) s) 0 then 0 else / (tot_occ s * mean_sf (cf x) s ^ 2)).
Proof.
  intros S Es. subst s. rewrite S, cache_totocc, cache_sfavg.
  destruct (Reqb (tot_occ (str x)) 0) eqn:E0.
  - apply Reqb_true in E0. rewrite E0, !Rmult_0_l. destruct (Reqb 0 0) eqn:E; [reflexivity|]. apply Reqb_false in E. lra.
  - clear E0. destruct (Reqb (tot_occ (str x) * mean_sf (cf x) (str x)) 0) eqn:E; [reflexivity|]. apply Reqb_false in E. field. split; intros H; apply E; rewrite H; ring.
Qed.
Lemma shows_HV x s P : shows x s P -> forall n, (extmin (lim x) <= n < extmax (lim x))%Z -> value_at x n = P (IZR n * c_rstep (cf x)).
Proof.
  intros [W C _ _ HP] n Hn. unfold current in C. pose proof (wf_conf x W) as Hc.
  destruct (lims_empty_or (cf x) (str x)) as [E|Hne]; [rewrite C, E in Hn; lia|].
  apply HP; [assumption|]. pose proof (core_inside (cf x) (str x) Hc) as K. cbv zeta in K. rewrite <- C in K. lia.
Qed.
Lemma rdfV_eq x s P : shows x s P -> forall r, rdfV x P r = rdf (cf x) s P r.
Proof. intros H r. unfold rdfV, rdf. now rewrite (scale_eq x s) by apply H. Qed.
Lemma perV_eq x s P : shows x s P -> forall r, perV x P r = rdf_per_r (cf x) s P r.
Proof. intros H r. unfold perV, rdf_per_r. now rewrite (rdfV_eq x s P H). Qed.
Lemma FV_eq x s P : shows x s P -> forall q, FV x P q = F_of (cf x) s (baseline_value (base x)) P (getExtendedRgrid x) q.
Proof.
  intros H q. unfold FV, F_of, sine_sum. f_equal. apply sumf_ext. intros r _. f_equal. unfold gV. now rewrite (perV_eq x s P H).
Qed.
Lemma shows_presents x s P : shows x s P -> presents x s P.
Proof.
  intros H. pose proof (shows_HV x s P H) as HV. unfold presents.
  rewrite (rdf_result x (sh_wf _ _ _ H) (sh_cur _ _ _ H) P HV), (per_result x (sh_wf _ _ _ H) (sh_cur _ _ _ H) P HV),
    (F_result x (sh_wf _ _ _ H) (sh_cur _ _ _ H) P HV).
  split; [|split]; f_equal; apply map_ext; intros r; [apply rdfV_eq|apply perV_eq|apply FV_eq]; assumption.
Qed.
Lemma extmax_bound c s : settings_ok c -> nonempty_range c ->
  IZR (extmax (cacheRlimitsData c s)) * c_rstep c < c_rmax c + c_maxext c + c_rstep c.
Proof.
  intros H Hne. rewrite cacheRlimits_eq. unfold nonempty_range in Hne.
  destruct (Z.leb_spec (rmaxSteps (c_rmax c) (c_rstep c)) (rminSteps (c_rmin c) (c_rstep c))); [lia|]. cbn [extmax].
  pose proof (ext_core c s H) as [E1 _]. assert (E2 : core_ext c <= c_maxext c) by apply Rmin_r.
  destruct H as (_ & _ & Hd & _). pose proof eps_pos.
  set (r := c_rmax c + fst (ext_pair c s)) in *. 
  pose proof (proj1 (rmaxSteps_lt r (c_rstep c) (rmaxSteps r (c_rstep c) - 1) ltac:(lra)) ltac:(lia)) as L.
  rewrite minus_IZR in L. subst r. lra.
Qed.
Lemma padded_lt n : (1 <= n)%Z -> (padded n < 2 * n)%Z.
Proof.
  intros H. destruct (padded_spec n H) as (k & Hk & -> & _ & L). destruct (Z.eq_dec k 0) as [->|Hk0]; [change (2 ^ 0)%Z with 1%Z; lia|].
  specialize (L ltac:(lia)). replace k with (Z.succ (k - 1)) by lia. rewrite Z.pow_succ_r by lia. lia.
Qed.
Lemma qstep_bound x : wf x -> current x -> (0 < extmax (lim x))%Z -> c_rmax (cf x) + c_maxext (cf x) + c_rstep (cf x) <= 100000000 ->
  SQRT_DOUBLE_EPS < getQstep x.
Proof.
  intros W C H Hb. pose proof (wf_conf x W) as Hc. pose proof eps_pos.
  assert (Hd : 0 < c_rstep (cf x)) by (destruct Hc as (_ & _ & ? & _); lra).
  destruct (qstep_eq x H Hd) as (Hn & -> & _). unfold current in C.
  destruct (lims_empty_or (cf x) (str x)) as [E|Hne].
  { rewrite <- C in E. destruct (Z_lt_dec (rminSteps (c_rmin (cf x)) (c_rstep (cf x))) (rmaxSteps (c_rmax (cf x)) (c_rstep (cf x)))) as [L|L].
    - pose proof (limits_inside (cf x) (str x) Hc L) as K. cbv zeta in K. rewrite <- C in K. lia.
    - rewrite (limits_empty _ _ L) in C. rewrite C in H. cbn in H. lia. }
  pose proof (extmax_bound (cf x) (str x) Hc Hne) as B. rewrite <- C in B.
  pose proof (padded_lt (extmax (lim x)) ltac:(lia)) as L. fold (npad x) in L.
  apply IZR_lt in L, Hn. rewrite mult_IZR in L.
  apply lt_div_iff; [nra|]. pose proof PI2_3_2. unfold SQRT_DOUBLE_EPS. nra.
Qed.
Lemma skipfft_eq x : settings_ok (cf x) -> 0 < getQstep x -> SQRT_DOUBLE_EPS < getQstep x -> skipfft x = full_band (cf x) (getQstep x).
Proof.
  intros Hc H0 Hq. unfold skipfft, full_band. rewrite qminSteps_rmin by assumption. f_equal.
  - unfold eps_lt, getQmax. set (p := PI / c_rstep (cf x)). destruct (Rltb _ _) eqn:E; destruct (Rleb _ _) eqn:E1; auto; cbn [negb]; rb; exfalso.
    + pose proof eps_pos. revert E. unfold Rmin. destruct (Rle_dec _ _); lra.
    + pose proof (Rmin_l (c_qmax (cf x)) p). lra.
  - pose proof (rminSteps_le (c_qmin (cf x)) (getQstep x) 1 Hq) as L.
    destruct (Z.ltb_spec 1 (rminSteps (c_qmin (cf x)) (getQstep x))) as [K|K]; cbn [negb]; destruct (Rleb _ _) eqn:E; auto; rb; exfalso.
    + assert (K' : (rminSteps (c_qmin (cf x)) (getQstep x) <= 1)%Z) by (apply L; lra). lia.
    + apply L in K. lra.
Qed.
Lemma shows_pdf x s P : shows x s P -> c_rmax (cf x) + c_maxext (cf x) + c_rstep (cf x) <= 100000000 -> presents_pdf x s P.
Proof.
  intros H Hb. pose proof (shows_HV x s P H) as HV. pose proof (sh_wf _ _ _ H) as W. pose proof (sh_cur _ _ _ H) as C.
  unfold presents_pdf. destruct (Z_le_dec (extmax (lim x)) 0) as [Z0|Z0].
  - destruct (pdf_empty x W C P HV) as [E1 E2]. { pose proof (wf_lims x W) as L. unfold lims_ok in L. lia. }
    rewrite E1, E2. reflexivity.
  - assert (Hq : SQRT_DOUBLE_EPS < getQstep x) by (apply qstep_bound; auto; lia). pose proof eps_pos.
    pose proof (skipfft_eq x (wf_conf x W) ltac:(lra) Hq) as Es. destruct (skipfft x) eqn:E.
    + rewrite (pdf_skip x W C P HV E). f_equal. apply map_ext. intros r. unfold pdf_of. rewrite <- Es. f_equal.
      unfold gV. now rewrite (perV_eq x s P H).
    + rewrite (pdf_fft x W C P HV E ltac:(lia) Hq). f_equal. apply map_ext. intros r. unfold pdf_of. rewrite <- Es. f_equal. f_equal.
      unfold sine_sum. f_equal. apply sumf_ext. intros q _. f_equal. unfold cutF. now rewrite (FV_eq x s P H).
Qed.

(** ** Histories *)
Lemma prun_app2 ops1 ops2 x y : prun ops1 x = Ok y -> prun (ops1 ++ ops2) x = prun ops2 y.
Proof. intros E. unfold prun in *. now rewrite fold_left_app, E. Qed.
Lemma history_shows ops pk sf env e s t us : pairs_ok s t -> updates_ok s us ->
  exists x, prun (ops ++ PEval s t :: update_ops us) (newPDF pk sf env e) = Ok x /\
    shows x (fst (tracked (cf x) s (peaks (cf x) s t) us)) (snd (tracked (cf x) s (peaks (cf x) s t) us)).
Proof.
  intros Hp Hu. destruct (prun_ok ops pk sf env e) as (z & Ez & Wz).
  destruct (eval_shows z s t Wz Hp) as (y & Ey & Ec & Hy).
  destruct (updates_show us y s _ Hy Hu) as (x & Ex & Ecx & Hx). exists x.
  rewrite (prun_app2 _ _ _ _ Ez). split.
  - unfold prun in *. cbn [fold_left]. rewrite Ey. exact Ex.
  - rewrite Ecx. rewrite Ec in *. exact Hx.
Qed.

(** ** The same results as a complete evaluation *)
Definition base_of (b : baseline) (c : conf) (s : pstru) : baseline := base (setStructure s
  {| cf := c; str := s; sc := cacheStructureData c s; lim := cacheRlimitsData c s; base := b; mvalue := []; stashed := ([], 0%Z) |}).
Lemma base_set s x : base (setStructure s x) = base_of (base x) (cf x) s.
Proof. unfold base_of, setStructure, resetValue. cbn [base cf str]. destruct (base x); reflexivity. Qed.
Lemma base_of_idem b c s s' : base_of (base_of b c s) c s' = base_of b c s'.
Proof. unfold base_of, setStructure, resetValue. cbn [base cf str]. destruct b; reflexivity. Qed.
Lemma eval_base x s t y : wf x -> pstep (PEval s t) x = Ok y -> cf y = cf x /\ base y = base_of (base x) (cf x) s.
Proof.
  intros W E. cbn [pstep] in E. destruct (wf_setStructure s x (wf_conf x W)) as [W1 _].
  destruct (addPairs_spec t _ W1) as (z & Ez & _ & S & _). rewrite Ez in E. injection E as <-.
  destruct S as (S1 & _ & _ & _ & S5 & _). split; [exact S1|]. rewrite S5. apply base_set.
Qed.
Lemma fast_base x t0 s t1 y : wf x -> pstep (PFast t0 s t1) x = Ok y -> cf y = cf x /\ base y = base_of (base x) (cf x) s.
Proof.
  intros W E. cbn [pstep] in E. unfold fastUpdate in E.
  destruct (addPairs_spec t0 x W) as (y0 & Ey0 & Wy0 & S0 & _). rewrite Ey0 in E. cbn [bind] in E.
  destruct (wf_setStructure s (stashPartialValue y0) (wf_conf y0 Wy0)) as [W1 _].
  destruct (addPairs_spec t1 _ (wf_restore _ W1)) as (z & Ez & _ & S & _). rewrite Ez in E. injection E as <-.
  destruct S as (S1 & _ & _ & _ & S5 & _). destruct S0 as (S01 & _ & _ & _ & S05 & _). rewrite S1, S5.
  pose proof (base_set s (stashPartialValue y0)) as B. cbn [stashPartialValue base cf] in B. rewrite S01, S05 in B. rewrite <- B.
  unfold restorePartialValue. destruct (stashed _). split; [exact S01|reflexivity].
Qed.
Lemma updates_base us : forall x s P y, shows x s P -> updates_ok s us -> prun (update_ops us) x = Ok y ->
  base x = base_of (base x) (cf x) s ->
  cf y = cf x /\ base y = base_of (base x) (cf x) (fst (tracked (cf x) s P us)).
Proof.
  induction us as [|u us IH]; intros x s P y H Hu E Hb; [cbn in E; injection E as <-; cbn [tracked fst]; auto|].
  destruct Hu as (H0 & H1 & Hu). destruct (fast_shows x s P u H H0 H1) as (z & Ez & Ec & Hz).
  destruct (fast_base x _ _ _ z (sh_wf _ _ _ H) Ez) as [_ Bz].
  unfold prun in E. cbn [update_ops map fold_left] in E. rewrite Ez in E.
  destruct (IH z _ _ y Hz Hu E) as [Ecy By]; [rewrite Bz, Ec; symmetry; apply base_of_idem|].
  rewrite Ec in *. cbn [tracked]. split; [assumption|]. rewrite By, Bz. apply base_of_idem.
Qed.
Lemma rdf_ext_P c s P Q r : P r = Q r -> rdf c s P r = rdf c s Q r.
Proof. intros H. unfold rdf. now rewrite H. Qed.
Lemma per_ext_P c s P Q r : P r = Q r -> rdf_per_r c s P r = rdf_per_r c s Q r.
Proof. intros H. unfold rdf_per_r. now rewrite (rdf_ext_P _ _ _ _ _ H). Qed.
Lemma fast_equals ops pk sf env e s t us t' : pairs_ok s t -> updates_ok s us ->
  exists x, prun (ops ++ PEval s t :: update_ops us) (newPDF pk sf env e) = Ok x /\
  let s1 := fst (tracked (cf x) s (peaks (cf x) s t) us) in let P := snd (tracked (cf x) s (peaks (cf x) s t) us) in
  pairs_ok s1 t' ->
  exists y, prun (ops ++ [PEval s1 t']) (newPDF pk sf env e) = Ok y /\
  ((forall r, In r (getExtendedRgrid x) -> P r = peaks (cf x) s1 t' r) ->
   getRgrid x = getRgrid y /\ getQgrid x = getQgrid y /\ getRDF x = getRDF y /\ getRDFperR x = getRDFperR y /\ getF x = getF y /\
   (c_rmax (cf x) + c_maxext (cf x) + c_rstep (cf x) <= 100000000 -> getPDF x = getPDF y)).
Proof.
  intros Hp Hu. destruct (prun_ok ops pk sf env e) as (z & Ez & Wz).
  destruct (eval_shows z s t Wz Hp) as (y0 & Ey0 & Ec0 & Hy0). destruct (eval_base z s t y0 Wz Ey0) as [_ B0].
  destruct (updates_show us y0 s _ Hy0 Hu) as (x & Ex & Ecx & Hx).
  destruct (updates_base us y0 s _ x Hy0 Hu Ex) as [_ Bx]; [rewrite B0, Ec0; symmetry; apply base_of_idem|].
  exists x. rewrite (prun_app2 _ _ _ _ Ez). split; [unfold prun in *; cbn [fold_left]; rewrite Ey0; exact Ex|].
  rewrite Ecx, Ec0 in *. set (s1 := fst (tracked (cf z) s (peaks (cf z) s t) us)) in *.
  set (P := snd (tracked (cf z) s (peaks (cf z) s t) us)) in *. cbv zeta. intros Hp'.
  destruct (eval_shows z s1 t' Wz Hp') as (y & Ey & Ecy & Hy). destruct (eval_base z s1 t' y Wz Ey) as [_ By].
  exists y. rewrite (prun_app2 _ _ _ _ Ez). split; [unfold prun; cbn [fold_left]; now rewrite Ey|].
  intros HP. assert (Eb : base x = base y) by (rewrite Bx, By, B0; apply base_of_idem).
  assert (Ec : cf x = cf y) by congruence.
  assert (El : lim x = lim y).
  { pose proof (sh_cur _ _ _ Hx) as C1. pose proof (sh_cur _ _ _ Hy) as C2. unfold current in *. rewrite C1, C2.
    rewrite (sh_str _ _ _ Hx), (sh_str _ _ _ Hy). congruence. }
  assert (Er : getRgrid x = getRgrid y) by (unfold getRgrid; now rewrite Ec).
  assert (Ee : getExtendedRgrid x = getExtendedRgrid y) by (unfold getExtendedRgrid; now rewrite Ec, El).
  assert (Eqs : getQstep x = getQstep y) by (unfold getQstep; now rewrite Ec, El).
  assert (Eq : getQgrid x = getQgrid y) by (unfold getQgrid, qmaxSteps; now rewrite Ec, Eqs).
  assert (Hin : forall r, In r (getRgrid x) -> In r (getExtendedRgrid x)).
  { intros r. unfold getRgrid, getExtendedRgrid, grid. rewrite !in_map_iff. intros (n & <- & Hn%zrange_In). exists n. split; [reflexivity|].
    apply zrange_In. pose proof (limits_inside (cf x) (str x) (wf_conf x (sh_wf _ _ _ Hx))) as L. cbv zeta in L.
    pose proof (sh_cur _ _ _ Hx) as C1. unfold current in C1. rewrite <- C1 in L. unfold nonempty_range in L. lia. }
  destruct (shows_presents x s1 P Hx) as (X1 & X2 & X3). destruct (shows_presents y s1 _ Hy) as (Y1 & Y2 & Y3).
  assert (EF : forall q, F_of (cf x) s1 (baseline_value (base x)) P (getExtendedRgrid x) q =
    F_of (cf y) s1 (baseline_value (base y)) (peaks (cf z) s1 t') (getExtendedRgrid y) q).
  { intros q. rewrite Eb, <- Ee, <- Ec. unfold F_of, sine_sum. f_equal. apply sumf_ext. intros r Hr. f_equal. f_equal.
    apply per_ext_P, HP, Hr. }
  split; [assumption|split; [assumption|]]. rewrite X1, X2, X3, Y1, Y2, Y3, <- Er, <- Eq.
  split; [|split; [|split]].
  - f_equal. apply map_ext_in. intros r Hr. rewrite <- Ec. apply rdf_ext_P, HP, Hin, Hr.
  - f_equal. apply map_ext_in. intros r Hr. rewrite <- Ec. apply per_ext_P, HP, Hin, Hr.
  - f_equal. apply map_ext. intros q. apply EF.
  - intros Hb. rewrite (shows_pdf x s1 P Hx), (shows_pdf y s1 _ Hy) by congruence. f_equal. rewrite <- Er. apply map_ext_in.
    intros r Hr. unfold pdf_of. rewrite <- Eqs, <- Eq.
    replace (full_band (cf y) (getQstep x)) with (full_band (cf x) (getQstep x)) by congruence.
    replace (envelope (cf y) r) with (envelope (cf x) r) by congruence. f_equal.
    destruct (full_band (cf x) (getQstep x)).
    + rewrite Eb, (per_ext_P (cf x) s1 P (peaks (cf z) s1 t') r (HP r (Hin r Hr))). congruence.
    + f_equal. unfold sine_sum. f_equal. apply sumf_ext. intros q _. rewrite EF. replace (c_qmin (cf y)) with (c_qmin (cf x)) by congruence. reflexivity.
Qed.
