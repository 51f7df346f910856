(** The results of PDFCalculator as functions of r and Q. *)
From Coq Require Import String.
From Verif Require Import RBase AList Trig Sums PdfGrid PdfSpec PdfProofs PdfMain PdfFft.
Open Scope R_scope.

Lemma INR_IZR z : (0 <= z)%Z -> INR (Z.to_nat z) = IZR z.
Proof. intros H. rewrite INR_IZR_INZ, Z2Nat.id by lia. reflexivity. Qed.
Lemma sumf_zrange (f : Z -> R) a b : sumf f (zrange a b) = sumf (fun k => f (a + Z.of_nat k)%Z) (seq 0 (Z.to_nat (b - a))).
Proof. unfold zrange. apply sumf_map. Qed.
Lemma map_zrange {B} (f : Z -> B) n : (0 <= n)%Z -> map f (zrange 0 n) = map (fun i => f (Z.of_nat i)) (seq 0 (Z.to_nat n)).
Proof. intros H. unfold zrange. rewrite map_map. rewrite Z.sub_0_r. reflexivity. Qed.
Lemma map_zrange_nil {B} (f : Z -> B) a b : map f (zrange a b) = [] -> (b <= a)%Z.
Proof.
  intros H. apply (f_equal (@length B)) in H. rewrite map_length, zrange_length in H. cbn in H. lia.
Qed.

(** ** Transforms of arrays given by a function of the step *)
Lemma fftgtof_map (h : Z -> R) dr a b : 0 < dr -> (0 <= a < b)%Z ->
  fftgtof (map h (zrange a b)) dr (IZR a * dr) =
  Ok (map (fun j => dr * sumf (fun m => h m * sin (PI * IZR j * IZR m / IZR (padded b))) (zrange a b)) (zrange 0 (padded b))).
Proof.
  intros Hd Hab. assert (L : length (map h (zrange a b)) = Z.to_nat (b - a)) by (rewrite map_length, zrange_length; reflexivity).
  assert (Hp : (0 < padded b)%Z) by (apply padded_pos; lia).
  rewrite fftgtof_eq; [|assumption|lia|intros E%map_zrange_nil; lia]. f_equal. rewrite L.
  replace (a + Z.of_nat (Z.to_nat (b - a)))%Z with b by lia.
  rewrite map_zrange by lia. apply map_ext. intros i. f_equal. rewrite sumf_zrange. apply sumf_ext.
  intros k [_ Hk]%in_seq. rewrite plus_IZR, <- !INR_IZR_INZ. f_equal.
  unfold zrange. rewrite map_map. now rewrite nth_map_seq by lia.
Qed.
Lemma fftftog_map (F : Z -> R) dq b : 0 < dq -> (1 <= b)%Z ->
  fftftog (map F (zrange 0 (padded b))) dq 0 =
  Ok (map (fun m => 2 / PI * (dq * sumf (fun j => F j * sin (PI * IZR m * IZR j / IZR (padded b))) (zrange 0 (padded b))))
          (zrange 0 (padded b))).
Proof.
  intros Hd Hb. pose proof (padded_pos b Hb). unfold fftftog.
  replace 0 with (IZR 0 * dq) at 1 by ring. rewrite fftgtof_map by (auto; lia). rewrite padded_padded by assumption.
  cbn [bind]. rewrite map_map. f_equal. apply map_ext. intros m. ring.
Qed.
Lemma fill_map (f : Z -> R) n i j : (0 <= i <= j)%Z -> (j <= n)%Z ->
  fill0 (map f (zrange 0 n)) i j = Ok (map (fun k => if ((i <=? k) && (k <? j))%Z then 0 else f k) (zrange 0 n)).
Proof.
  intros H1 H2. unfold fill0. rewrite range_map by lia. cbn [bind]. f_equal.
  assert (E : forall g : Z -> R, map g (zrange 0 n) = map g (zrange 0 i) ++ map g (zrange i j) ++ map g (zrange j n)).
  { intros g. rewrite (zrange_app 0 i n), (zrange_app i j n) by lia. now rewrite !map_app. }
  rewrite (E (fun k => if ((i <=? k) && (k <? j))%Z then 0 else f k)).
  assert (L : forall g : Z -> R, length (map g (zrange 0 i)) = Z.to_nat i) by (intros; rewrite map_length, zrange_length; lia).
  assert (L2 : forall g : Z -> R, length (map g (zrange i j)) = Z.to_nat (j - i)) by (intros; rewrite map_length, zrange_length; lia).
  f_equal; [|f_equal].
  - rewrite E, firstn_app, L, Nat.sub_diag. cbn [firstn]. rewrite app_nil_r, firstn_all2 by (rewrite L; lia).
    apply map_ext_in. intros k Hk%zrange_In. destruct (Z.leb_spec i k); [lia|]. reflexivity.
  - rewrite <- (L2 (fun _ => 0)). rewrite map_length. rewrite <- (map_length (fun _ : Z => 0)).
    assert (G : forall l : list Z, (forall k, In k l -> (i <= k < j)%Z) -> repeat 0 (length (map (fun _ : Z => 0) l)) =
              map (fun k => if ((i <=? k) && (k <? j))%Z then 0 else f k) l).
    { induction l as [|k l IH]; intros Hl; cbn [map length repeat]; [reflexivity|]. rewrite IH by (auto with datatypes).
      destruct (Hl k (or_introl eq_refl)). destruct (Z.leb_spec i k); [|lia]. destruct (Z.ltb_spec k j); [|lia]. reflexivity. }
    apply G. intros k Hk%zrange_In. assumption.
  - rewrite E, app_assoc, skipn_app, skipn_all2 by (rewrite app_length, L, L2; lia).
    rewrite app_length, L, L2. replace (Z.to_nat j - (Z.to_nat i + Z.to_nat (j - i)))%nat with 0%nat by lia. cbn [skipn app].
    apply map_ext_in. intros k Hk%zrange_In. destruct (Z.ltb_spec k j); [lia|]. rewrite andb_false_r. reflexivity.
Qed.
Lemma env_map x (f g : Z -> R) l : applyEnvelopes x (map f l) (map g l) = Ok (map (fun n => g n * envelope (cf x) (f n)) l).
Proof.
  unfold applyEnvelopes, envelope. revert g. induction (c_env (cf x)) as [|e es IH]; intros g; cbn [fold_left fold_right].
  - f_equal. apply map_ext. intros; ring.
  - cbn [bind]. rewrite map2_map. rewrite IH. f_equal. apply map_ext. intros n. ring.
Qed.

(** ** Q-grid *)
Definition npad (x : pdfc) : Z := padded (extmax (lim x)).
Lemma qstep_eq x : (0 < extmax (lim x))%Z -> 0 < c_rstep (cf x) ->
  (0 < npad x)%Z /\ getQstep x = PI / (IZR (npad x) * c_rstep (cf x)) /\ 0 < getQstep x.
Proof.
  intros H Hd. assert (Hn : (0 < npad x)%Z) by (apply padded_pos; lia). split; [assumption|].
  unfold getQstep. fold (npad x). destruct (Z.ltb_spec 0 (extmax (lim x))); [|lia]. destruct (Z.ltb_spec 0 (npad x)); [|lia].
  split; [reflexivity|]. apply Rdiv_lt_0_compat; [apply PI_RGT_0|]. apply Rmult_lt_0_compat; [now apply (IZR_lt 0)|lra].
Qed.
Lemma qstep_0 x : extmax (lim x) = 0%Z -> getQstep x = 0 /\ qmaxSteps x = 0%Z.
Proof.
  intros H. assert (E : getQstep x = 0) by (unfold getQstep; rewrite H; reflexivity). split; [assumption|].
  unfold qmaxSteps. rewrite E. destruct (Rleb 0 0) eqn:E1; [reflexivity|]. apply Rleb_false in E1. lra.
Qed.
Lemma qmax_pos c : settings_ok c -> 0 < getQmax c <= PI / c_rstep c.
Proof.
  intros (_ & _ & Hd & _ & Hq & _). pose proof eps_pos. unfold getQmax. split; [|apply Rmin_r].
  apply Rmin_glb_lt; [assumption|]. apply Rdiv_lt_0_compat; [apply PI_RGT_0|lra].
Qed.
Lemma qmaxSteps_lt x n : settings_ok (cf x) -> (0 < extmax (lim x))%Z -> ((n < qmaxSteps x)%Z <-> IZR n * getQstep x < getQmax (cf x)).
Proof.
  intros Hc H. pose proof eps_pos. assert (Hd : 0 < c_rstep (cf x)) by (destruct Hc as (_ & _ & ? & _); lra).
  destruct (qstep_eq x H Hd) as (_ & _ & Hq). unfold qmaxSteps.
  destruct (Rleb (getQstep x) 0) eqn:E; [apply Rleb_true in E; lra|]. rewrite Rceil_gt. now apply lt_div_iff.
Qed.
Lemma qmaxSteps_bounds x : settings_ok (cf x) -> (0 < extmax (lim x))%Z -> (0 < qmaxSteps x <= npad x)%Z.
Proof.
  intros Hc H. pose proof eps_pos. assert (Hd : 0 < c_rstep (cf x)) by (destruct Hc as (_ & _ & ? & _); lra).
  destruct (qstep_eq x H Hd) as (Hn & Eq & Hq). destruct (qmax_pos _ Hc) as [Q1 Q2]. split.
  - apply qmaxSteps_lt; auto. lra.
  - apply Z.nlt_ge. intros H1. apply qmaxSteps_lt in H1; auto. rewrite Eq in H1. pose proof (IZR_lt _ _ Hn).
    replace (IZR (npad x) * (PI / (IZR (npad x) * c_rstep (cf x)))) with (PI / c_rstep (cf x)) in H1 by (field; lra). lra.
Qed.
Lemma qminSteps_rmin qmin dq : 0 < dq -> qminSteps qmin dq = rminSteps qmin dq.
Proof. intros H. unfold qminSteps, rminSteps. destruct (Rleb dq 0) eqn:E; [apply Rleb_true in E; lra|reflexivity]. Qed.

(** ** Results in terms of the function V that the value array samples on the extended grid *)
Section Results.
  Context (x : pdfc) (W : wf x) (C : current x) (V : R -> R).
  Context (HV : forall n, (extmin (lim x) <= n < extmax (lim x))%Z -> value_at x n = V (IZR n * c_rstep (cf x))).
  Let dr := c_rstep (cf x).
  Let scale := if Reqb (totocc (sc x) * sfaverage (sc x)) 0 then 0 else 1 / (totocc (sc x) * sfaverage (sc x) * sfaverage (sc x)).
  Definition rdfV (r : R) : R := V r * scale.
  Definition perV (r : R) : R := if Rltb SQRT_DOUBLE_EPS r then rdfV r / r else 0.
  Definition gV (r : R) : R := perV r + baseline_at (base x) r.
  Definition FV (q : R) : R := sine_sum dr gV (getExtendedRgrid x) q.

  Lemma dr_pos : 0 < dr. Proof. pose proof eps_pos. destruct (wf_conf x W) as (_ & _ & ? & _). unfold dr. lra. Qed.
  Lemma grid_map (f : R -> R) a b : map f (grid a b dr) = map (fun n => f (IZR n * dr)) (zrange a b).
  Proof. unfold grid. apply map_map. Qed.
  Lemma ext_rdf : getExtendedRDF x = Ok (map (fun n => rdfV (IZR n * dr)) (zrange (extmin (lim x)) (extmax (lim x)))).
  Proof.
    rewrite extRDF_map by assumption. f_equal. apply map_ext_in. intros n Hn%zrange_In. unfold rdfV. rewrite HV by assumption. reflexivity.
  Qed.
  Lemma ext_per : getExtendedRDFperR x = Ok (map (fun n => perV (IZR n * dr)) (zrange (extmin (lim x)) (extmax (lim x)))).
  Proof.
    unfold getExtendedRDFperR. rewrite ext_rdf. cbn [bind]. unfold getExtendedRgrid, grid. fold dr. rewrite map2_map. f_equal.
    apply map_ext. intros n. unfold eps_gt, perV. rewrite Rplus_0_l. reflexivity.
  Qed.
  Lemma ext_g : bind (getExtendedRDFperR x) (applyBaseline x (getExtendedRgrid x)) =
    Ok (map (fun n => gV (IZR n * dr)) (zrange (extmin (lim x)) (extmax (lim x)))).
  Proof.
    rewrite ext_per. cbn [bind]. unfold applyBaseline, getExtendedRgrid, grid. fold dr. rewrite map2_map. reflexivity.
  Qed.
  Lemma rdf_result : getRDF x = Ok (map rdfV (getRgrid x)).
  Proof. unfold getRDF. rewrite ext_rdf. cbn [bind]. rewrite cut_map by assumption. unfold getRgrid. now rewrite grid_map. Qed.
  Lemma per_result : getRDFperR x = Ok (map perV (getRgrid x)).
  Proof. unfold getRDFperR. rewrite ext_per. cbn [bind]. rewrite cut_map by assumption. unfold getRgrid. now rewrite grid_map. Qed.
  Lemma pdf_skip : skipfft x = true -> getPDF x = Ok (map (fun r => gV r * envelope (cf x) r) (getRgrid x)).
  Proof.
    intros E. unfold getPDF, getExtendedPDF. rewrite E. rewrite ext_per. cbn [bind].
    unfold applyBaseline, getExtendedRgrid, grid. fold dr. rewrite map2_map. cbn [bind]. rewrite env_map.
    cbn [bind]. rewrite cut_map by assumption. unfold getRgrid. rewrite grid_map. reflexivity.
  Qed.
  (** the extended range is empty exactly when all limits are zero *)
  Lemma ext_cases : (0 < extmax (lim x) /\ 0 <= extmin (lim x) < extmax (lim x))%Z \/
    (extmin (lim x) = 0 /\ extmax (lim x) = 0 /\ rmaxSteps (c_rmax (cf x)) dr <= rminSteps (c_rmin (cf x)) dr)%Z.
  Proof.
    pose proof (wf_conf x W) as Hc. unfold current in C.
    destruct (Z_lt_dec (rminSteps (c_rmin (cf x)) dr) (rmaxSteps (c_rmax (cf x)) dr)) as [H|H].
    - left. pose proof (limits_inside (cf x) (str x) Hc H) as L. cbv zeta in L. rewrite <- C in L. fold dr in L. lia.
    - right. rewrite C, limits_empty by exact H. cbn. lia.
  Qed.
  Lemma sin_arg j m : (0 < extmax (lim x))%Z ->
    PI * IZR j * IZR m / IZR (npad x) = IZR j * getQstep x * (IZR m * dr).
  Proof.
    intros H. destruct (qstep_eq x H dr_pos) as (Hn & -> & _). fold dr. pose proof dr_pos. apply (IZR_lt 0) in Hn. field. lra.
  Qed.
  Lemma ext_F : getExtendedF x = Ok (map (fun j => FV (IZR j * getQstep x)) (zrange 0 (if (0 <? extmax (lim x))%Z then npad x else 0))).
  Proof.
    unfold getExtendedF. pose proof ext_g as G.
    destruct (getExtendedRDFperR x) as [v| |]; cbn [bind] in *; try discriminate. rewrite G. cbn [bind]. fold dr.
    destruct ext_cases as [[H0 H1]|(E1 & E2 & _)].
    - rewrite fftgtof_map by (auto using dr_pos; lia). fold (npad x). destruct (Z.ltb_spec 0 (extmax (lim x))); [|lia].
      f_equal. apply map_ext. intros j. unfold FV, sine_sum, getExtendedRgrid, grid. rewrite sumf_map. f_equal.
      apply sumf_ext. intros m _. fold dr. rewrite sin_arg by lia. reflexivity.
    - rewrite E1, E2. rewrite (zrange_nil 0 0) by lia. reflexivity.
  Qed.
  Lemma F_result : getF x = Ok (map FV (getQgrid x)).
  Proof.
    unfold getF. rewrite ext_F. cbn [bind]. unfold getQgrid, grid. rewrite map_map.
    destruct ext_cases as [[H0 H1]|(E1 & E2 & _)].
    - destruct (Z.ltb_spec 0 (extmax (lim x))); [|lia]. pose proof (qmaxSteps_bounds x (wf_conf x W) H0).
      rewrite range_map by lia. reflexivity.
    - destruct (qstep_0 x E2) as [-> ->]. rewrite E2. rewrite (zrange_nil 0) by (cbn; lia). reflexivity.
  Qed.
  (** the part of F in the Q-range *)
  Definition cutF (q : R) : R := if Rleb (c_qmin (cf x) - SQRT_DOUBLE_EPS) q then FV q else 0.
  Lemma pdf_fft : skipfft x = false -> (0 < extmax (lim x))%Z -> SQRT_DOUBLE_EPS < getQstep x ->
    getPDF x = Ok (map (fun r => 2 / PI * sine_sum (getQstep x) cutF (getQgrid x) r * envelope (cf x) r) (getRgrid x)).
  Proof.
    intros E H Hq. unfold getPDF, getExtendedPDF. rewrite E, ext_F. cbn [bind].
    destruct (Z.ltb_spec 0 (extmax (lim x))); [|lia].
    destruct ext_cases as [[_ H1]|(_ & E2 & _)]; [|lia].
    pose proof (wf_conf x W) as Hc. pose proof (qmaxSteps_bounds x Hc H) as Hb.
    pose proof eps_pos as He. destruct (qstep_eq x H dr_pos) as (Hn & Eqs & Hq0).
    rewrite qminSteps_rmin by assumption.
    set (qm := rminSteps (c_qmin (cf x)) (getQstep x)).
    assert (Hqm : (0 <= qm)%Z) by (apply rminSteps_nonneg; auto; apply Hc).
    rewrite map_length, zrange_length. replace (Z.of_nat (Z.to_nat (npad x - 0))) with (npad x) by lia.
    rewrite fill_map by lia. cbn [bind]. rewrite map_length, zrange_length.
    replace (Z.of_nat (Z.to_nat (npad x - 0))) with (npad x) by lia.
    rewrite fill_map by lia. cbn [bind].
    unfold npad. rewrite fftftog_map by (auto; lia). fold (npad x). cbn [bind].
    pose proof (padded_ge (extmax (lim x)) ltac:(lia)) as Hpad. fold (npad x) in Hpad.
    rewrite range_map by lia. cbn [bind]. rewrite !Z.add_0_l. rewrite map_length, zrange_length.
    replace (Z.of_nat (Z.to_nat (extmax (lim x) - 0))) with (extmax (lim x)) by lia.
    rewrite range_map by lia. cbn [bind]. rewrite !Z.add_0_l.
    unfold getExtendedRgrid, grid. fold dr. rewrite env_map. cbn [bind]. rewrite cut_map by assumption. fold dr.
    unfold getRgrid. fold dr. rewrite grid_map. f_equal. apply map_ext. intros m. f_equal. f_equal.
    unfold sine_sum, getQgrid, grid. f_equal. rewrite sumf_map.
    rewrite (zrange_app 0 (qmaxSteps x) (npad x)), sumf_app by lia.
    rewrite (sumf_zero _ (zrange (qmaxSteps x) (npad x))).
    - rewrite Rplus_0_r. apply sumf_ext. intros j Hj%zrange_In.
      destruct (Z.leb_spec (qmaxSteps x) j); [lia|]. cbn [andb].
      rewrite sin_arg by assumption.
      replace (IZR m * getQstep x * (IZR j * dr)) with (IZR m * dr * (IZR j * getQstep x)) by ring. f_equal.
      unfold cutF. pose proof (rminSteps_le (c_qmin (cf x)) (getQstep x) j Hq) as Hle. fold qm in Hle.
      destruct (Z.leb_spec 0 j); [|lia]. cbn [andb].
      destruct (Z.ltb_spec j (Z.min qm (npad x))) as [Hlt|Hge]; destruct (Rleb _ _) eqn:E4; auto; rb.
      + apply Hle in E4. lia.
      + assert (Hq' : (qm <= j)%Z) by lia. apply Hle in Hq'. lra.
    - intros j Hj%zrange_In. destruct (Z.leb_spec (qmaxSteps x) j); [|lia]. destruct (Z.ltb_spec j (npad x)); [|lia]. cbn [andb]. ring.
  Qed.
  Lemma pdf_empty : extmax (lim x) = 0%Z -> getPDF x = Ok [] /\ getRgrid x = [].
  Proof.
    intros H. destruct ext_cases as [[? _]|(E1 & E2 & E3)]; [lia|]. destruct (qstep_0 x H) as [Q1 Q2].
    assert (Eg : getRgrid x = []) by (unfold getRgrid, grid; fold dr; rewrite zrange_nil by lia; reflexivity).
    split; [|assumption]. destruct (skipfft x) eqn:E.
    - rewrite pdf_skip by assumption. now rewrite Eg.
    - unfold getPDF, getExtendedPDF. rewrite E, ext_F, H, Q1, Q2. cbn [Z.ltb Z.compare]. rewrite (zrange_nil 0 0) by lia. cbn [map bind].
      unfold qminSteps. destruct (Rleb 0 0) eqn:E0; [|rb; lra]. cbn [length].
      assert (Ex : getExtendedRgrid x = []) by (unfold getExtendedRgrid, grid; rewrite E1, H; reflexivity).
      rewrite Ex, E1. pose proof (env_map x (fun _ => 0) (fun _ => 0) []) as Ev. cbn [map] in Ev. cbn. now rewrite Ev.
  Qed.
End Results.
