(** Proofs: the two calculators on a structure. *)
From Coq Require Import String FunctionalExtensionality.
From Verif Require Masks MasksSpec MasksProofs Peaks.
From Verif Require Import RBase R3 Trig Sums Lattice LatticeSpec LatticeProofs Crystal CrystalSpec StructDiff StructDiffSpec Evaluator
  PeakWidth PeakWidthSpec PeakWidthProofs PdfGrid PdfSpec PdfProofs PdfMain PdfFinal PdfProps Debye DebyeSpec DebyeProofs DebyeSum DebyeMain DebyeProps BondGen BondGenSpec BondGenProofs World WorldSpec WorldMain OrbitSpec OrbitWorld OrbitExample Visited VisitedSpec VisitedProofs VisitedHalf VisitedMain.
Import ListNotations.
Open Scope R_scope.
Notation length := List.length.

Lemma user_masks m x w full : (full = false -> half_ok w x) -> sums_ok w x (Masks.hasMask m) (user_mask m) full.
Proof.
  intros H. assert (HM : good_mask (Masks.hasMask m) (user_mask m)).
  { split; [intros; apply MasksProofs.getPairMask_sym|]. unfold Masks.hasMask, user_mask, Masks.getPairMask. destruct (Masks.dflt m); [|discriminate]. destruct (Masks.invp m) as [|k l]; [|discriminate].
    intros _ i j. reflexivity. }
  destruct full; [exact (proj2 HM)|split; auto].
Qed.

(** ** peak width *)
Lemma along_msd f U r : proper f U -> meanSquareDisplacement U r f = along_bond f U r.
Proof.
  intros H. rewrite (msd_form _ _ _ H). unfold along_bond. destruct f.
  - destruct (Req_dec (vnorm r) 0) as [E|E].
    + rewrite E. unfold Rdiv. replace (0 ^ 2) with 0 by ring. rewrite Rinv_0. clear. destruct r as [x y z]. destruct U as [a b c d e f g h i]. unfold vdot, mv, vscale. cbn [vx vy vz x00 x01 x02 x10 x11 x12 x20 x21 x22]. ring.
    + replace (vdot r (mv U r)) with (vnorm r ^ 2 * (/ vnorm r * (/ vnorm r * vdot r (mv U r)))) by (field; assumption).
      rewrite mv_scale. assert (X : forall c p q, vdot (vscale c p) (vscale c q) = c * (c * vdot p q)) by (clear; intros c p q; vring). rewrite X. field. assumption.
  - destruct H as [u ->]. unfold mscale, mid. cbn [x00 x11 x22]. field.
Qed.
Lemma dw_fwhm u : dw_calculate u = fwhm (msd u).
Proof.
  unfold dw_calculate, fwhm, GAUSS_SIGMA_TO_FWHM. cbv zeta. assert (L2 := ln_lt_2). assert (0 < ln 2) by lra. unfold Rltb. destruct (Rlt_dec (msd u) 0).
  - rewrite Rmax_left by lra. now rewrite Rmult_0_r, sqrt_0.
  - rewrite Rmax_right by lra. replace (8 * ln 2 * msd u) with ((2 * 2) * ((2 * ln 2) * msd u)) by ring. rewrite (sqrt_mult (2 * 2) (2 * ln 2 * msd u)) by nra. rewrite (sqrt_square 2) by lra. rewrite (sqrt_mult (2 * ln 2) (msd u)) by lra. ring.
Qed.
Lemma fwhm_scale c v : 0 <= c -> sqrt c * fwhm v = fwhm (c * v).
Proof.
  intros Hc. unfold fwhm. assert (L2 := ln_lt_2). rewrite <- sqrt_mult by (try apply Hc; pose proof (Rmax_l 0 v); nra). f_equal.
  replace (Rmax 0 (c * v)) with (c * Rmax 0 v) by (rewrite <- (RmaxRmult 0 v c Hc); now rewrite Rmult_0_r). ring.
Qed.
Lemma width_expected w x i j b : / 67108864 < b_distance b -> b_distance b = vnorm (BondGen.b_r01 b) -> (match w with PWConstant _ => True | _ => proper_tensor (atom_at x i) /\ proper (c_anis (atom_at x j)) (b_u1 b) end) ->
  width_of w x i j b = expected_width w x i j b.
Proof.
  intros HD HN H. unfold width_of, expected_width. destruct w as [c| |p]; cbn [pw_calculate]; [reflexivity| |].
  - rewrite dw_fwhm. f_equal. unfold msd, bond_msd. cbn [PeakWidth.b_r01 b_U0 b_a0 b_U1 b_a1]. destruct H. now rewrite !along_msd.
  - unfold jeong_calculate, PeakWidth.b_dist. cbn [PeakWidth.b_r01]. rewrite <- HN. cbv zeta.
    assert (E : msdSharpeningRatio p (b_distance b) = sharpening p (b_distance b)).
    { unfold msdSharpeningRatio, sharpening, Rltb. destruct (Rlt_dec _ _) as [L|_]; [exfalso; unfold Peaks.DOUBLE_EPS in L; lra|]. replace (b_distance b ^ 2) with (b_distance b * b_distance b) by ring. ring. }
    rewrite E. unfold Rleb. destruct (Rlt_dec 0 _) as [L|L], (Rle_dec _ 0); try lra. rewrite dw_fwhm, fwhm_scale by lra. f_equal; [|ring]. do 2 f_equal.
    unfold msd, bond_msd. cbn [PeakWidth.b_r01 b_U0 b_a0 b_U1 b_a1]. destruct H. now rewrite !along_msd.
Qed.

(** ** the cell *)
Lemma sum_sites {A} (l : list A) d (f : A -> R) : sumf (fun i => f (nth i l d)) (seq 0 (length l)) = sumf f l.
Proof.
  induction l as [|a l IH]; [reflexivity|]. cbn [length seq]. rewrite <- seq_shift. rewrite !sumf_cons, sumf_map. cbn [nth]. now rewrite IH.
Qed.
Lemma sites_cell x (f : catom -> R) : sumf (fun i => f (siteAtom x i) * INR (siteMultiplicity x i)) (seq 0 (countSites x)) = sumf (fun a => f a * INR (multiplicity (env_of x) a)) (atoms_of x).
Proof.
  rewrite <- (sum_sites (atoms_of x) catom0 (fun a => f a * INR (multiplicity (env_of x) a))). apply sumf_ext. intros i Hi. apply in_seq in Hi. now rewrite mult_view by (change (countSites x) with (length (atoms_of x)) in Hi; lia).
Qed.
Lemma fold_sum {A} (f : A -> R) l : forall z, fold_left (fun t i => t + f i) l z = z + sumf f l.
Proof. induction l as [|a l IH]; intros z; cbn [fold_left]; [cbn; ring|]. rewrite IH, sumf_cons. ring. Qed.
Lemma total_occ x : totalOccupancy x = cell_occ x.
Proof. unfold totalOccupancy. rewrite (fold_sum (fun i => c_occ (siteAtom x i) * INR (siteMultiplicity x i))), Rplus_0_l. apply sites_cell. Qed.
Lemma vol_det L : lattice_made L -> volume L = Rabs (det (Lattice.base L)).
Proof.
  intros LM. destruct (made_built _ LM) as [C B]. pose proof (built_consistent _ _ B) as K. assert (V : volume L = det (Lattice.base L)).
  { rewrite (k_vol _ K), (b_va _ _ B), (b_vb _ _ B), (b_vc _ _ B). destruct (Lattice.base L) as [a b c d e f g h i]. unfold det, vdot, vcross, row0, row1, row2. cbn [vx vy vz x00 x01 x02 x10 x11 x12 x20 x21 x22]. ring. }
  rewrite <- V, Rabs_pos_eq; [reflexivity|]. pose proof (k_vol_pos _ K). lra.
Qed.
Lemma density_cell x : good_env (env_of x) -> numberDensity x = atom_density x.
Proof.
  unfold atom_density. revert x. fix IH 1. intros [n b]. destruct b as [|l|L l|L p ops l|s|s]; cbn [numberDensity env_of good_env]; intros H; auto.
  - now rewrite total_occ, vol_det.
  - rewrite total_occ, vol_det by apply H. reflexivity.
  - rewrite (IH s H). unfold cell_occ. cbn [atoms_of env_of]. reflexivity.
Qed.

(** ** DebyePDFCalculator *)
Section Deb.
  Context (ops : list dop) (sf : string -> R -> R) (mw : dstru -> R -> R -> R) (env : list (R -> R)) (d y : deb) (x : adp) (w : pwmodel) (masked : bool) (mask : nat -> nat -> bool) (full : bool).
  Context (GE : good_env (env_of x)) (Hd : drun ops (newDebye sf mw env) = Ok d) (Hy : debye_eval w masked mask full x d = Ok y).
  Notation T := (visited w masked mask full (fst (Debye.bondLimits y)) (snd (Debye.bondLimits y)) x).
  Lemma deb_eval : dstep (DEval (debye_view x) T) d = Ok y.
  Proof.
    unfold debye_eval in Hy. cbn [dstep]. unfold Debye.eval.
    destruct (eval_cases (DSetStructure (debye_view x)) (debye_view x) [] d) as [(z & z2 & v & E & Es & E2 & _ & El & Hz & Hcur & _)|(z & E & _)]; [exact (reach_dinv _ _ _ _ _ Hd)|now left| |].
    - cbn [dstep] in E. rewrite Es in *. cbn [andthen] in *.
      destruct (addPairs_any (visited w masked mask full (fst (Debye.bondLimits z2)) (snd (Debye.bondLimits z2)) x) z2 (current_fits _ Hz Hcur)) as (v' & Ev & _).
      rewrite Ev in Hy. injection Hy as <-.
      replace (Debye.bondLimits (with_dval z2 v')) with (Debye.bondLimits z2); [exact Ev|]. clear. unfold Debye.bondLimits, rcalclo, rcalchi, cached. cbn [with_dval rcached]. destruct (rcached z2); reflexivity.
    - cbn [dstep] in E. rewrite E in Hy. discriminate Hy.
  Qed.
  Lemma deb_pairs : DebyeSpec.pairs_ok (debye_view x) T.
  Proof. intros b z H. destruct (in_visited x GE w _ _ masked mask full b z H) as (H0 & H1 & _). cbn [d_n debye_view]. now split. Qed.
  Lemma deb_occ : same_type_occ x -> occ_by_type (debye_view x).
  Proof. intros H i j Hi Hj E. cbn [d_n d_type d_occ debye_view] in *. apply H; auto; apply nth_In; assumption. Qed.
  Definition dterm (c : dconf) (q : R) : catom -> catom -> R -> R -> R := fun a b r f =>
    k_sf c (c_type a) q * c_occ a * (k_sf c (c_type b) q * c_occ b) * (sin (q * r) / r) * exp (- (f / (2 * sqrt (2 * ln 2)) * q) ^ 2 / 2).
  Lemma deb_equation P q : neighbours_in (fst (Debye.bondLimits y)) (snd (Debye.bondLimits y)) x P -> sums_ok w x masked mask full ->
    debye (own_sf (dc y) (debye_view x)) T q = debye_equation (dc y) w x mask P q.
  Proof.
    intros HN HO. transitivity (vsum x w (fst (Debye.bondLimits y)) (snd (Debye.bondLimits y)) masked mask (dterm (dc y) q) full).
    - unfold debye, vsum. apply sumf_ext. intros [b z] Hb. destruct (in_visited x GE w _ _ masked mask full b z Hb) as (_ & _ & HD). cbn [fst snd].
      unfold apart. replace (Rltb SQRT_DOUBLE_EPS (Rabs (PdfGrid.b_dist b))) with true; [|symmetry; apply Rltb_true; unfold SQRT_DOUBLE_EPS; rewrite Rabs_pos_eq; lra].
      unfold amplitude, own_sf, dterm. cbn [d_type d_occ debye_view]. unfold Rdiv. ring.
    - rewrite (visited_sum x GE w _ _ masked mask (dterm (dc y) q) P full HN HO).
      + apply over_ext. intros i j im _ _ _ b. unfold dterm, atom_f. ring.
      + intros _ a b r f. unfold dterm. ring.
  Qed.
  Theorem deb_value P : neighbours_in (fst (Debye.bondLimits y)) (snd (Debye.bondLimits y)) x P -> sums_ok w x masked mask full ->
    same_type_occ x -> 0 <= k_prec (dc y) -> decreasing_table (dc y) ->
    length (dval y) = length (getQgrid y) /\
    forall k, (0 <= k < Z.of_nat (length (dval y)))%Z ->
      nth (Z.to_nat k) (getQgrid y) 0 = IZR k * k_qstep (dc y) /\
      Rabs (nth (Z.to_nat k) (dval y) 0 - debye_equation (dc y) w x mask P (IZR k * k_qstep (dc y))) <= pair_count x mask P * k_prec (dc y).
  Proof.
    intros HN HO HT HP HD. pose proof deb_eval as HE.
    destruct (C34_sum_general ops sf mw env _ _ _ d y Hd (or_intror eq_refl) deb_pairs HE) as (L1 & _ & L2). split; [exact L1|]. intros k Hk. split; [apply L2, Hk|].
    destruct (C34_sum_partial ops sf mw env _ _ _ d y Hd (or_intror eq_refl) deb_pairs (deb_occ HT) HE k Hk) as [_ B].
    rewrite <- (deb_equation P _ HN HO). eapply Rle_trans; [apply B; [exact HP|]|].
    - intros i p q Hpq. unfold own_sf. rewrite !Rabs_mult. apply Rmult_le_compat_r; [apply Rabs_pos|]. now apply HD.
    - apply Rmult_le_compat_r; [exact HP|]. exact (visited_count x GE w _ _ masked mask P full HN HO).
  Qed.
  Theorem deb_F : same_type_occ x -> cell_occ x = 0 \/ SQRT_DOUBLE_EPS < cell_occ x ->
    getF y = Ok (map (fun k => let q := IZR k * k_qstep (dc y) in
                      if Req_EM_T (cell_mean (dc y) x q * cell_occ x) 0 then 0 else nth (Z.to_nat k) (dval y) 0 / (cell_occ x * cell_mean (dc y) x q ^ 2))
                (zrange 0 (Z.of_nat (length (dval y))))).
  Proof.
    intros HT HC. pose proof deb_eval as HE.
    assert (EA : atoms (debye_view x) = cell_occ x) by (unfold atoms, cell_occ; cbn [d_occ d_mult d_n debye_view]; apply (sites_cell x c_occ)).
    rewrite (C34_F ops sf mw env _ _ _ d y Hd (or_intror eq_refl) HE (deb_occ HT)) by now rewrite EA.
    f_equal. apply map_ext. intros k. cbv zeta. unfold normalised.
    assert (EM : mean_of (own_sf (dc y) (debye_view x)) (debye_view x) (IZR k * k_qstep (dc y)) = cell_mean (dc y) x (IZR k * k_qstep (dc y))).
    { unfold mean_of, cell_mean. rewrite EA. f_equal. unfold own_sf. cbn [d_occ d_mult d_n d_type debye_view]. apply (sites_cell x (fun a => k_sf (dc y) (c_type a) (IZR k * k_qstep (dc y)) * c_occ a)). }
    rewrite EM, EA. unfold Reqb. destruct (Req_EM_T _ _); reflexivity.
  Qed.
End Deb.

(** ** PDFCalculator *)
Lemma view_occ w x : tot_occ (pdf_view w x) = cell_occ x.
Proof. unfold tot_occ, cell_occ. cbn [p_occ p_mult p_n pdf_view]. apply (sites_cell x c_occ). Qed.
Lemma view_mean c w x : mean_sf c (pdf_view w x) = cell_b c x.
Proof. unfold mean_sf, cell_b. rewrite view_occ. f_equal. unfold site_sf. cbn [p_type p_occ p_mult p_n pdf_view]. apply (sites_cell x (fun a => c_sftable c (c_type a) * c_occ a)). Qed.
Lemma view_rdf c w x S r : rdf c (pdf_view w x) S r = cell_rdf c x S r.
Proof. unfold rdf, cell_rdf. rewrite view_occ, view_mean. unfold Reqb. destruct (Req_EM_T _ _); [ring|reflexivity]. Qed.
Lemma view_slope w x mask : good_env (env_of x) -> linear_slope mask (pdf_view w x) = -4 * PI * atom_density x * open_fraction x mask.
Proof.
  intros GE. unfold linear_slope. rewrite view_occ. cbn [p_numdens pdf_view]. rewrite (density_cell x GE). unfold open_fraction. cbv zeta. f_equal. replace (cell_occ x * cell_occ x) with (cell_occ x ^ 2) by ring. f_equal. unfold allowed_occ.
  cbn [p_n p_occ p_mult pdf_view]. change (countSites x) with (length (atoms_of x)). apply sumf_ext. intros i Hi. apply in_seq in Hi. apply sumf_ext. intros j Hj. apply in_seq in Hj. destruct (mask i j); [|reflexivity].
  rewrite !mult_view by lia. reflexivity.
Qed.
Section Pdf.
  Context (ops : list pop) (pk : profile) (sf : string -> R) (env : list (R -> R)) (e : pstru) (d : pdfc) (x : adp) (w : pwmodel) (masked : bool) (mask : nat -> nat -> bool) (full : bool).
  Context (GE : good_env (env_of x)) (Hd : prun ops (newPDF pk sf env e) = Ok d).
  Notation T y := (visited w masked mask full (fst (PdfGrid.bondLimits y)) (snd (PdfGrid.bondLimits y)) x).
  Lemma pdf_pairs lo hi : PdfSpec.pairs_ok (pdf_view w x) (visited w masked mask full lo hi x).
  Proof. intros b z H. destruct (in_visited x GE w _ _ masked mask full b z H) as (H0 & H1 & H2). cbn [p_n pdf_view]. split; [exact H0|]. split; [exact H1|]. lra. Qed.
  Lemma pdf_state : exists y, pdf_eval w masked mask full x d = Ok y /\ pstep (PEval (pdf_view w x) (T y)) d = Ok y /\ wf d /\ cf y = cf d /\ PdfFinal.shows y (pdf_view w x) (peaks (cf y) (pdf_view w x) (T y)) /\ same_but_value (PdfGrid.setStructure (pdf_view w x) d) y.
  Proof.
    assert (W : wf d). { destruct (prun_ok ops pk sf env e) as (z & Ez & Wz). rewrite Hd in Ez. now injection Ez as ->. }
    set (z := PdfGrid.setStructure (pdf_view w x) d). destruct (eval_shows d _ (T z) W (pdf_pairs _ _)) as (y & E & Ec & S). exists y.
    assert (B : PdfGrid.bondLimits y = PdfGrid.bondLimits z /\ same_but_value z y).
    { cbn [pstep] in E. fold z in E. destruct (wf_setStructure (pdf_view w x) d (wf_conf d W)) as [W1 _]. destruct (addPairs_spec (T z) z W1) as (y' & Ez & _ & SB & _). rewrite Ez in E. injection E as ->.
      split; [|exact SB]. destruct SB as (S1 & _ & _ & S4 & _). unfold PdfGrid.bondLimits. now rewrite S1, S4. }
    destruct B as [B SB]. rewrite B. split; [exact E|]. split; [exact E|]. split; [exact W|]. split; [exact Ec|]. split; [now rewrite Ec|exact SB].
  Qed.
  Lemma pdf_peaks c lo hi P r : neighbours_in lo hi x P -> sums_ok w x masked mask full ->
    peaks c (pdf_view w x) (visited w masked mask full lo hi x) r = peak_sum c w x mask P r.
  Proof.
    intros HN HO.
    set (H := fun (a b : catom) (d f : R) => if Rltb (d + xboundlo (c_pk c) f - c_rstep c) r && Rleb r (d + xboundhi (c_pk c) f)
      then c_sftable c (c_type a) * c_occ a * (c_sftable c (c_type b) * c_occ b) * (pkf (c_pk c) (r - d) f * (r / d)) else 0).
    transitivity (vsum x w lo hi masked mask H full).
    - unfold peaks, vsum. apply sumf_ext. intros [b z] Hb. cbn [fst snd]. unfold peak_at, reached, peak_lo, peak_hi, H, site_sf. cbn [p_type p_occ pdf_view].
      destruct (_ && _); ring.
    - rewrite (visited_sum x GE w lo hi masked mask H P full HN HO).
      + apply over_ext. intros i j im _ _ _ b. unfold H, atom_b. cbv zeta. destruct (_ && _); ring.
      + intros _ a b r0 f. unfold H. destruct (_ && _); ring.
  Qed.
End Pdf.
