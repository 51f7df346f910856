(** Proofs for C98. *)
From Coq Require Import String Permutation.
From Verif Require Import RBase R3 Trig Sums Lattice Crystal CrystalSpec CrystalProofs CrystalTensor StructDiff StructDiffSpec StructDiffProofs Evaluator EvaluatorSpec
  PeakWidth PeakWidthSpec PeakWidthProofs PdfGrid PdfSpec PdfProofs PdfMain PdfExample PdfFinal BondGen BondGenSpec World WorldSpec WorldAtoms WorldProofs WorldMain WorldTotal OrbitSpec OrbitGroup OrbitSum OrbitWorld OrbitExample
  Visited VisitedSpec VisitedProofs VisitedHalf VisitedMain VisitedCalc AllPeaksSpec.
Import ListNotations.
Open Scope R_scope.
Notation length := List.length.

(** ** Widths *)
Section Widths.
  Context (x : adp) (GE : good_env (env_of x)).
  Notation cls := (fst (createBondGenerator x)).
  Notation M := (snd (createBondGenerator x)).
  Lemma image_turned i j y : orderly true x -> (i < length (atoms_of x))%nat -> (j < length (atoms_of x))%nat -> image_ok cls M [j] y ->
    exists N, orthogonal N /\ b_u1 (bond_at cls M i [j] y) = mm N (mm (c_uij (atom_at x j)) (tr N)) /\ (~ has_symmetry (env_of x) -> N = mid).
  Proof.
    intros HO Hi Hj HI. rewrite create_view in *. destruct y as [[k t] T]. destruct (nth_error (atoms_of x) j) as [b|] eqn:Eb; [|apply nth_error_None in Eb; lia].
    assert (EA : atom_at x j = b) by (unfold atom_at; now apply nth_error_nth). rewrite EA. pose proof (nth_error_In _ _ Eb) as Hb.
    assert (OM : orthogonal mid) by (unfold orthogonal; rewrite tr_id; apply mm_id_l).
    destruct HI as [HK HI]. cbn in HK. assert (k = O) as -> by lia. cbn [nth] in HI. unfold orderly in HO. destruct (env_of x) as [|L|L p ops] eqn:Ee.
    - exists mid. rewrite mm_mid_conj. cbn [gview fst snd bond_at nth b_u1 image_u] in *. unfold suij, plain. rewrite (nth_map_some _ _ _ b _ Eb). auto.
    - exists mid. rewrite mm_mid_conj. cbn [gview fst snd bond_at nth b_u1 image_u] in *. unfold suij. rewrite (nth_map_some _ _ _ b _ Eb). auto.
    - destruct HO as [SG HA]. destruct (HA b Hb) as [EX TF]. specialize (TF eq_refl).
      cbn [gview fst snd] in HI. change (stru_of (mkCr (atoms_of x) L ops p [] false)) with (snd (gview (Symmetric L p ops) (atoms_of x))) in HI.
      rewrite (eqv L p ops (atoms_of x) j b Eb), map_length in HI.
      assert (Ht : (t < length (fpos L p ops b))%nat) by (unfold fpos; rewrite map_length; exact HI).
      unfold bond_at. cbn [nth b_u1]. rewrite (u_pos L p ops (atoms_of x) j b t Eb Ht).
      destruct (follow_ften L p ops GE b TF) as [F F0].
      pose proof (crystal_orbit L p ops GE b EX) as OB. pose proof (first_pos L p ops GE b) as H0.
      destruct (orbit_joined L ops SG _ _ (pos (fpos L p ops b) 0) (pos (fpos L p ops b) t) OB (pos_in _ _ H0) (pos_in _ _ Ht)) as (o & Ho & S).
      destruct (op_cart L ops (crystal_consistent L p ops GE) SG o Ho) as (N & HN & HL).
      exists N. rewrite (F o N 0%nat t Ho HN H0 Ht S), F0. split; [now apply isometry_orthogonal|]. split; [reflexivity|]. intros K. now destruct K.
  Qed.
  Definition ub i j (b : bond) := mkUB (BondGen.b_r01 b) (c_uij (atom_at x i)) (c_anis (atom_at x i)) (b_u1 b) (c_anis (atom_at x j)).
  Definition us : list usite := map (fun a => mkUS (c_uij a) (c_anis a)) (atoms_of x).
  Lemma at_in i : (i < length (atoms_of x))%nat -> In (mkUS (c_uij (atom_at x i)) (c_anis (atom_at x i))) us.
  Proof. intros H. unfold us. apply in_map_iff. exists (atom_at x i). split; [reflexivity|]. unfold atom_at. now apply nth_In. Qed.
  Lemma dw_steady i j y rmin rmax : steady x -> (i < length (atoms_of x))%nat -> (j < length (atoms_of x))%nat -> image_ok cls M [j] y ->
    0 < b_distance (bond_at cls M i [j] y) -> dw_calculate (ub i j (bond_at cls M i [j] y)) <= dw_maxWidth (Some us) rmin rmax.
  Proof.
    intros HS Hi Hj HI HD. set (b := bond_at cls M i [j] y) in *.
    assert (D : 0 < PeakWidth.b_dist (ub i j b)). { unfold PeakWidth.b_dist, ub. cbn [PeakWidth.b_r01]. unfold b in *. now rewrite <- bond_norm. }
    assert (B : forall N, orthogonal N -> b_u1 b = mm N (mm (c_uij (atom_at x j)) (tr N)) -> PeakWidthSpec.bond_of us N (ub i j b)).
    { intros N HN HU. split; [exact HN|]. exists (mkUS (c_uij (atom_at x i)) (c_anis (atom_at x i))), (mkUS (c_uij (atom_at x j)) (c_anis (atom_at x j))). unfold ub. cbn [b_U0 b_a0 b_U1 b_a1 s_U s_aniso].
      split; [now apply at_in|]. split; [now apply at_in|]. repeat split; auto. }
    destruct HS as [[HO HS]|[NS HS]].
    - destruct (image_turned i j y HO Hi Hj HI) as (N & HN & HU & _). apply (dw_spherical us N); [now apply B|]. intros s Hs. unfold us in Hs. apply in_map_iff in Hs as (a & <- & Ha). now apply HS.
    - assert (HO : orderly true x) by (unfold orderly; destruct (env_of x); auto; now destruct NS).
      destruct (image_turned i j y HO Hi Hj HI) as (N & HN & HU & HM). rewrite (HM NS) in *. apply dw_diagonal; [now apply B|]. intros s Hs. unfold us in Hs. apply in_map_iff in Hs as (a & <- & Ha). now apply HS.
  Qed.
  Lemma width_bounded w i j y rmin rmax : tame w x -> (i < length (atoms_of x))%nat -> (j < length (atoms_of x))%nat -> image_ok cls M [j] y ->
    0 < b_distance (bond_at cls M i [j] y) -> width_of w x i j (bond_at cls M i [j] y) <= pw_maxWidth w x rmin rmax.
  Proof.
    intros HT Hi Hj HI HD. unfold width_of, pw_maxWidth, pw_calculate. destruct w as [c| |p]; cbn [tame] in HT.
    - unfold cw_calculate, cw_maxWidth. lra.
    - now apply dw_steady.
    - destruct HT as (HS & H1 & H2 & H3 & H4). pose proof (dw_steady i j y rmin rmax HS Hi Hj HI HD) as B. unfold ub, us in B. set (b := mkUB _ _ _ _ _) in *.
      pose proof (dw_nonneg b) as N0. unfold jeong_calculate, jeong_maxWidth. cbv zeta. fold us. unfold us. set (W := dw_maxWidth _ _ _) in *. rewrite H4, !Rmult_0_l, !Rplus_0_r.
      set (m := Rmax 1 _). assert (Hm : 1 <= m) by apply Rmax_l. assert (Sm : 1 <= sqrt m) by (rewrite <- sqrt_1; now apply sqrt_le_1_alt). assert (WM : W <= W * sqrt m) by nra.
      set (c := msdSharpeningRatio p (PeakWidth.b_dist b)). assert (C1 : c <= 1).
      { unfold c, msdSharpeningRatio. rewrite H3, !Rmult_0_l. destruct (Rltb _ _) eqn:E; [lra|]. apply Rltb_false in E. pose proof PeaksProofs.eps_pos as K. set (r := PeakWidth.b_dist b) in *. assert (0 < r) by lra.
        assert (0 <= j_delta1 p / r) by (apply Rmult_le_pos; [exact H1|left; now apply Rinv_0_lt_compat]). assert (0 <= j_delta2 p / (r * r)) by (apply Rmult_le_pos; [exact H2|left; apply Rinv_0_lt_compat; nra]). lra. }
      destruct (Rleb c 0) eqn:E; [lra|]. apply Rleb_false in E. assert (S1 : sqrt c <= 1) by (rewrite <- sqrt_1; now apply sqrt_le_1_alt). pose proof (sqrt_pos c). nra.
  Qed.
End Widths.

(** ** Distances *)
Lemma reach_limits c s r d f : settings_ok c -> nonempty_range c -> room c s -> widening (c_pk c) -> f <= p_maxwidth s (c_rmin c) (c_rmax c) -> 0 <= d ->
  In r (grid (rminSteps (c_rmin c) (c_rstep c)) (rmaxSteps (c_rmax c) (c_rstep c)) (c_rstep c)) -> interior c s r ->
  d + xboundlo (c_pk c) f - c_rstep c < r <= d + xboundhi (c_pk c) f ->
  let l := cacheRlimitsData c s in IZR (calclo l) * c_rstep c <= d <= IZR (calchi l) * c_rstep c.
Proof.
  intros Hc Hne HR HW Hf Hb Hr [I1 I2] [R1 R2] l. pose proof PdfProofs.eps_pos as He. assert (Hd : SQRT_DOUBLE_EPS < c_rstep c) by apply Hc.
  apply In_grid in Hr. destruct Hr as (n & Er & Hn1 & Hn2).
  destruct (ext_limits c s Hc Hne) as (e' & E' & H1 & H2 & H3 & H4 & H5 & H6).
  assert (Hm : extFromTerminationRipples c + extFromPeakTails c s <= c_maxext c) by (rewrite ripple_is; exact HR). destruct (H5 Hm) as [-> ->]. rewrite ripple_is in *.
  change (extFromPeakTails c s) with (tail_width c s) in *.
  assert (WE : whole_extension c s = ripple_width c + tail_width c s) by (unfold whole_extension; now rewrite Rmin_left). rewrite WE in I1.
  assert (RW : 0 <= ripple_width c) by lra.
  destruct (HW f _ Hf) as [W1 W2]. assert (T : - tail_width c s <= xboundlo (c_pk c) f /\ xboundhi (c_pk c) f <= tail_width c s).
  { unfold tail_width. cbv zeta. set (W := p_maxwidth s (c_rmin c) (c_rmax c)) in *. pose proof (Rmax_l (Rabs (xboundlo (c_pk c) W)) (Rabs (xboundhi (c_pk c) W))). pose proof (Rmax_r (Rabs (xboundlo (c_pk c) W)) (Rabs (xboundhi (c_pk c) W))).
    pose proof (Rle_abs (- xboundlo (c_pk c) W)) as K. rewrite Rabs_Ropp in K. pose proof (Rle_abs (xboundhi (c_pk c) W)). lra. }
  unfold l. rewrite H6. cbn [calclo calchi]. set (dr := c_rstep c) in *. assert (Hd0 : 0 < dr) by lra.
  apply (rminSteps_le _ _ _ Hd) in Hn1. apply (rmaxSteps_lt _ _ _ Hd0) in Hn2. rewrite <- Er in *. set (E := ripple_width c + tail_width c s) in *. split.
  - destruct (Z_le_dec (rminSteps (c_rmin c - E) dr) 0) as [K|K].
    + rewrite Z.max_l by lia. rewrite Rmult_0_l. lra.
    + rewrite Z.max_r by lia. set (k := rminSteps (c_rmin c - E) dr) in *.
      assert (L : ~ c_rmin c - E - SQRT_DOUBLE_EPS <= IZR (k - 1) * dr). { intros L. apply (rminSteps_le _ _ _ Hd) in L. fold k in L. lia. }
      rewrite minus_IZR in L. destruct I1 as [I1|I1]; [|unfold E in L; lra].
      exfalso. apply K. apply (rminSteps_le _ _ _ Hd). rewrite Rmult_0_l. lra.
  - set (k := rmaxSteps (c_rmax c + E) dr). assert (L : ~ IZR k * dr < c_rmax c + E). { intros L. apply (rmaxSteps_lt _ _ _ Hd0) in L. fold k in L. lia. }
    unfold E in L. lra.
Qed.

(** ** Sums *)
Lemma wider_sum x mask lo hi lo' hi' P P' g : lo' <= lo -> hi <= hi' -> neighbours_in lo hi x P -> neighbours_in lo' hi' x P' ->
  (forall i j y, (i < length (atoms_of x))%nat -> (j < length (atoms_of x))%nat -> image_ok (fst (createBondGenerator x)) (snd (createBondGenerator x)) [j] y ->
     let b := bond_at (fst (createBondGenerator x)) (snd (createBondGenerator x)) i [j] y in / 67108864 < b_distance b -> g i j b <> 0 -> lo <= b_distance b <= hi) ->
  over_pairs x mask P g = over_pairs x mask P' g.
Proof.
  intros Hl Hh HN HN' HZ. unfold over_pairs, neighbours_in in *. destruct (createBondGenerator x) as [cls M]. cbn [fst snd] in HZ.
  apply sumf_ext. intros i Hi. apply in_seq in Hi. apply sumf_ext. intros j Hj. apply in_seq in Hj. destruct (mask i j); [|reflexivity].
  assert (Li : (i < length (atoms_of x))%nat) by lia. assert (Lj : (j < length (atoms_of x))%nat) by lia.
  destruct (HN i j Li Lj) as [N1 I1]. destruct (HN' i j Li Lj) as [N2 I2]. set (D := image_distance cls M i [j]) in *.
  assert (ED : forall y, b_distance (bond_at cls M i [j] y) = D y) by (intros [[k s] T]; reflexivity).
  set (p := fun y => Rleb lo (D y) && Rleb (D y) hi).
  assert (PM : Permutation (P i j) (filter p (P' i j))).
  { apply NoDup_Permutation; [exact N1|now apply NoDup_filter|]. intros y. rewrite I1, filter_In, I2. unfold p. rewrite andb_true_iff, !Rleb_true. unfold in_range. split.
    - intros (A & (B & C) & E). repeat split; auto; lra.
    - intros ((A & _ & E) & B & C). repeat split; auto. }
  rewrite (sumf_perm _ _ _ PM), sumf_filter. apply sumf_ext. intros y Hy. apply I2 in Hy as (A & B & C). unfold p. destruct (Rleb lo (D y) && Rleb (D y) hi) eqn:E; [reflexivity|].
  destruct (Req_dec (g i j (bond_at cls M i [j] y)) 0) as [Z|Z]; [lra|]. exfalso. specialize (HZ i j y Li Lj A). cbv zeta in HZ. rewrite ED in HZ. specialize (HZ C Z).
  apply not_true_iff_false in E. apply E. rewrite andb_true_iff, !Rleb_true. exact HZ.
Qed.
Section Eval.
  Context (ops : list pop) (pk : profile) (sf : string -> R) (env : list (R -> R)) (e : pstru) (d : pdfc) (x : adp) (w : pwmodel) (masked : bool) (mask : nat -> nat -> bool) (full : bool).
  Context (GE : good_env (env_of x)) (Hd : prun ops (newPDF pk sf env e) = Ok d).
  Theorem all_peaks : sums_ok w x masked mask full -> tame w x -> widening (c_pk (cf d)) -> room (cf d) (pdf_view w x) ->
    exists y v, pdf_eval w masked mask full x d = Ok y /\ cf y = cf d /\ PdfGrid.getRDF y = Ok v /\ length v = length (PdfGrid.getRgrid y) /\
    forall lo hi P, lo <= fst (PdfGrid.bondLimits y) -> snd (PdfGrid.bondLimits y) <= hi -> neighbours_in lo hi x P ->
    forall n, (n < length v)%nat -> interior (cf d) (pdf_view w x) (nth n (PdfGrid.getRgrid y) 0) ->
      nth n v 0 = cell_rdf (cf d) x (peak_sum (cf d) w x mask P) (nth n (PdfGrid.getRgrid y) 0).
  Proof.
    intros HO HT HW HR. destruct (pdf_state ops pk sf env e d x w masked mask full GE Hd) as (y & E & Es & W & Ec & S & SB). exists y.
    destruct (neighbours_exist (gq (fst (PdfGrid.bondLimits y)) (snd (PdfGrid.bondLimits y)) false (fun _ _ => true) (fun _ _ _ => 0)) tt x GE) as [P0 HP0]. change (neighbours_in (fst (PdfGrid.bondLimits y)) (snd (PdfGrid.bondLimits y)) x P0) in HP0.
    exists (map (cell_rdf (cf d) x (peak_sum (cf d) w x mask P0)) (PdfGrid.getRgrid y)).
    split; [exact E|]. split; [exact Ec|]. split; [|split; [apply map_length|]].
    { rewrite (proj1 (shows_presents _ _ _ S)). f_equal. apply map_ext. intros r. rewrite view_rdf. unfold cell_rdf. rewrite (pdf_peaks x w masked mask full GE (cf y) _ _ P0 r HP0 HO). now rewrite Ec. }
    intros lo hi P Hlo Hhi HP n Hn HI. rewrite map_length in Hn. rewrite (nth_indep _ 0 (cell_rdf (cf d) x (peak_sum (cf d) w x mask P0) 0)) by now rewrite map_length. rewrite map_nth.
    set (r := nth n (PdfGrid.getRgrid y) 0) in *. assert (Hr : In r (PdfGrid.getRgrid y)) by now apply nth_In.
    unfold cell_rdf. replace (peak_sum (cf d) w x mask P0 r) with (peak_sum (cf d) w x mask P r); [reflexivity|]. symmetry.
    assert (Wy : wf y) by (destruct (eval_current _ _ _ _ W (or_intror (or_introl (ex_intro _ _ eq_refl))) (or_introl Es)) as (K & _); exact K).
    destruct (eval_current _ _ _ _ W (or_intror (or_introl (ex_intro _ _ eq_refl))) (or_introl Es)) as (_ & C & Ey & _). unfold current in C. rewrite Ey, Ec in C.
    pose proof (wf_conf y Wy) as Hc. rewrite Ec in Hc. unfold PdfGrid.getRgrid in Hr. rewrite Ec in Hr.
    assert (Hne : nonempty_range (cf d)).
    { destruct (Z_lt_dec (rminSteps (c_rmin (cf d)) (c_rstep (cf d))) (rmaxSteps (c_rmax (cf d)) (c_rstep (cf d)))) as [|K]; [assumption|]. apply In_grid in Hr as (m & _ & Hm). lia. }
    unfold peak_sum. apply (wider_sum x mask (fst (PdfGrid.bondLimits y)) (snd (PdfGrid.bondLimits y)) lo hi); auto.
    intros i j im Hi Hj Him b Hb. cbv zeta. destruct (Rltb _ _ && Rleb _ _) eqn:B; [|intros K; now destruct K]. intros _. rewrite andb_true_iff, Rltb_true, Rleb_true in B.
    pose proof (width_bounded x GE w i j im (c_rmin (cf d)) (c_rmax (cf d)) HT Hi Hj Him ltac:(fold b; lra)) as WB. fold b in WB.
    pose proof (reach_limits (cf d) (pdf_view w x) r (b_distance b) _ Hc Hne HR HW WB ltac:(lra) Hr HI B) as L. cbv zeta in L. rewrite <- C in L. unfold PdfGrid.bondLimits. rewrite Ec. cbn [fst snd]. exact L.
  Qed.
End Eval.
