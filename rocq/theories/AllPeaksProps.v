(** Property C98: PDFCalculator takes all neighbours into account whose peaks reach the r-grid. *)
From Coq Require Import String.
From Verif Require Import RBase R3 Trig Sums Lattice Crystal CrystalSpec StructDiff StructDiffSpec Peaks PeaksProofs PeakWidth PeakWidthSpec PeakWidthProofs PdfGrid PdfSpec PdfProofs PdfMain PdfExample PdfFinal
  BondGen BondGenSpec World WorldSpec OrbitSpec OrbitWorld CrystalExample OrbitExample Visited VisitedSpec VisitedProofs VisitedMain VisitedCalc VisitedProps AllPeaksSpec AllPeaksProofs.
Import ListNotations.
Open Scope R_scope.
Notation length := List.length.

(** maxWidth bounds the widths of all pairs at any distance, for widths that do not grow with it. *)
Theorem C98_widths x w i j y rmin rmax : good_env (env_of x) -> tame w x -> (i < length (atoms_of x))%nat -> (j < length (atoms_of x))%nat ->
  let (cls, M) := createBondGenerator x in
  image_ok cls M [j] y -> 0 < image_distance cls M i [j] y -> width_of w x i j (bond_at cls M i [j] y) <= pw_maxWidth w x rmin rmax.
Proof.
  intros GE HT Hi Hj. pose proof (width_bounded x GE w i j y rmin rmax HT Hi Hj) as H. destruct (createBondGenerator x) as [cls M]. cbn [fst snd] in H. intros HI HD. apply H; [exact HI|]. now destruct y as [[k s] T].
Qed.
Print Assumptions C98_widths.
(** After any history of calls eval(structure) gives at each interior point of the grid the sum of the peaks of all neighbours,
    however far they are: P may list those in any range that contains the limits of the bond generator. *)
Theorem C98_rdf_partial ops pk sf env e d x w masked mask full :
  good_env (env_of x) -> prun ops (newPDF pk sf env e) = Ok d -> sums_ok w x masked mask full -> tame w x -> widening (c_pk (cf d)) -> room (cf d) (pdf_view w x) ->
  exists y v, pdf_eval w masked mask full x d = Ok y /\ cf y = cf d /\ PdfGrid.getRDF y = Ok v /\ length v = length (PdfGrid.getRgrid y) /\
  forall lo hi P, lo <= fst (PdfGrid.bondLimits y) -> snd (PdfGrid.bondLimits y) <= hi -> neighbours_in lo hi x P ->
  forall n, (n < length v)%nat -> interior (cf d) (pdf_view w x) (nth n (PdfGrid.getRgrid y) 0) ->
    nth n v 0 = cell_rdf (cf d) x (peak_sum (cf d) w x mask P) (nth n (PdfGrid.getRgrid y) 0).
Proof. intros GE Hd HO HT HW HR. exact (all_peaks ops pk sf env e d x w masked mask full GE Hd HO HT HW HR). Qed.
Print Assumptions C98_rdf_partial.
(** When Qmax cuts the ripples off, all points of the grid are interior. *)
Theorem C98_qmax ops pk sf env e d x w masked mask full :
  good_env (env_of x) -> prun ops (newPDF pk sf env e) = Ok d -> sums_ok w x masked mask full -> tame w x -> widening (c_pk (cf d)) -> room (cf d) (pdf_view w x) ->
  0 < ripple_width (cf d) ->
  exists y, pdf_eval w masked mask full x d = Ok y /\ cf y = cf d /\
  forall lo hi P, lo <= fst (PdfGrid.bondLimits y) -> snd (PdfGrid.bondLimits y) <= hi -> neighbours_in lo hi x P ->
    PdfGrid.getRDF y = Ok (map (cell_rdf (cf d) x (peak_sum (cf d) w x mask P)) (PdfGrid.getRgrid y)).
Proof.
  intros GE Hd HO HT HW HR HQ. destruct (all_peaks ops pk sf env e d x w masked mask full GE Hd HO HT HW HR) as (y & v & E & Ec & Ev & Lv & H). exists y. split; [exact E|]. split; [exact Ec|].
  intros lo hi P Hlo Hhi HP. rewrite Ev. f_equal. apply (nth_ext _ _ 0 (cell_rdf (cf d) x (peak_sum (cf d) w x mask P) 0)); [now rewrite map_length|]. intros n Hn. rewrite map_nth. apply (H lo hi P Hlo Hhi HP n Hn).
  assert (Hr : In (nth n (PdfGrid.getRgrid y) 0) (PdfGrid.getRgrid y)) by (apply nth_In; now rewrite <- Lv). set (r := nth n (PdfGrid.getRgrid y) 0) in *. unfold PdfGrid.getRgrid in Hr. rewrite Ec in Hr.
  assert (Hc : settings_ok (cf d)). { destruct (prun_ok ops pk sf env e) as (z & Ez & Wz). rewrite Hd in Ez. injection Ez as <-. now apply wf_conf. }
  assert (Hs : SQRT_DOUBLE_EPS < c_rstep (cf d)) by apply Hc. pose proof PdfProofs.eps_pos as He. assert (Hs0 : 0 < c_rstep (cf d)) by lra.
  apply In_grid in Hr as (k & -> & K1 & K2). apply (rminSteps_le _ _ _ Hs) in K1. apply (rmaxSteps_lt _ _ _ Hs0) in K2.
  assert (RW : 12 * c_rstep (cf d) <= ripple_width (cf d)).
  { unfold ripple_width in *. cbv zeta in *. set (Q := Rmin _ _) in *. destruct (Rlt_dec SQRT_DOUBLE_EPS Q) as [Q1|]; [|lra]. destruct (Rlt_dec Q (PI / c_rstep (cf d) - SQRT_DOUBLE_EPS)) as [Q2|]; [|lra].
    assert (Q3 : Q * c_rstep (cf d) <= PI). { apply Rle_trans with (PI / c_rstep (cf d) * c_rstep (cf d)); [apply Rmult_le_compat_r; lra|right; field; lra]. }
    replace (6 * (2 * PI / Q)) with (12 * (PI / Q)) by (field; lra). apply Rmult_le_compat_l; [lra|]. apply (Rmult_le_reg_r Q); [lra|]. replace (PI / Q * Q) with PI by (field; lra). lra. }
  split; [right|]; lra.
Qed.
Print Assumptions C98_qmax.
(** The profiles of the library are such profiles, after any number of setPrecision calls. *)
Definition gaussian (es : list R) : profile := {| xboundlo := gauss_lo (gauss_hist es); xboundhi := gauss_hi (gauss_hist es); pkf := gauss_at (gauss_hist es) |}.
Theorem C98_profiles es : widening (gaussian es) /\
  forall f, widening {| xboundlo := gauss_lo (cbase (cropped_hist es)); xboundhi := gauss_hi (cbase (cropped_hist es)); pkf := f |}.
Proof.
  assert (G : forall p f, 0 <= ghalf p -> widening {| xboundlo := gauss_lo p; xboundhi := gauss_hi p; pkf := f |}).
  { intros p f H a b Hab. cbn [xboundlo xboundhi]. unfold gauss_lo, gauss_hi. destruct (Rleb a 0) eqn:A; destruct (Rleb b 0) eqn:B; rb; try lra; nra. }
  assert (S : forall eps p, 0 <= ghalf (gauss_setPrecision eps p)) by (intros eps p; unfold gauss_setPrecision; cbn [ghalf]; destruct (Rltb _ _); [apply sqrt_pos|lra]).
  assert (H1 : forall l p, 0 <= ghalf p -> 0 <= ghalf (fold_left (fun p e => gauss_setPrecision e p) l p)) by (induction l as [|a l IH]; intros p Hp; cbn [fold_left]; auto).
  assert (H2 : forall l p, 0 <= ghalf (cbase p) -> 0 <= ghalf (cbase (fold_left (fun p e => cropped_setPrecision e p) l p))) by (induction l as [|a l IH]; intros p Hp; cbn [fold_left]; auto; apply IH; cbn [cropped_setPrecision cbase]; apply S).
  split; [|intros f]; apply G; [apply H1; apply S|apply H2; cbn [cropped_new cropped_setPrecision cbase]; apply S].
Qed.
Print Assumptions C98_profiles.
(** Missing: the Jeong model announces the width at rmax, and with Q-broadening farther peaks are wider. Two atoms at a distance
    of 1000 have a peak that covers the whole grid, and the RDF is zero everywhere. *)
Definition near_atom : catom := mkCA vzero (M3 0 0 0 0 0 0 0 0 0) "C"%string 1 false.
Definition far_atom : catom := mkCA (V3 1000 0 0) (M3 0 0 0 0 0 0 0 0 0) "C"%string 1 false.
Definition far_pair : adp := Adp 0 (Atomic [near_atom; far_atom]).
Definition broad : pwmodel := PWJeong (mkJ 0 0 0 (1 / 10)).
Definition far_pdf : pdfc := newPDF (gaussian []) (fun _ => 1) [] ex_none.
Lemma far_steady : steady far_pair.
Proof. right. split; [cbn; auto|]. intros a [<-|[<-|[]]]; cbn; discriminate. Qed.
Lemma half13 : ghalf (gauss_hist []) = sqrt 13.
Proof.
  cbn [gauss_hist fold_left]. unfold gauss_new, gauss_setPrecision. cbn [ghalf]. rewrite Rmax_left by lra. pose proof PeaksProofs.eps_pos as H0.
  assert (H1 : Peaks.DOUBLE_EPS < 1) by (unfold Peaks.DOUBLE_EPS; lra). replace (Rltb Peaks.DOUBLE_EPS 1) with true by (symmetry; now apply Rltb_true). f_equal.
  assert (E : Peaks.DOUBLE_EPS = / (2 ^ 52)) by (unfold Peaks.DOUBLE_EPS; lra). rewrite E, ln_Rinv by lra. rewrite ln_pow by lra. assert (0 < ln 2) by (rewrite <- ln_1; apply ln_increasing; lra). cbn [INR]. field. lra.
Qed.
Lemma far_maxwidth : p_maxwidth (pdf_view broad far_pair) 0 10 = 1.
Proof.
  cbn [pdf_view p_maxwidth pw_maxWidth broad]. unfold jeong_maxWidth. cbv zeta. assert (E : dw_maxWidth (Some (map (fun a => mkUS (c_uij a) (c_anis a)) (atoms_of far_pair))) 0 10 = 0).
  { unfold dw_maxWidth. cbv zeta. assert (M : maxUii (Some (map (fun a => mkUS (c_uij a) (c_anis a)) (atoms_of far_pair))) = 0).
    { cbn [atoms_of far_pair map maxUii fold_left s_U c_uij near_atom far_atom x00 x11 x22]. assert (Z : max_step 0 0 = 0) by (unfold max_step; now destruct (Rltb 0 0)). now rewrite !Z. }
    rewrite M. destruct (Rleb (2 * 0) 0) eqn:B; [reflexivity|]. rb. lra. }
  rewrite E. cbn [j_qbroad_sep]. lra.
Qed.
Lemma far_tails : tail_width (cf far_pdf) (pdf_view broad far_pair) = sqrt 13.
Proof.
  unfold tail_width. cbv zeta. change (c_rmin (cf far_pdf)) with 0. change (c_rmax (cf far_pdf)) with 10. rewrite far_maxwidth. change (c_pk (cf far_pdf)) with (gaussian []). cbn [gaussian xboundlo xboundhi]. unfold gauss_lo, gauss_hi.
  replace (Rleb 1 0) with false by (symmetry; apply Rleb_false; lra). rewrite half13. pose proof (sqrt_pos 13). replace (-1 * (sqrt 13 * 1)) with (- sqrt 13) by ring. rewrite Rabs_Ropp, Rmult_1_r, Rabs_pos_eq by lra. apply Rmax_left. lra.
Qed.
Lemma far_ripples : ripple_width (cf far_pdf) = 0.
Proof.
  unfold ripple_width. cbv zeta. change (c_qmax (cf far_pdf)) with DOUBLE_MAX. change (c_rstep (cf far_pdf)) with (1 / 100). pose proof PdfProofs.eps_pos.
  destruct (Rlt_dec _ _); [|reflexivity]. destruct (Rlt_dec _ _) as [K|]; [|reflexivity]. exfalso. pose proof PI_4. pose proof PI_RGT_0. rewrite Rmin_right in K; [lra|]. apply Rle_trans with (IZR 1000); [lra|]. apply IZR_le. vm_compute. discriminate.
Qed.
Lemma s13 : 3 < sqrt 13 < 4.
Proof. split; apply Rsqr_incrst_0; try apply sqrt_pos; try lra; rewrite Rsqr_sqrt by lra; unfold Rsqr; lra. Qed.

Lemma dist_sq u v q : 0 <= q -> vdot (vsub u v) (vsub u v) = q * q -> vdist u v = q.
Proof. intros H E. unfold vdist, vnorm. rewrite E. now apply sqrt_square. Qed.
Lemma far_images i j y : (i < 2)%nat -> (j < 2)%nat ->
  let (cls, M) := createBondGenerator far_pair in
  (image_ok cls M [j] y <-> y = (O, O, (0, 0, 0)%Z)) /\ (y = (O, O, (0, 0, 0)%Z) -> image_distance cls M i [j] y = if (i =? j)%nat then 0 else 1000).
Proof.
  intros Hi Hj. cbn [createBondGenerator far_pair]. split.
  - destruct y as [[k s] T]. cbn [image_ok length]. split; [intros (A & B & C)|intros [= -> -> ->]; auto]. assert (k = O) as -> by lia. now subst.
  - intros ->. cbn [image_distance nth image_pos home]. assert (E : forall n, (n < 2)%nat -> site_pos (plain [near_atom; far_atom]) n = V3 (1000 * INR n) 0 0).
    { intros n Hn. destruct n as [|[|n]]; [| |lia]; unfold site_pos; cbn; unfold vzero; f_equal; lra. }
    rewrite !E by assumption. assert (C : ((i = 0 /\ j = 0) \/ (i = 0 /\ j = 1) \/ (i = 1 /\ j = 0) \/ (i = 1 /\ j = 1))%nat) by lia.
    destruct C as [[-> ->]|[[-> ->]|[[-> ->]|[-> ->]]]]; cbn [Nat.eqb INR]; (apply dist_sq; [lra|]; unfold vdot, vsub; cbn [vx vy vz]; lra).
Qed.

Definition far_term (r : R) (i j : nat) (b : bond) : R :=
  let d := b_distance b in let fwhm := width_of broad far_pair i j b in
  if Rltb (d + xboundlo (gaussian []) fwhm - 1 / 100) r && Rleb r (d + xboundhi (gaussian []) fwhm)
  then INR (multiplicity (env_of far_pair) (atom_at far_pair i)) * atom_b (cf far_pdf) far_pair i * atom_b (cf far_pdf) far_pair j * (pkf (gaussian []) (r - d) fwhm * (r / d)) else 0.
Lemma far_positive r i j b : (i < 2)%nat -> (j < 2)%nat -> 0 < r < 10 -> b_distance b = 1000 -> vnorm (BondGen.b_r01 b) = 1000 -> 0 < far_term r i j b.
Proof.
  intros Hi Hj Hr D1 D2. unfold far_term. cbv zeta. rewrite D1. assert (F : 10000 <= width_of broad far_pair i j b).
  { unfold width_of, pw_calculate, broad, jeong_calculate. cbv zeta. unfold PeakWidth.b_dist. cbn [PeakWidth.b_r01]. rewrite D2. unfold msdSharpeningRatio. cbn [j_delta1 j_delta2 j_qbroad j_qbroad_sep].
    replace (Rltb 1000 Peaks.DOUBLE_EPS) with false by (symmetry; apply Rltb_false; unfold Peaks.DOUBLE_EPS; lra). replace (1 - 0 / 1000 - 0 / (1000 * 1000) + 0 * 1000 * (0 * 1000)) with 1 by field. replace (Rleb 1 0) with false by (symmetry; apply Rleb_false; lra).
    rewrite sqrt_1. match goal with |- context [dw_calculate ?u] => pose proof (dw_nonneg u) end. lra. }
  set (f := width_of broad far_pair i j b) in *. assert (S13 := s13). cbn [gaussian xboundlo xboundhi pkf]. unfold gauss_lo, gauss_hi, gauss_at. replace (Rleb f 0) with false by (symmetry; apply Rleb_false; lra). rewrite half13.
  replace (Rltb _ r && Rleb r _) with true by (symmetry; rewrite andb_true_iff, Rltb_true, Rleb_true; nra).
  assert (A : forall n, (n < 2)%nat -> atom_b (cf far_pdf) far_pair n = 1) by (intros n Hn; destruct n as [|[|n]]; [| |lia]; unfold atom_b, far_pdf, newPDF, atom_at, far_pair; cbn; ring). rewrite !A by assumption.
  cbn [multiplicity env_of far_pair INR]. rewrite !Rmult_1_l. apply Rmult_lt_0_compat; [|lra]. cbv zeta. apply Rmult_lt_0_compat; [|apply exp_pos]. apply Rdiv_lt_0_compat; [|lra]. apply Rmult_lt_0_compat; [lra|]. apply sqrt_lt_R0.
  apply Rdiv_lt_0_compat; [rewrite <- ln_1; apply ln_increasing; lra|apply PI_RGT_0].
Qed.
Lemma single {A} (l : list A) a : NoDup l -> (forall y, In y l <-> y = a) -> l = [a].
Proof.
  intros N H. destruct l as [|b l]; [destruct (proj2 (H a) eq_refl)|]. assert (b = a) as -> by (apply H; now left). destruct l as [|c l]; [reflexivity|]. exfalso. assert (c = a) as -> by (apply H; right; now left). inversion N as [|? ? K]; subst. apply K. now left.
Qed.
Theorem C98_broadening_refuted : exists x w d y P, good_env (env_of x) /\ prun [] (newPDF (gaussian []) (fun _ => 1) [] ex_none) = Ok d /\
  sums_ok w x false (fun _ _ => true) true /\ steady x /\ (exists p, w = PWJeong p /\ 0 <= j_delta1 p /\ 0 <= j_delta2 p /\ 0 <= j_qbroad p /\ 0 <= j_qbroad_sep p) /\
  widening (c_pk (cf d)) /\ room (cf d) (pdf_view w x) /\ pdf_eval w false (fun _ _ => true) true x d = Ok y /\
  fst (PdfGrid.bondLimits y) = 0 /\ snd (PdfGrid.bondLimits y) <= 1000 /\ neighbours_in 0 1000 x P /\
  (exists r, In r (PdfGrid.getRgrid y) /\ interior (cf d) (pdf_view w x) r) /\
  PdfGrid.getRDF y = Ok (map (fun _ => 0) (PdfGrid.getRgrid y)) /\
  forall r, In r (PdfGrid.getRgrid y) -> 0 < r -> 0 < cell_rdf (cf d) x (peak_sum (cf d) w x (fun _ _ => true) P) r.
Proof.
  assert (GE : good_env (env_of far_pair)) by exact I. assert (HO : sums_ok broad far_pair false (fun _ _ => true) true) by (intros _ i j; reflexivity). assert (S13 := s13).
  assert (RM : room (cf far_pdf) (pdf_view broad far_pair)) by (unfold room; rewrite far_ripples, far_tails; change (c_maxext (cf far_pdf)) with 10; lra).
  destruct (pdf_state [] (gaussian []) (fun _ => 1) [] ex_none far_pdf far_pair broad false (fun _ _ => true) true GE eq_refl) as (y & E & Es & W & Ec & SH & SB).
  destruct (C87_neighbours 0 1000 far_pair GE) as [P HP].
  exists far_pair, broad, far_pdf, y, P. split; [exact GE|]. split; [reflexivity|]. split; [exact HO|]. split; [exact far_steady|]. split; [eexists; split; [reflexivity|cbn; lra]|]. split; [exact (proj1 (C98_profiles []))|]. split; [exact RM|]. split; [exact E|].
  destruct (eval_current _ _ _ _ W (or_intror (or_introl (ex_intro _ _ eq_refl))) (or_introl Es)) as (Wy & C & Ey & _). unfold current in C. rewrite Ey, Ec in C.
  pose proof (wf_conf y Wy) as Hc. rewrite Ec in Hc. pose proof PdfProofs.eps_pos as He. assert (Hs : SQRT_DOUBLE_EPS < 1 / 100) by apply Hc.
  assert (Hne : nonempty_range (cf far_pdf)).
  { unfold nonempty_range. change (c_rmin (cf far_pdf)) with 0. change (c_rmax (cf far_pdf)) with 10. change (c_rstep (cf far_pdf)) with (1 / 100). apply Z.le_lt_trans with 500%Z; [apply rminSteps_le; lra|apply rmaxSteps_lt; lra]. }
  destruct (ext_limits (cf far_pdf) (pdf_view broad far_pair) Hc Hne) as (e' & E' & _ & _ & _ & _ & H5 & H6). rewrite ripple_is in H5. destruct (H5 RM) as [E1 E2]. rewrite far_ripples in E1, E2. change (extFromPeakTails (cf far_pdf) (pdf_view broad far_pair)) with (tail_width (cf far_pdf) (pdf_view broad far_pair)) in E2. rewrite far_tails in E2.
  change (c_rmin (cf far_pdf)) with 0 in H6. change (c_rmax (cf far_pdf)) with 10 in H6. change (c_rstep (cf far_pdf)) with (1 / 100) in H6.
  assert (L1 : fst (PdfGrid.bondLimits y) = 0).
  { unfold PdfGrid.bondLimits. rewrite C, H6. cbn [fst calclo]. assert (K : (rminSteps (0 - E') (1 / 100) <= 0)%Z) by (apply rminSteps_le; lra). rewrite Z.max_l by lia. ring. }
  assert (L2 : snd (PdfGrid.bondLimits y) < 1000).
  { unfold PdfGrid.bondLimits. rewrite C, H6, Ec. cbn [snd calchi]. change (c_rstep (cf far_pdf)) with (1 / 100). assert (K : (rmaxSteps (10 + E') (1 / 100) <= 1400)%Z).
    { apply Z.nlt_ge. intros K. apply rmaxSteps_lt in K; [|lra]. lra. } apply IZR_le in K. lra. }
  split; [exact L1|]. split; [lra|]. split; [exact HP|]. assert (GR : PdfGrid.getRgrid y = grid (rminSteps 0 (1 / 100)) (rmaxSteps 10 (1 / 100)) (1 / 100)) by (unfold PdfGrid.getRgrid; now rewrite Ec). split.
  { exists 5. split; [rewrite GR; apply In_grid; exists 500%Z; split; [lra|]; split; [apply rminSteps_le; lra|apply rmaxSteps_lt; lra]|]. unfold interior, whole_extension. rewrite far_ripples, far_tails. change (c_rmin (cf far_pdf)) with 0. change (c_rmax (cf far_pdf)) with 10. change (c_rstep (cf far_pdf)) with (1 / 100). change (c_maxext (cf far_pdf)) with 10. rewrite Rmin_left by lra. lra. }
  split.
  { destruct (C88_rdf [] (gaussian []) (fun _ => 1) [] ex_none far_pdf far_pair broad false (fun _ _ => true) true GE eq_refl HO) as (y2 & Ey2 & _ & HR). assert (y2 = y) as -> by congruence.
    rewrite (HR (fun _ _ => [])).
    - f_equal. apply map_ext. intros r. unfold cell_rdf, peak_sum, over_pairs. destruct (createBondGenerator far_pair) as [cls M]. cbn [atoms_of far_pair length seq sumf fold_right map]. destruct (Req_EM_T _ 0); [reflexivity|]. unfold sumf. cbn. field. intros K. apply n. nra.
    - pose proof far_images as FI. unfold neighbours_in. destruct (createBondGenerator far_pair) as [cls M]. intros i j Hi Hj. split; [constructor|]. intros z. split; [intros []|]. intros (A & (B1 & B2) & B3). destruct (FI i j z Hi Hj) as [F1 F2]. specialize (F2 (proj1 F1 A)). rewrite F2 in *. destruct (i =? j)%nat; lra. }
  intros r Hr Hr0. assert (r < 10). { rewrite GR in Hr. apply In_grid in Hr as (k & -> & K1 & K2). apply rmaxSteps_lt in K2; lra. }
  assert (O2 : cell_occ far_pair = 2) by (unfold cell_occ; cbn; ring). assert (B1 : cell_b (cf far_pdf) far_pair = 1) by (unfold cell_b; rewrite O2; cbn; field).
  unfold cell_rdf. rewrite O2, B1. destruct (Req_EM_T (2 * 1) 0); [lra|]. apply Rdiv_lt_0_compat; [|lra]. clear n.
  change (0 < over_pairs far_pair (fun _ _ => true) P (far_term r)). pose proof far_images as FI. revert HP. unfold over_pairs, neighbours_in. destruct (createBondGenerator far_pair) as [cls M]. intros HP. cbn [atoms_of far_pair length] in *.
  set (y0 := (O, O, (0, 0, 0)%Z) : image) in *.
  assert (Q : forall i j, (i < 2)%nat -> (j < 2)%nat -> P i j = if (i =? j)%nat then [] else [y0]).
  { intros i j Hi Hj. destruct (HP i j Hi Hj) as [N I]. destruct (FI i j y0 Hi Hj) as [F1 F2]. specialize (F2 eq_refl). destruct (i =? j)%nat eqn:B.
    - destruct (P i j) as [|z l] eqn:EP; [reflexivity|]. exfalso. destruct (proj1 (I z) (or_introl eq_refl)) as (A & _ & B3). destruct (FI i j z Hi Hj) as [G1 G2]. specialize (G2 (proj1 G1 A)). rewrite B in G2. lra.
    - apply single; [exact N|]. intros z. rewrite I. destruct (FI i j z Hi Hj) as [G1 G2]. rewrite B in G2. split; [intros (A & _); now apply G1|]. intros ->. split; [now apply F1|]. specialize (G2 eq_refl). rewrite G2. unfold in_range. lra. }
  unfold sumf. cbn [seq fold_right map length]. rewrite !Q by lia. cbn [Nat.eqb fold_right map].
  assert (B01 : forall i j, (i < 2)%nat -> (j < 2)%nat -> (i =? j)%nat = false -> 0 < far_term r i j (bond_at cls M i [j] y0)).
  { intros i j Hi Hj Hij. destruct (FI i j y0 Hi Hj) as [_ F2]. specialize (F2 eq_refl). rewrite Hij in F2. apply far_positive; auto. }
  pose proof (B01 0%nat 1%nat ltac:(lia) ltac:(lia) eq_refl). pose proof (B01 1%nat 0%nat ltac:(lia) ltac:(lia) eq_refl). lra.
Qed.
Print Assumptions C98_broadening_refuted.
(** The hypotheses are met by a crystal with four equivalent atoms and spherical displacements; with Qmax = 20 the ripples are cut off. *)
Definition ball : catom := mkCA (V3 (1 / 4) 0 0) (M3 (1 / 100) 0 0 0 (1 / 100) 0 0 0 (1 / 100)) "Fe"%string 1 false.
Definition balls : adp := Adp 0 (StructDiff.Crystal lattice0 prec0 quad [ball]).
Lemma balls_orderly : orderly true balls.
Proof.
  unfold orderly. cbn [env_of atoms_of balls]. split; [exact quad_group|]. intros a [<-|[]]. assert (Q : quarter (c_xyz ball)) by exact iron_quarter. split; [now apply quarter_exact|]. intros _. apply quad_follow; [exact Q|].
  intros o N Ho HN _. apply part0 in HN. subst N. cbn [ball c_uij]. ops4 Ho; calc; unfold mm, tr; cbn [x00 x01 x02 x10 x11 x12 x20 x21 x22]; f_equal; ring.
Qed.
Lemma balls_spherical a : In a (atoms_of balls) -> spherical (c_uij a).
Proof. intros [<-|[]]. exists (1 / 100). unfold mscale, mid. cbn. f_equal; ring. Qed.
Lemma balls_maxwidth : p_maxwidth (pdf_view PWDebyeWaller balls) 0 10 <= 1.
Proof.
  cbn [pdf_view p_maxwidth pw_maxWidth]. unfold dw_maxWidth. cbv zeta. assert (M : maxUii (Some (map (fun a => mkUS (c_uij a) (c_anis a)) (atoms_of balls))) = 1 / 100).
  { cbn [atoms_of balls map maxUii fold_left s_U c_uij ball x00 x11 x22]. assert (Z : max_step 0 (1 / 100) = 1 / 100) by (unfold max_step; replace (Rltb 0 (1 / 100)) with true by (symmetry; apply Rltb_true; lra); reflexivity). rewrite Z.
    assert (Y : max_step (1 / 100) (1 / 100) = 1 / 100) by (unfold max_step; now destruct (Rltb _ _)). now rewrite !Y. }
  rewrite M. replace (Rleb (2 * (1 / 100)) 0) with false by (symmetry; apply Rleb_false; lra). unfold GAUSS_SIGMA_TO_FWHM. rewrite Rmult_assoc, <- sqrt_mult.
  2:{ assert (0 < ln 2) by (rewrite <- ln_1; apply ln_increasing; lra). lra. } 2:{ lra. }
  assert (L : ln 2 <= 1). { rewrite <- (ln_exp 1). left. apply ln_increasing; [lra|]. pose proof (exp_ineq1 1 ltac:(lra)). lra. }
  apply Rle_trans with (2 * sqrt (1 / 4)); [apply Rmult_le_compat_l; [lra|]; apply sqrt_le_1_alt; lra|]. replace (1 / 4) with (1 / 2 * (1 / 2)) by field. rewrite sqrt_square by lra. lra.
Qed.
Example C98_nonvacuous : exists d, prun [PQmax 20] (newPDF (gaussian []) (fun _ => 1) [] ex_none) = Ok d /\ good_env (env_of balls) /\ sums_ok PWDebyeWaller balls false (fun _ _ => true) false /\
  tame PWDebyeWaller balls /\ widening (c_pk (cf d)) /\ room (cf d) (pdf_view PWDebyeWaller balls) /\ 0 < ripple_width (cf d).
Proof.
  unfold prun. cbn [fold_left pstep]. unfold setQmax. replace (Rltb 20 0) with false by (symmetry; apply Rltb_false; lra). replace (Rltb 0 20) with true by (symmetry; apply Rltb_true; lra). cbv zeta. eexists. split; [reflexivity|].
  split; [cbn; split; [now left|split; [apply fine0; unfold prec0; lra|discriminate]]|]. split; [split; [split; [exact balls_orderly|]|split; reflexivity]|].
  { intros a Ha. pose proof (balls_spherical a Ha) as S. destruct Ha as [<-|[]]. exact S. }
  split; [left; split; [exact balls_orderly|exact balls_spherical]|]. set (c := cf _). assert (Ec : c = upd_conf (cf far_pdf) 0 10 (1 / 100) 0 20 10) by reflexivity.
  assert (EK : c_pk c = gaussian []) by (rewrite Ec; reflexivity). split; [rewrite EK; exact (proj1 (C98_profiles []))|].
  assert (RW : ripple_width c = 6 * (2 * PI / 20)).
  { unfold ripple_width. cbv zeta. rewrite Ec. cbn [upd_conf c_qmax c_rstep]. pose proof PI2_1. pose proof PI_RGT_0. rewrite Rmin_left by lra. assert (Se : SQRT_DOUBLE_EPS < 1 / 100) by (unfold SQRT_DOUBLE_EPS; lra).
    destruct (Rlt_dec SQRT_DOUBLE_EPS 20) as [_|K]; [|exfalso; lra]. destruct (Rlt_dec _ _) as [_|K]; [reflexivity|exfalso; lra]. }
  assert (TW : tail_width c (pdf_view PWDebyeWaller balls) <= 4).
  { unfold tail_width. cbv zeta. rewrite EK. replace (c_rmin c) with 0 by (rewrite Ec; reflexivity). replace (c_rmax c) with 10 by (rewrite Ec; reflexivity). pose proof balls_maxwidth as B. set (W := p_maxwidth _ 0 10) in *.
    destruct (proj1 (C98_profiles []) W 1 B) as [A1 A2]. assert (X : xboundhi (gaussian []) 1 = sqrt 13) by (cbn [gaussian xboundhi]; unfold gauss_hi; replace (Rleb 1 0) with false by (symmetry; apply Rleb_false; lra); rewrite half13; ring).
    assert (Y : xboundlo (gaussian []) 1 = - sqrt 13) by (cbn [gaussian xboundlo] in *; unfold gauss_lo; cbn [gaussian xboundhi] in X; rewrite X; ring). rewrite X, Y in *. pose proof s13. apply Rmax_lub; apply Rabs_le; lra. }
  split; [unfold room; rewrite RW; replace (c_maxext c) with 10 by (rewrite Ec; reflexivity); pose proof PI_4; lra|]. rewrite RW. pose proof PI_RGT_0. lra.
Qed.
