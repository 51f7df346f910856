(** C87, C88: the PDF calculators on structures: their results are the sums over all neighbours of each atom, found by the
    bond generators, with the widths of the peak width models. *)
From Coq Require Import String FunctionalExtensionality.
From Verif Require Masks MasksSpec BondGenProofs LatticeProofs.
From Verif Require Import RBase R3 Trig Sums Lattice LatticeSpec Crystal CrystalSpec CrystalExample StructDiff StructDiffSpec Evaluator
  PeakWidth PeakWidthSpec PdfGrid PdfSpec PdfProofs PdfMain PdfFinal PdfExample PdfProps Debye DebyeSpec DebyeProofs DebyeSum DebyeMain DebyeExample DebyeExample2 DebyeProps BondGen BondGenSpec World WorldSpec WorldAtoms WorldProofs WorldTotal OrbitSpec OrbitWorld OrbitExample
  Visited VisitedSpec VisitedProofs VisitedHalf VisitedMain VisitedCalc.
Import ListNotations.
Open Scope R_scope.
Notation length := List.length.

(** The neighbours of the atoms within any limits can be listed. *)
Theorem C87_neighbours lo hi x : good_env (env_of x) -> exists P, neighbours_in lo hi x P.
Proof. intros GE. exact (neighbours_exist (gq lo hi false (fun _ _ => true) (fun _ _ _ => 0)) tt x GE). Qed.
Print Assumptions C87_neighbours.
(** After any history of calls, eval(structure) of DebyePDFCalculator gives the Debye sum over these neighbours, with a full or
    a half sum, up to the debye precision for each pair. *)
Theorem C87_debye_equation ops sf mw env d y x w masked mask full P :
  good_env (env_of x) -> drun ops (newDebye sf mw env) = Ok d -> debye_eval w masked mask full x d = Ok y ->
  neighbours_in (fst (Debye.bondLimits y)) (snd (Debye.bondLimits y)) x P -> sums_ok w x masked mask full ->
  same_type_occ x -> 0 <= k_prec (dc y) -> decreasing_table (dc y) ->
  length (dval y) = length (getQgrid y) /\
  forall k, (0 <= k < Z.of_nat (length (dval y)))%Z ->
    nth (Z.to_nat k) (getQgrid y) 0 = IZR k * k_qstep (dc y) /\
    Rabs (nth (Z.to_nat k) (dval y) 0 - debye_equation (dc y) w x mask P (IZR k * k_qstep (dc y))) <= pair_count x mask P * k_prec (dc y).
Proof. intros GE Hd Hy. exact (deb_value ops sf mw env d y x w masked mask full GE Hd Hy P). Qed.
Print Assumptions C87_debye_equation.
(** F(Q) is that sum divided by the number of atoms in the cell and the square of their mean scattering factor. *)
Theorem C87_F ops sf mw env d y x w masked mask full :
  good_env (env_of x) -> drun ops (newDebye sf mw env) = Ok d -> debye_eval w masked mask full x d = Ok y ->
  same_type_occ x -> cell_occ x = 0 \/ SQRT_DOUBLE_EPS < cell_occ x ->
  Debye.getF y = Ok (map (fun k => let q := IZR k * k_qstep (dc y) in
                           if Req_EM_T (cell_mean (dc y) x q * cell_occ x) 0 then 0 else nth (Z.to_nat k) (dval y) 0 / (cell_occ x * cell_mean (dc y) x q ^ 2))
                     (zrange 0 (Z.of_nat (length (dval y))))).
Proof. intros GE Hd Hy. exact (deb_F ops sf mw env d y x w masked mask full Hd Hy). Qed.
Print Assumptions C87_F.
(** The widths in these sums, for symmetric tensors. *)
Theorem C87_width w x lo hi P i j y : good_env (env_of x) -> half_ok w x -> neighbours_in lo hi x P ->
  (i < length (atoms_of x))%nat -> (j < length (atoms_of x))%nat -> In y (P i j) ->
  let b := bond_at (fst (createBondGenerator x)) (snd (createBondGenerator x)) i [j] y in
  width_of w x i j b = expected_width w x i j b.
Proof.
  intros GE HO HN Hi Hj Hy b.
  assert (HI : image_ok (fst (createBondGenerator x)) (snd (createBondGenerator x)) [j] y /\ in_range lo hi (image_distance (fst (createBondGenerator x)) (snd (createBondGenerator x)) i [j] y)).
  { unfold neighbours_in in HN. destruct (createBondGenerator x) as [cls M]. now apply (HN i j Hi Hj). }
  destruct HI as [HI [_ HR]]. assert (HD : b_distance b = image_distance (fst (createBondGenerator x)) (snd (createBondGenerator x)) i [j] y) by (destruct y as [[k t] T]; reflexivity).
  apply width_expected; [rewrite HD; exact HR|apply bond_norm|]. destruct w as [c| |p]; [exact I| |]; destruct HO as [HO HP]; (split; [apply HP; now apply nth_In|now apply image_proper]).
Qed.
Print Assumptions C87_width.
(** The conditions on masks hold for the masks of PairQuantity. *)
Theorem C87_masks m x w full : (full = false -> half_ok w x) -> sums_ok w x (Masks.hasMask m) (user_mask m) full.
Proof. apply user_masks. Qed.
Print Assumptions C87_masks.

Lemma metals_half w x : metals x -> half_ok w x.
Proof.
  intros H. pose proof (metals_orderly x H) as O.
  assert (T : forall a, In a (atoms_of x) -> proper_tensor a). { intros a Ha. destruct H as [-> | ->]; cbn in Ha; (destruct Ha as [<-|[<-|[]]] || destruct Ha as [<-|[]]); reflexivity. }
  destruct w; cbn [half_ok]; auto. unfold orderly in *. destruct (env_of x); auto. destruct O as [O1 O2]. split; [exact O1|]. intros a Ha. split; [apply O2, Ha|discriminate].
Qed.
Definition alloy : adp := Adp 1 (StructDiff.Crystal lattice0 prec0 quad [iron; nickel]).
Example C87_nonvacuous : exists d y P, good_env (env_of alloy) /\ drun [] (newDebye sf1 mw2 []) = Ok d /\ debye_eval PWDebyeWaller false (fun _ _ => true) false alloy d = Ok y /\
  neighbours_in (fst (Debye.bondLimits y)) (snd (Debye.bondLimits y)) alloy P /\ sums_ok PWDebyeWaller alloy false (fun _ _ => true) false /\
  same_type_occ alloy /\ 0 <= k_prec (dc y) /\ decreasing_table (dc y) /\ (1 < Z.of_nat (length (dval y)))%Z /\ SQRT_DOUBLE_EPS < cell_occ alloy /\ half_ok (PWJeong (mkJ 0 0 0 0)) alloy.
Proof.
  assert (GE : good_env (env_of alloy)) by (apply (p_good _ metals_program); now right). assert (HM : metals alloy) by now right.
  destruct (new_ok sf1 mw2 []) as (x0 & E0 & Hx0 & Hs0 & Hq0 & _ & _ & q0 & Hd0).
  destruct (eval_cases (DSetStructure (debye_view alloy)) (debye_view alloy) [] x0 Hx0) as [(z & z2 & v & E & Es & E2 & _ & El & Hz & Hcur & _)|(z & E & _)]; [now left| |].
  2:{ destruct (eval_small [] (debye_view alloy) [] sf1 mw2 []) as (x & y & Ex & Ey & _); [exists x0; auto|]. cbn in Ex. rewrite E0 in Ex. injection Ex as <-. cbn [dstep] in *. unfold Debye.eval in Ey. rewrite E in Ey. discriminate. }
  destruct (addPairs_any (visited PWDebyeWaller false (fun _ _ => true) false (fst (Debye.bondLimits z2)) (snd (Debye.bondLimits z2)) alloy) z2 (current_fits _ Hz Hcur)) as (v' & Ev & Lv).
  assert (HE : debye_eval PWDebyeWaller false (fun _ _ => true) false alloy x0 = Ok (with_dval z2 v')) by (unfold debye_eval; rewrite Es; exact Ev).
  pose proof (deb_eval [] sf1 mw2 [] x0 _ alloy PWDebyeWaller false (fun _ _ => true) false E0 HE) as HD.
  destruct (eval_small [] (debye_view alloy) (visited PWDebyeWaller false (fun _ _ => true) false (fst (Debye.bondLimits (with_dval z2 v'))) (snd (Debye.bondLimits (with_dval z2 v'))) alloy) sf1 mw2 []) as (x & y & Ex & Ey & Hy & Hcy & Hs & Hq & Hp & Hsf & _); [exists x0; auto|].
  cbn in Ex. rewrite E0 in Ex. injection Ex as <-. rewrite HD in Ey. injection Ey as Ey.
  destruct (C87_neighbours (fst (Debye.bondLimits (with_dval z2 v'))) (snd (Debye.bondLimits (with_dval z2 v'))) alloy GE) as [P HP].
  exists x0, (with_dval z2 v'), P. split; [exact GE|]. split; [exact E0|]. split; [exact HE|]. split; [exact HP|].
  split; [split; [now apply metals_half|split; reflexivity]|]. split; [intros a b [<-|[<-|[]]] [<-|[<-|[]]] H; cbn in H; try discriminate; reflexivity|].
  rewrite Ey. rewrite Hd0 in Hp, Hsf. cbn in Hp, Hsf. split; [lra|]. split; [intros ty p q _; rewrite Hsf; unfold sf1; lra|].
  split; [destruct (qstep_small y Hy Hcy Hs Hq) as (_ & H & _); destruct Hcy as (_ & _ & -> & _); lia|].
  split; [|now apply metals_half]. unfold cell_occ. cbn [atoms_of alloy]. unfold sumf. cbn [map fold_right c_occ iron nickel].
  pose proof (le_INR _ _ (mult_pos (env_of alloy) iron GE)). pose proof (le_INR _ _ (mult_pos (env_of alloy) nickel GE)). change (INR 1) with 1 in *. unfold SQRT_DOUBLE_EPS. fold iron nickel in *. lra.
Qed.

(** ** C88 *)
(** After any history of calls, eval(structure) of PDFCalculator gives the sum of the peaks of all neighbours, with a full or a
    half sum: getRDF is that sum divided by the number of atoms in the cell and the square of their mean scattering power. *)
Theorem C88_rdf ops pk sf env e d x w masked mask full :
  good_env (env_of x) -> prun ops (newPDF pk sf env e) = Ok d -> sums_ok w x masked mask full ->
  exists y, pdf_eval w masked mask full x d = Ok y /\ cf y = cf d /\
  forall P, neighbours_in (fst (PdfGrid.bondLimits y)) (snd (PdfGrid.bondLimits y)) x P ->
    PdfGrid.getRDF y = Ok (map (cell_rdf (cf y) x (peak_sum (cf y) w x mask P)) (PdfGrid.getRgrid y)).
Proof.
  intros GE Hd HO. destruct (pdf_state ops pk sf env e d x w masked mask full GE Hd) as (y & E & _ & _ & Ec & S & SB). exists y. split; [exact E|]. split; [exact Ec|]. intros P HN.
  rewrite (proj1 (shows_presents _ _ _ S)). f_equal. apply map_ext. intros r. rewrite view_rdf. unfold cell_rdf. now rewrite (pdf_peaks x w masked mask full GE (cf y) _ _ P r HN HO).
Qed.
Print Assumptions C88_rdf.
(** The same for RDF/r, F and PDF, which are those of PdfSpec for this sum. *)
Theorem C88_pdf ops pk sf env e d x w masked mask full :
  good_env (env_of x) -> prun ops (newPDF pk sf env e) = Ok d -> sums_ok w x masked mask full ->
  exists y, pdf_eval w masked mask full x d = Ok y /\ cf y = cf d /\
  forall P, neighbours_in (fst (PdfGrid.bondLimits y)) (snd (PdfGrid.bondLimits y)) x P ->
    presents y (pdf_view w x) (peak_sum (cf y) w x mask P) /\
    (c_rmax (cf y) + c_maxext (cf y) + c_rstep (cf y) <= 100000000 -> presents_pdf y (pdf_view w x) (peak_sum (cf y) w x mask P)).
Proof.
  intros GE Hd HO. destruct (pdf_state ops pk sf env e d x w masked mask full GE Hd) as (y & E & _ & _ & Ec & S & SB). exists y. split; [exact E|]. split; [exact Ec|]. intros P HN.
  assert (EP : peak_sum (cf y) w x mask P = peaks (cf y) (pdf_view w x) (visited w masked mask full (fst (PdfGrid.bondLimits y)) (snd (PdfGrid.bondLimits y)) x)).
  { apply functional_extensionality. intros r. symmetry. now apply (pdf_peaks x w masked mask full GE). }
  rewrite EP. split; [now apply shows_presents|now apply shows_pdf].
Qed.
Print Assumptions C88_pdf.
(** The slope of the default baseline: -4 pi rho0, with the density of the structure, times the open fraction of pairs. *)
Theorem C88_baseline ops pk sf env e d x w m full :
  good_env (env_of x) -> prun ops (newPDF pk sf env e) = Ok d -> MasksSpec.reach m -> c_dflt (cf d) = Masks.dflt m -> c_inv (cf d) = Masks.invp m -> 0 < cell_occ x ->
  forall y k, pdf_eval w (Masks.hasMask m) (user_mask m) full x d = Ok y -> base y = Linear k -> k = -4 * PI * atom_density x * open_fraction x (user_mask m).
Proof.
  intros GE Hd HM H1 H2 HC y k Hy Hb.
  destruct (pdf_state ops pk sf env e d x w (Masks.hasMask m) (user_mask m) full GE Hd) as (y' & E & Es & _ & Ec & S & SB). rewrite Hy in E. injection E as <-.
  match type of Es with pstep ?o _ = _ => destruct (C65_baseline_slope ops pk sf env e o (pdf_view w x) m) as (z & Ez & HB); [right; left; eexists; reflexivity|] end.
  assert (EZ : z = y). { rewrite (prun_app2 _ _ _ _ Hd) in Ez. unfold prun in Ez. cbn [fold_left] in Ez. rewrite Es in Ez. now injection Ez. }
  subst z. rewrite <- (view_slope w x (user_mask m) GE). apply HB; auto; [rewrite Ec; exact H1|rewrite Ec; exact H2|now rewrite view_occ].
Qed.
Print Assumptions C88_baseline.
(** Settings changed after eval(structure) do not touch the accumulated sums until the next evaluation; only with the empty
    structure do setRmax, setRstep and setQmax clear them for the new grid. *)
Definition is_setting (o : pop) : Prop := match o with PRmin _ | PRmax _ | PRstep _ | PQmin _ | PQmax _ | PMaxExt _ => True | _ => False end.
Theorem C88_settings_keep_sums ops pk sf env e d x w masked mask full opt y :
  good_env (env_of x) -> prun ops (newPDF pk sf env e) = Ok d -> pdf_eval w masked mask full x d = Ok y -> Forall is_setting opt ->
  exists z, prun opt y = Ok z /\ ((forall id, x <> Adp id Empty) -> mvalue z = mvalue y).
Proof.
  intros GE Hd Hy Ho. destruct (pdf_state ops pk sf env e d x w masked mask full GE Hd) as (y' & E & _ & _ & _ & _ & SB). rewrite Hy in E. injection E as <-.
  assert (ES : str y = pdf_view w x) by (destruct SB as (_ & -> & _); reflexivity).
  assert (G : forall l c, Forall is_setting l -> str c = pdf_view w x -> exists z, fold_left (fun r o => match r with Ok y => match pstep o y with Throw _ z => Ok z | r => r end | r => r end) l (Ok c) = Ok z /\ ((forall id, x <> Adp id Empty) -> mvalue z = mvalue c)).
  { induction l as [|o l IH]; intros c Hl Hc; [now exists c|]. inversion Hl as [|? ? H1 H2]; subst. cbn [fold_left].
    assert (S1 : exists c', match pstep o c with Throw _ z => Ok z | r => r end = Ok c' /\ str c' = pdf_view w x /\ ((forall id, x <> Adp id Empty) -> mvalue c' = mvalue c)).
    { assert (I : forall c', str (initialUpdate (set_conf c c')) = pdf_view w x /\ ((forall id, x <> Adp id Empty) -> mvalue (initialUpdate (set_conf c c')) = mvalue c)).
      { intros c'. unfold initialUpdate. cbn [set_conf str]. rewrite Hc. cbn [pdf_view p_empty]. destruct (is_empty x) eqn:EE; cbn [str resetValue set_conf mvalue]; (split; [exact Hc|]); [|reflexivity].
        intros K. exfalso. destruct x as [id b]; destruct b; try discriminate EE. exact (K id eq_refl). }
      destruct o; try contradiction; cbn [pstep]; unfold PdfGrid.setRmin, PdfGrid.setRmax, PdfGrid.setRstep, PdfGrid.setQmin, PdfGrid.setQmax, PdfGrid.setMaxExtension; cbv zeta;
        match goal with |- context[if ?b then _ else _] => destruct b end; eexists; (split; [reflexivity|]); auto. }
    destruct S1 as (c' & -> & C1 & C2). destruct (IH c' H2 C1) as (z & -> & Z). exists z. split; [reflexivity|]. intros K. rewrite (Z K). now apply C2. }
  exact (G opt y Ho ES).
Qed.
Print Assumptions C88_settings_keep_sums.
Lemma same_grids a b : cf a = cf b -> lim a = lim b ->
  PdfGrid.getRgrid a = PdfGrid.getRgrid b /\ PdfGrid.getExtendedRgrid a = PdfGrid.getExtendedRgrid b /\ PdfGrid.getQstep a = PdfGrid.getQstep b /\ PdfGrid.getQgrid a = PdfGrid.getQgrid b.
Proof. destruct a as [a1 a2 a3 a4 a5 a6 a7], b as [b1 b2 b3 b4 b5 b6 b7]. cbn [cf lim]. intros -> ->. repeat split. Qed.
(** Half sums and full sums give the same results. *)
Theorem C88_half_is_full ops pk sf env e d x w masked mask : good_env (env_of x) -> prun ops (newPDF pk sf env e) = Ok d -> half_ok w x -> good_mask masked mask ->
  exists y1 y2, pdf_eval w masked mask true x d = Ok y1 /\ pdf_eval w masked mask false x d = Ok y2 /\ PdfGrid.getRDF y1 = PdfGrid.getRDF y2 /\ PdfGrid.getRDFperR y1 = PdfGrid.getRDFperR y2 /\ PdfGrid.getF y1 = PdfGrid.getF y2 /\
  (c_rmax (cf d) + c_maxext (cf d) + c_rstep (cf d) <= 100000000 -> PdfGrid.getPDF y1 = PdfGrid.getPDF y2).
Proof.
  intros GE Hd HO HM.
  destruct (pdf_state ops pk sf env e d x w masked mask true GE Hd) as (y1 & E1 & _ & _ & C1 & S1 & B1). destruct (pdf_state ops pk sf env e d x w masked mask false GE Hd) as (y2 & E2 & _ & _ & C2 & S2 & B2).
  exists y1, y2. split; [exact E1|]. split; [exact E2|]. set (z := PdfGrid.setStructure (pdf_view w x) d) in *. destruct B1 as (F1 & _ & _ & L1 & K1 & _), B2 as (F2 & _ & _ & L2 & K2 & _).
  assert (EB : PdfGrid.bondLimits y2 = PdfGrid.bondLimits y1) by (unfold PdfGrid.bondLimits; now rewrite F1, F2, L1, L2).
  destruct (C87_neighbours (fst (PdfGrid.bondLimits y1)) (snd (PdfGrid.bondLimits y1)) x GE) as [P HP].
  assert (X : peaks (cf y2) (pdf_view w x) (visited w masked mask false (fst (PdfGrid.bondLimits y2)) (snd (PdfGrid.bondLimits y2)) x) = peaks (cf y1) (pdf_view w x) (visited w masked mask true (fst (PdfGrid.bondLimits y1)) (snd (PdfGrid.bondLimits y1)) x)).
  { apply functional_extensionality. intros r. rewrite EB. rewrite (pdf_peaks x w masked mask false GE _ _ _ P r HP), (pdf_peaks x w masked mask true GE _ _ _ P r HP); [now rewrite F1, F2|exact (proj2 HM)|now split]. }
  rewrite X in S2. set (Q := peaks _ _ _) in *.
  assert (G1 : PdfGrid.getRgrid y2 = PdfGrid.getRgrid y1) by (apply same_grids; [now rewrite F1, F2|now rewrite L1, L2]).
  assert (G2 : PdfGrid.getExtendedRgrid y2 = PdfGrid.getExtendedRgrid y1) by (apply same_grids; [now rewrite F1, F2|now rewrite L1, L2]).
  assert (G3 : PdfGrid.getQstep y2 = PdfGrid.getQstep y1) by (apply same_grids; [now rewrite F1, F2|now rewrite L1, L2]).
  assert (G4 : PdfGrid.getQgrid y2 = PdfGrid.getQgrid y1) by (apply same_grids; [now rewrite F1, F2|now rewrite L1, L2]).
  destruct (shows_presents _ _ _ S1) as (P1 & P2 & P3). destruct (shows_presents _ _ _ S2) as (P1' & P2' & P3'). rewrite P1, P2, P3, P1', P2', P3'. rewrite G1, G2, G4, F1, F2, K1, K2.
  repeat (split; [reflexivity|]). intros HB. pose proof (shows_pdf _ _ _ S1) as D1. pose proof (shows_pdf _ _ _ S2) as D2. rewrite C1 in D1. rewrite C2 in D2. specialize (D1 HB). specialize (D2 HB). unfold presents_pdf in D1, D2.
  rewrite D1, D2, G1, G2, G3, G4, ?C1, ?C2, K1, K2. reflexivity.
Qed.
Print Assumptions C88_half_is_full.
Lemma alloy_occ : 0 < cell_occ alloy.
Proof.
  assert (GE : good_env (env_of alloy)) by (apply (p_good _ metals_program); now right).
  unfold cell_occ. cbn [atoms_of alloy]. unfold sumf. cbn [map fold_right c_occ iron nickel]. fold iron nickel.
  pose proof (le_INR _ _ (mult_pos (env_of alloy) iron GE)). pose proof (le_INR _ _ (mult_pos (env_of alloy) nickel GE)). change (INR 1) with 1 in *. lra.
Qed.
Example C88_nonvacuous : prun [] (newPDF ex_box ex_sf [] ex_none) = Ok ex_start /\ good_env (env_of alloy) /\ half_ok PWDebyeWaller alloy /\ good_mask false (fun _ _ => true) /\ 0 < cell_occ alloy /\ c_rmax (cf ex_start) + c_maxext (cf ex_start) + c_rstep (cf ex_start) <= 100000000 /\ (exists k, base ex_start = Linear k) /\ 0 < atom_density alloy.
Proof.
  assert (GE : good_env (env_of alloy)) by (apply (p_good _ metals_program); now right).
  split; [reflexivity|]. split; [exact GE|]. split; [apply metals_half; now right|]. split; [split; reflexivity|]. split; [exact alloy_occ|].
  split; [cbn; lra|]. split; [now eexists|]. rewrite <- (density_cell alloy GE). change (0 < totalOccupancy alloy / volume lattice0). rewrite total_occ. apply Rdiv_lt_0_compat; [exact alloy_occ|].
  destruct GE as [LM _]. destruct (BondGenProofs.made_built _ LM) as [C B]. exact (k_vol_pos _ (LatticeProofs.built_consistent _ _ B)).
Qed.
