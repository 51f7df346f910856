(** Proofs: sums over the visited pairs of functions of the two atoms, their distance and the peak width. *)
From Coq Require Import String.
From Verif Require Import RBase R3 Trig Sums Lattice Crystal CrystalSpec CrystalProofs CrystalTensor StructDiff StructDiffSpec StructDiffProofs Evaluator EvaluatorSpec EvaluatorHist EvaluatorProofs EvaluatorRun EvaluatorMore
  PeakWidth PeakWidthSpec PeakWidthProofs PdfGrid Debye BondGen BondGenSpec World WorldSpec WorldAtoms WorldProofs WorldMain WorldTotal OrbitSpec OrbitGroup OrbitSum OrbitWorld OrbitExample Visited VisitedSpec VisitedProofs VisitedHalf.
Import ListNotations.
Open Scope R_scope.
Notation length := List.length.

(** ** peak widths are the same from both ends *)
Lemma upper_form U s : tr U = U ->
  x00 U * vx s * vx s + x11 U * vy s * vy s + x22 U * vz s * vz s + 2 * x01 U * vx s * vy s + 2 * x02 U * vx s * vz s + 2 * x12 U * vy s * vz s = vdot s (mv U s).
Proof.
  destruct U as [a b c d e f g h i], s as [x y z]. unfold tr, vdot, mv. cbn [vx vy vz x00 x01 x02 x10 x11 x12 x20 x21 x22]. intros E. injection E as E1 E2 E3 E4 E5 E6. subst. ring.
Qed.
Lemma msd_form U s f : proper f U -> meanSquareDisplacement U s f = if f then vdot (vscale (/ vnorm s) s) (mv U (vscale (/ vnorm s) s)) else x00 U.
Proof. intros H. unfold meanSquareDisplacement. destruct f; [|reflexivity]. cbv zeta. now apply upper_form. Qed.
Lemma mv_scale N c r : mv N (vscale c r) = vscale c (mv N r).
Proof. vring. Qed.
Lemma msd_turn U s f N : (forall w, vnorm (mv N w) = vnorm w) -> proper f U -> meanSquareDisplacement (mm N (mm U (tr N))) (mv N s) f = meanSquareDisplacement U s f.
Proof.
  intros H HU. pose proof (isometry_orthogonal N H) as O. rewrite (msd_form _ _ _ (proper_turn f N U O HU)), (msd_form _ _ _ HU). destruct f.
  - now rewrite H, <- mv_scale, turn_form.
  - destruct HU as [u ->]. now rewrite rotate_spherical.
Qed.
Lemma norm_neg r : vnorm (vscale (-1) r) = vnorm r.
Proof. unfold vnorm. f_equal. vring. Qed.
Lemma msd_flip U s f : meanSquareDisplacement U (vscale (-1) s) f = meanSquareDisplacement U s f.
Proof. unfold meanSquareDisplacement. rewrite norm_neg. destruct f; [|reflexivity]. cbn [vscale vx vy vz]. ring. Qed.
Lemma width_flip w r u0 a0 u1 a1 : pw_calculate w (mkUB r u0 a0 u1 a1) = pw_calculate w (mkUB (vscale (-1) r) u1 a1 u0 a0).
Proof.
  assert (M : msd (mkUB r u0 a0 u1 a1) = msd (mkUB (vscale (-1) r) u1 a1 u0 a0)) by (unfold msd; cbn [PeakWidth.b_r01 b_U0 b_a0 b_U1 b_a1]; rewrite !msd_flip; ring).
  destruct w; cbn [pw_calculate]; [reflexivity|unfold dw_calculate; now rewrite M|].
  unfold jeong_calculate, dw_calculate, PeakWidth.b_dist. rewrite M. cbn [PeakWidth.b_r01]. now rewrite norm_neg.
Qed.
Lemma width_turn w r u0 a0 u1 a1 N : (forall v, vnorm (mv N v) = vnorm v) -> proper a0 u0 -> proper a1 u1 ->
  pw_calculate w (mkUB (mv N r) (mm N (mm u0 (tr N))) a0 (mm N (mm u1 (tr N))) a1) = pw_calculate w (mkUB r u0 a0 u1 a1).
Proof.
  intros H H0 H1. assert (M : msd (mkUB (mv N r) (mm N (mm u0 (tr N))) a0 (mm N (mm u1 (tr N))) a1) = msd (mkUB r u0 a0 u1 a1)) by (unfold msd; cbn [PeakWidth.b_r01 b_U0 b_a0 b_U1 b_a1]; now rewrite !msd_turn).
  destruct w; cbn [pw_calculate]; [reflexivity|unfold dw_calculate; now rewrite M|].
  unfold jeong_calculate, dw_calculate, PeakWidth.b_dist. rewrite M. cbn [PeakWidth.b_r01]. now rewrite H.
Qed.
(** a function of the atoms, the distance and the width *)
Definition gH (w : pwmodel) (H : catom -> catom -> R -> R -> R) : catom -> catom -> ubond -> R := fun a b u => H a b (vnorm (PeakWidth.b_r01 u)) (pw_calculate w u).
Lemma gH_even w H : (forall a b d f, H a b d f = H b a d f) -> even_bond (gH w H).
Proof.
  intros HS. split.
  - intros. unfold gH. cbn [PeakWidth.b_r01]. rewrite norm_neg, <- width_flip. apply HS.
  - intros. unfold gH. cbn [PeakWidth.b_r01]. rewrite H0, width_turn; auto.
Qed.
Lemma gH_flat c H : flat_bond (gH (PWConstant c) H).
Proof. intros a b r u0 a0 u1 a1 w0 w1. reflexivity. Qed.

(** ** the visited pairs *)
Lemma in_trace x lo hi masked mask full b z : good_env (env_of x) -> In (b, z) (basic_trace (loop_calc lo hi masked mask) tt x full 0 1) ->
  (b_site0 b < length (atoms_of x))%nat /\ (b_site1 b < length (atoms_of x))%nat /\ b_distance b = vnorm (BondGen.b_r01 b) /\ in_range lo hi (b_distance b) /\ (1 <= z)%Z.
Proof.
  intros GE H. unfold basic_trace in H. cbn [outer_ok loop_calc andb negb] in H. change (1 <? 1)%nat with false in H. rewrite basic_loop_serial in H.
  apply in_flat_map in H as (i & Hi & H). apply in_seq in Hi. cbn [Evaluator.nsites loop_calc] in Hi. change (countSites x) with (length (atoms_of x)) in Hi.
  unfold basic_item, visit in H. apply in_flat_map in H as (b' & Hb & H). cbv zeta in H. destruct (_ && _); [contradiction|]. destruct H as [E|[]]. injection E as -> <-.
  cbn [Evaluator.gen Evaluator.nsites loop_calc] in Hb. change (countSites x) with (length (atoms_of x)) in Hb. rewrite shown_view in Hb.
  destruct (shown_spec (fst (gview (env_of x) (atoms_of x))) (snd (gview (env_of x) (atoms_of x))) lo hi i (seq 0 (if full then length (atoms_of x) else i + 1)) (view_ok _ _ GE)) as (v & [_ HV] & E).
  { rewrite view_sites. lia. } { intros j Hj. apply in_seq in Hj. rewrite view_sites. destruct full; lia. }
  rewrite E in Hb. apply in_map_iff in Hb as (y & <- & Hy). apply HV in Hy as [HI HR]. destruct y as [[k t] T]. destruct HI as [HK _].
  rewrite bond_norm. cbn [bond_at b_site0 b_site1 BondGen.b_r01]. split; [lia|]. split.
  { assert (Hn : In (nth k (seq 0 (if full then length (atoms_of x) else i + 1)) 0%nat) (seq 0 (if full then length (atoms_of x) else i + 1))) by now apply nth_In. apply in_seq in Hn. destruct full; lia. }
  split; [reflexivity|]. split; [exact HR|]. destruct (_ || _); lia.
Qed.
Lemma mult_pos e a : good_env e -> (1 <= multiplicity e a)%nat.
Proof.
  destruct e as [|L|L p ops]; cbn [multiplicity]; intros H; try lia. pose proof (first_pos L p ops H a) as F. unfold fpos in F. rewrite map_length in F. lia.
Qed.

Section Sum.
  Context (x : adp) (GE : good_env (env_of x)) (w : pwmodel) (lo hi : R) (masked : bool) (mask : nat -> nat -> bool).
  Notation t full := (visited w masked mask full lo hi x).
  Definition vsum (H : catom -> catom -> R -> R -> R) (full : bool) : R :=
    sumf (fun e => IZR (snd e) * (b_mult (fst e) * H (siteAtom x (b_s0 (fst e))) (siteAtom x (b_s1 (fst e))) (PdfGrid.b_dist (fst e)) (b_fwhm (fst e)))) (t full).
  Definition pair_total (P : nat -> nat -> list image) (H : catom -> catom -> R -> R -> R) : R :=
    over_pairs x mask P (fun i j b => INR (multiplicity (env_of x) (atom_at x i)) * H (atom_at x i) (atom_at x j) (b_distance b) (width_of w x i j b)).
  Lemma over_ext P g g' : (forall i j y, (i < length (atoms_of x))%nat -> (j < length (atoms_of x))%nat -> In y (P i j) ->
       let b := bond_at (fst (createBondGenerator x)) (snd (createBondGenerator x)) i [j] y in g i j b = g' i j b) -> over_pairs x mask P g = over_pairs x mask P g'.
  Proof.
    intros H. unfold over_pairs. destruct (createBondGenerator x) as [cls M]. cbn [fst snd] in H. apply sumf_ext. intros i Hi. apply in_seq in Hi. apply sumf_ext. intros j Hj. apply in_seq in Hj.
    destruct (mask i j); [|reflexivity]. apply sumf_ext. intros y Hy. apply H; auto; lia.
  Qed.
  Lemma vsum_gsum H full : vsum H full = gsum x (gH w H) (basic_trace (loop_calc lo hi masked mask) tt x full 0 1).
  Proof.
    unfold vsum, visited, gsum. rewrite sumf_map. apply sumf_ext. intros [b z] Hb. cbn [fst snd pbond_at b_mult b_s0 b_s1 PdfGrid.b_dist b_fwhm].
    destruct (in_trace _ _ _ _ _ _ _ _ GE Hb) as (H0 & H1 & HD & _). rewrite (mult_view x _ H0). unfold gH, ubond_at at 2. cbn [PeakWidth.b_r01]. rewrite <- HD. ring.
  Qed.
  Lemma total_gsum H P : pair_total P H = over_pairs x mask P (fun i j b => INR (multiplicity (env_of x) (atom_at x i)) * gH w H (atom_at x i) (atom_at x j) (mkUB (BondGen.b_r01 b) (c_uij (atom_at x i)) (c_anis (atom_at x i)) (b_u1 b) (c_anis (atom_at x j)))).
  Proof. apply over_ext. intros i j y _ _ _ b. unfold gH, width_of. cbn [PeakWidth.b_r01]. unfold b. now rewrite bond_norm. Qed.

  Notation sum_ok full := (sums_ok w x masked mask full).
  Theorem visited_sum H P full : neighbours_in lo hi x P -> sum_ok full -> (full = false -> forall a b d f, H a b d f = H b a d f) -> vsum H full = pair_total P H.
  Proof.
    intros HN HO HS. rewrite vsum_gsum, total_gsum. destruct full; [now apply full_sum|]. cbn [sums_ok] in HO. destruct HO as [HO HM]. specialize (HS eq_refl).
    set (G := gH w H). assert (EG : even_bond G) by now apply gH_even.
    rewrite (trace_total x GE lo hi masked mask (proj2 HM) G false).
    assert (X : forall i j y, (i < length (atoms_of x))%nat -> (j < length (atoms_of x))%nat -> In y (P i j) ->
       let b := bond_at (fst (createBondGenerator x)) (snd (createBondGenerator x)) i [j] y in
       let u := mkUB (BondGen.b_r01 b) (c_uij (atom_at x i)) (c_anis (atom_at x i)) (b_u1 b) (c_anis (atom_at x j)) in
       G (atom_at x i) (atom_at x j) u = Gc G (atom_at x i) (atom_at x j) u).
    { intros i j y Hi Hj Hy b u. destruct w as [c| |j0].
      - reflexivity.
      - unfold Gc, u. cbn [PeakWidth.b_r01 b_U0 b_a0 b_U1 b_a1]. destruct HO as [HO HP]. rewrite !canon_id; [reflexivity| |].
        + unfold b. apply image_proper; auto. unfold neighbours_in in HN. destruct (createBondGenerator x) as [cls M]. exact (proj1 (proj1 (proj2 (HN i j Hi Hj) y) Hy)).
        + assert (HI : In (atom_at x i) (atoms_of x)) by (now apply nth_In). specialize (HP _ HI). exact HP.
      - unfold Gc, u. cbn [PeakWidth.b_r01 b_U0 b_a0 b_U1 b_a1]. destruct HO as [HO HP]. rewrite !canon_id; [reflexivity| |].
        + unfold b. apply image_proper; auto. unfold neighbours_in in HN. destruct (createBondGenerator x) as [cls M]. exact (proj1 (proj1 (proj2 (HN i j Hi Hj) y) Hy)).
        + assert (HI : In (atom_at x i) (atoms_of x)) by (now apply nth_In). specialize (HP _ HI). exact HP. }
    rewrite (totals_ext x GE lo hi masked mask (proj2 HM) G (Gc G) P false HN X).
    assert (HT : exists tensors, (tensors = true \/ flat_bond G) /\ orderly tensors x).
    { destruct w as [c| |j0]; [exists false; split; [right; apply gH_flat|exact HO]| |]; exists true; (split; [now left|apply HO]). }
    destruct HT as (tensors & HT & HT2). rewrite (half_c x GE lo hi masked mask HM G EG tensors P HT HT2 HN), sum_all_over.
    apply over_ext. intros i j y Hi Hj Hy b. f_equal. symmetry. exact (X i j y Hi Hj Hy).
  Qed.
  Lemma visited_count P full : neighbours_in lo hi x P -> sum_ok full -> INR (length (t full)) <= pair_count x mask P.
  Proof.
    intros HN HO. pose proof (visited_sum (fun _ _ _ _ => 1) P full HN HO ltac:(reflexivity)) as E.
    assert (E2 : pair_count x mask P = pair_total P (fun _ _ _ _ => 1)) by (apply over_ext; intros; ring). rewrite E2, <- E. unfold vsum, visited. rewrite sumf_map, map_length.
    assert (X : forall l : list (bond * Z), (forall b z, In (b, z) l -> 1 <= IZR z * (INR (siteMultiplicity x (b_site0 b)) * 1)) -> INR (length l) <= sumf (fun e => IZR (snd e) * (INR (siteMultiplicity x (b_site0 (fst e))) * 1)) l).
    { induction l as [|[b z] l IH]; intros Hl; [cbn; lra|]. cbn [length]. rewrite S_INR, sumf_cons. cbn [fst snd]. pose proof (Hl b z (or_introl eq_refl)). assert (INR (length l) <= sumf (fun e => IZR (snd e) * (INR (siteMultiplicity x (b_site0 (fst e))) * 1)) l) by (apply IH; intros; apply Hl; now right). lra. }
    apply X. intros b z Hb. destruct (in_trace _ _ _ _ _ _ _ _ GE Hb) as (H0 & _ & _ & _ & HZ). rewrite (mult_view x _ H0). apply IZR_le in HZ.
    pose proof (le_INR _ _ (mult_pos (env_of x) (siteAtom x (b_site0 b)) GE)) as M. change (INR 1) with 1 in M. nra.
  Qed.
  Lemma in_visited full b z : In (b, z) (t full) -> (b_s0 b < length (atoms_of x))%nat /\ (b_s1 b < length (atoms_of x))%nat /\ / 67108864 < PdfGrid.b_dist b.
  Proof.
    intros H. unfold visited in H. apply in_map_iff in H as ([b' z'] & E & H). injection E as <- <-. destruct (in_trace _ _ _ _ _ _ _ _ GE H) as (H0 & H1 & _ & [_ H2] & _). auto.
  Qed.
End Sum.
