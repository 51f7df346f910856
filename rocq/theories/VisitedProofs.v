(** Proofs: the sum over the visited pairs is the sum over all neighbours. *)
From Coq Require Import String.
From Verif Require Import RBase R3 Trig Sums Lattice Crystal CrystalSpec CrystalProofs CrystalTensor StructDiff StructDiffSpec StructDiffProofs Evaluator EvaluatorSpec EvaluatorHist EvaluatorProofs EvaluatorRun EvaluatorMore
  PeakWidth PeakWidthSpec PdfGrid Debye BondGen BondGenSpec World WorldSpec WorldAtoms WorldProofs WorldMain WorldTotal OrbitSpec OrbitGroup OrbitSum OrbitWorld OrbitExample Visited VisitedSpec.
Import ListNotations.
Open Scope R_scope.
Notation length := List.length.

Lemma mult_view x i : (i < length (atoms_of x))%nat -> siteMultiplicity x i = multiplicity (env_of x) (siteAtom x i).
Proof.
  unfold siteAtom. revert x. fix IH 1. intros [n b]. destruct b as [|l|L l|L p ops l|s|s]; cbn [siteMultiplicity env_of multiplicity atoms_of]; intros H; auto.
  cbn [updateSymmetryPositions x_sym x_atoms x_lat x_ops x_prec]. destruct (nth_error l i) as [a|] eqn:E; [|apply nth_error_None in E; lia].
  rewrite (nth_map_some _ l i a _ E). now rewrite (nth_error_nth _ _ _ E).
Qed.

Definition gq (lo hi : R) (masked : bool) (mask : nat -> nat -> bool) (G : catom -> catom -> ubond -> R) : quantity unit R :=
  {| q_zero := 0; q_add := Rplus; q_rmin := fun _ => lo; q_rmax := fun _ => hi; q_hasmask := fun _ => masked; q_haspairmask := fun _ => masked;
     q_mask := fun _ i _ j _ => mask i j;
     q_contrib := fun _ e z a b r _ u => INR (multiplicity e a) * (IZR z * G a b (mkUB r (c_uij a) (c_anis a) u (c_anis b)));
     q_outer := fun _ _ => true; q_stash := true |}.
Lemma heap_refl (x : adp) : heap_ok x x.
Proof. revert x. fix IH 1. intros [n b]. destruct b; cbn; split; auto. Qed.
Lemma kind_refl (x : adp) : same_kind x x.
Proof. revert x. fix IH 1. intros [n b]. destruct b; cbn; auto. Qed.
Lemma one_program x : good_env (env_of x) -> program (eq x).
Proof. intros G. split; intros; subst; auto using heap_refl, kind_refl. Qed.
Lemma qsum_sumf lo hi masked mask G {A} (f : A -> R) l : qsum (gq lo hi masked mask G) (map f l) = sumf f l.
Proof. induction l as [|a l IH]; [reflexivity|]. cbn [map]. rewrite sumf_cons, <- IH. reflexivity. Qed.

Section One.
  Context (x : adp) (GE : good_env (env_of x)) (lo hi : R) (masked : bool) (mask : nat -> nat -> bool) (HM : masked = false -> forall i j, mask i j = true).
  Notation Q := (gq lo hi masked mask).
  Notation K G := (pair_calc (eq x) isort (Q G)).
  Notation s := (exist _ x eq_refl : wstru (eq x)).
  Lemma gq_ok G : quantity_ok (Q G) Ropp.
  Proof. split; cbn [q_add q_zero q_contrib q_hasmask q_mask gq]; intros; try ring; try lra; [rewrite opp_IZR; ring|auto]. Qed.
  Lemma gq_calc G : calc_ok (K G) Ropp (wpairs (eq x) (Q G)) (watoms (eq x)) (wenv (eq x)) (ww (Q G)).
  Proof. exact (world_calc_ok (eq x) isort (one_program x GE) isort_sorts (Q G) Ropp (gq_ok G)). Qed.
  Definition gsum G (t : list (bond * Z)) : R :=
    sumf (fun e => INR (multiplicity (env_of x) (siteAtom x (b_site0 (fst e)))) * (IZR (snd e) * G (siteAtom x (b_site0 (fst e))) (siteAtom x (b_site1 (fst e))) (ubond_at x (fst e)))) t.
  Lemma same_trace G full : basic_trace (K G) tt s full 0 1 = basic_trace (loop_calc lo hi masked mask) tt x full 0 1.
  Proof.
    assert (H : forall ci co l n, basic_loop (K G) tt s full co ci 1 l n = basic_loop (loop_calc lo hi masked mask) tt x full co ci 1 l n); [|apply H].
    intros ci co. induction l as [|i l IH]; intros n; [reflexivity|]. cbn [basic_loop]. destruct (co && _); [apply IH|].
    change (Evaluator.nsites (K G) s) with (countSites x). change (Evaluator.nsites (loop_calc lo hi masked mask) x) with (countSites x).
    change (Evaluator.gen (K G) tt s i) with (shown x lo hi i). change (Evaluator.gen (loop_calc lo hi masked mask) tt x i) with (shown x lo hi i).
    destruct (inner ci 1 _ _) as [bs n2]. rewrite IH. reflexivity.
  Qed.
  Lemma trace_total G full : gsum G (basic_trace (loop_calc lo hi masked mask) tt x full 0 1) = total (K G) (wpairs (eq x) (Q G)) full tt s.
  Proof.
    pose proof (basic_value (K G) Ropp (wpairs (eq x) (Q G)) (watoms (eq x)) (wenv (eq x)) (ww (Q G)) (gq_calc G) s (init (K G) tt s EvBasic full true 0 1) eq_refl) as H.
    cbv zeta in H. change (fullsum (basic_update (K G) s (init (K G) tt s EvBasic full true 0 1))) with full in H.
    change (Evaluator.cf (basic_update (K G) s (init (K G) tt s EvBasic full true 0 1))) with tt in H. rewrite <- H.
    rewrite <- (same_trace G full).
    change (gsum G (basic_trace (K G) tt s full 0 1) = apply_trace (K G) tt s (basic_trace (K G) tt s full 0 1) 0).
    unfold apply_trace. cbn [add pair_calc q_add gq]. rewrite fold_plus, Rplus_0_l. reflexivity.
  Qed.
  Lemma neighbours_gq G P : neighbours_in lo hi x P -> neighbours (Q G) tt x P.
  Proof. intros H. exact H. Qed.
  Lemma sum_all_over G P : sum_all (Q G) tt x P = over_pairs x mask P (fun i j b => INR (multiplicity (env_of x) (atom_at x i)) * G (atom_at x i) (atom_at x j) (mkUB (BondGen.b_r01 b) (c_uij (atom_at x i)) (c_anis (atom_at x i)) (b_u1 b) (c_anis (atom_at x j)))).
  Proof.
    unfold sum_all, over_pairs. rewrite qsum_sumf. destruct (createBondGenerator x) as [cls M] eqn:E. apply sumf_ext. intros i _. rewrite qsum_sumf. apply sumf_ext. intros j _.
    unfold pair_sum. rewrite E. cbn [q_mask gq]. destruct (mask i j); [|reflexivity]. rewrite qsum_sumf. apply sumf_ext. intros y _. cbn [q_contrib gq]. f_equal. apply Rmult_1_l.
  Qed.
  Theorem full_sum G P : neighbours_in lo hi x P ->
    gsum G (basic_trace (loop_calc lo hi masked mask) tt x true 0 1) =
    over_pairs x mask P (fun i j b => INR (multiplicity (env_of x) (atom_at x i)) * G (atom_at x i) (atom_at x j) (mkUB (BondGen.b_r01 b) (c_uij (atom_at x i)) (c_anis (atom_at x i)) (b_u1 b) (c_anis (atom_at x j)))).
  Proof.
    intros HN. rewrite trace_total, <- sum_all_over. cbn [total]. exact (full_is_sum_all (Q G) (eq x) isort (one_program x GE) Ropp (gq_ok G) tt s P (neighbours_gq G P HN)).
  Qed.

  (** the tensors of the images *)
  Lemma totals_ext G G' P full : neighbours_in lo hi x P ->
    (forall i j y, (i < length (atoms_of x))%nat -> (j < length (atoms_of x))%nat -> In y (P i j) ->
       let b := bond_at (fst (createBondGenerator x)) (snd (createBondGenerator x)) i [j] y in
       let u := mkUB (BondGen.b_r01 b) (c_uij (atom_at x i)) (c_anis (atom_at x i)) (b_u1 b) (c_anis (atom_at x j)) in
       G (atom_at x i) (atom_at x j) u = G' (atom_at x i) (atom_at x j) u) ->
    total (K G) (wpairs (eq x) (Q G)) full tt s = total (K G') (wpairs (eq x) (Q G')) full tt s.
  Proof.
    intros HN HE.
    assert (PV : forall z i j, (i < length (atoms_of x))%nat -> (j < length (atoms_of x))%nat -> pair_value (K G) (wpairs (eq x) (Q G)) tt s z i j = pair_value (K G') (wpairs (eq x) (Q G')) tt s z i j).
    { intros z i j Hi Hj. rewrite (pair_is_sum (Q G) (eq x) isort (one_program x GE) Ropp (gq_ok G) tt s P z i j (neighbours_gq G P HN) Hi Hj).
      rewrite (pair_is_sum (Q G') (eq x) isort (one_program x GE) Ropp (gq_ok G') tt s P z i j (neighbours_gq G' P HN) Hi Hj).
      unfold pair_sum. cbn [wadp proj1_sig]. specialize (HE i j). destruct (createBondGenerator x) as [cls M]. cbn [fst snd q_mask gq] in *.
      destruct (mask i j); [|reflexivity]. rewrite !qsum_sumf. apply sumf_ext. intros y Hy. cbn [q_contrib gq]. do 2 f_equal. exact (HE y Hi Hj Hy). }
    unfold total. destruct full.
    - unfold full_total. change (Evaluator.nsites (K G) s) with (length (atoms_of x)). change (Evaluator.nsites (K G') s) with (length (atoms_of x)).
      change (sum (K G')) with (sum (K G)). f_equal. apply map_ext_in. intros i Hi. apply in_seq in Hi. f_equal. apply map_ext_in. intros j Hj. apply in_seq in Hj. apply PV; lia.
    - unfold half_total. change (Evaluator.nsites (K G) s) with (length (atoms_of x)). change (Evaluator.nsites (K G') s) with (length (atoms_of x)).
      change (sum (K G')) with (sum (K G)). change (add (K G')) with (add (K G)). f_equal. apply map_ext_in. intros i Hi. apply in_seq in Hi. f_equal; [|apply PV; lia].
      f_equal. apply map_ext_in. intros j Hj. apply in_seq in Hj. apply PV; lia.
  Qed.
End One.
