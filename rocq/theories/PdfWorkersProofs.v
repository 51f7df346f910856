(** Proofs: merged values of the PDF calculators. *)
From Coq Require Import String Permutation.
From Verif Require Merge MergeProofs.
From Verif Require Import RBase R3 Trig Sums StructDiff StructDiffSpec Evaluator PdfGrid PdfSpec PdfProofs PdfMain PdfFinal Debye DebyeSpec DebyeProofs DebyeSum DebyeMain DebyeProps BondGen World WorldSpec
  Visited VisitedSpec VisitedMain VisitedCalc Shares SiteSums PdfWorkers.
Import ListNotations.
Open Scope R_scope.
Notation length := List.length.

Lemma merged_nth cnt nf v (parts : list (list R)) N : (1 <= N)%nat -> length parts = N -> Forall (fun p => length p = length v) parts ->
  length (merged_value cnt nf v N parts) = length v /\
  forall i, (i < length v)%nat -> nth i (merged_value cnt nf v N parts) 0 = sumf (fun p => nth i p 0) parts.
Proof.
  intros H1 HL HF. destruct (MergeProofs.merge_after_reset Rplus 0 (fun v => v) {| Merge.mval := v; Merge.mcount := cnt; Merge.nfinish := nf |} parts) as (_ & _ & u & E & L & Hn).
  - intros ->. cbn in HL. lia.
  - exact HF.
  - unfold merged_value. rewrite <- HL, E. cbn [Merge.mval] in L, Hn. split; [exact L|]. intros i Hi. rewrite (Hn i Hi), fold_plus. ring.
Qed.
Lemma flat_ok {A B} (f : A -> outcome B) (g : B -> list R) (h : A -> list R) l : (forall k, In k l -> exists y, f k = Ok y /\ g y = h k) ->
  flat_map (fun k => match f k with Ok y => [g y] | _ => [] end) l = map h l.
Proof.
  induction l as [|a l IH]; intros H; [reflexivity|]. cbn [flat_map map]. destruct (H a) as (y & -> & <-); [now left|]. rewrite IH by (intros; apply H; now right). reflexivity.
Qed.
Lemma pairs_perm outer w masked mask full lo hi x N order : (1 <= N)%nat -> Permutation order (seq 0 N) ->
  Permutation (flat_map (fun k => worker_pairs outer w masked mask full lo hi x k N) order) (visited w masked mask full lo hi x).
Proof.
  intros H HO. unfold visited, worker_pairs. rewrite <- (shares_perm outer lo hi masked mask full x N order H HO).
  enough (E : forall l, flat_map (fun k => map (fun e => (pbond_at w x (fst e), snd e)) (share outer lo hi masked mask full x k N)) l =
     map (fun e => (pbond_at w x (fst e), snd e)) (flat_map (fun k => share outer lo hi masked mask full x k N) l)) by (rewrite E; reflexivity).
  induction l as [|k l IH]; [reflexivity|]. cbn [flat_map]. now rewrite map_app, IH.
Qed.
Lemma pairs_part outer w masked mask full lo hi x N k e : (k < N)%nat -> In e (worker_pairs outer w masked mask full lo hi x k N) -> In e (visited w masked mask full lo hi x).
Proof.
  intros H He. apply in_map_iff in He as (b & <- & Hb). unfold visited. apply (in_map (fun e => (pbond_at w x (fst e), snd e))). exact (share_part _ _ _ _ _ _ _ _ _ _ H Hb).
Qed.
Lemma perm_length order N : Permutation order (seq 0 N) -> length order = N.
Proof. intros H. rewrite (Permutation_length H). apply seq_length. Qed.

(** ** setStructure twice is setStructure once *)
Lemma update_fix x y : updateQstep x = Ok y -> updateQstep y = Ok y.
Proof.
  unfold updateQstep. rewrite rcalchi_cached, dc_cached. set (o := oqstep (k_qmax (dc x)) (rcalchi x)).
  assert (HQ : forall q b, let z := setq (cached x) q b in cached z = z /\ oqstep (k_qmax (dc z)) (rcalchi z) = o).
  { intros q b z. assert (C : cached z = z) by (unfold cached at 1, z, setq, with_conf; cbn [rcached]; now rewrite rc_cached). split; [exact C|].
    unfold o. f_equal; [unfold z, setq, with_conf, upd_dconf; cbn [dc k_qmax]; now rewrite dc_cached|]. unfold rcalchi. rewrite C. unfold z, setq, with_conf, upd_dconf; cbn [dc k_rstep chisteps]. now rewrite dc_cached. }
  assert (HO : forall b, b = true -> forall z, (if eps_gt o 0 SQRT_DOUBLE_EPS then Some (setq (cached x) o b) else None) = Some z ->
     (let x0 := cached z in let o0 := oqstep (k_qmax (dc x0)) (rcalchi x0) in let x1 := if Rleb o0 (k_qstep (dc x0)) then set_opt true x0 else x0 in if k_opt (dc x1) then base_setQstep o0 x1 else Ok x1) = Ok z).
  { intros b -> z. destruct (eps_gt o 0 SQRT_DOUBLE_EPS) eqn:E; [|discriminate]. intros H. injection H as <-. cbv zeta. destruct (HQ o true) as [C O]. rewrite C, O.
    assert (S : set_opt true (setq (cached x) o true) = setq (cached x) o true) by reflexivity. rewrite S.
    replace (if Rleb o (k_qstep (dc (setq (cached x) o true))) then setq (cached x) o true else setq (cached x) o true) with (setq (cached x) o true) by now destruct (Rleb _ _).
    change (k_opt (dc (setq (cached x) o true))) with true. cbv iota. unfold base_setQstep. rewrite E. cbn [negb]. f_equal.
    change (k_qstep (dc (setq (cached x) o true))) with o. unfold Reqb. destruct (Req_EM_T o o); [|congruence]. reflexivity. }
  destruct (Rleb o (k_qstep (dc x))) eqn:E.
  - change (k_opt (dc (set_opt true (cached x)))) with true. cbv iota. unfold base_setQstep.
    intros H. apply (HO true eq_refl). destruct (eps_gt o 0 SQRT_DOUBLE_EPS); cbn [negb] in H; [|discriminate]. injection H as <-.
    f_equal; unfold setq, set_opt, with_conf, upd_dconf; cbn; rewrite ?dc_cached; reflexivity.
  - rewrite dc_cached. destruct (k_opt (dc x)) eqn:Eo.
    + unfold base_setQstep. intros H. apply (HO true eq_refl). destruct (eps_gt o 0 SQRT_DOUBLE_EPS); cbn [negb] in H; [|discriminate]. injection H as <-.
      f_equal; unfold setq, with_conf, upd_dconf; rewrite ?dc_cached, ?Eo; reflexivity.
    + intros H. injection H as <-. rewrite cached_idem, rcalchi_cached, dc_cached. fold o. rewrite E, dc_cached, Eo. reflexivity.
Qed.
Lemma set_twice s x y : dinv x -> Debye.setStructure s x = Ok y -> Debye.setStructure s y = Ok y.
Proof.
  intros Hx Hy. pose proof (set_current s x y Hx Hy) as (Hi & Hc & Hs & Hv & _). revert Hy. unfold Debye.setStructure at 1, resetValue at 1.
  set (x0 := {| dc := dc x; ds := s; dsc := dsc x; closteps := closteps x; chisteps := chisteps x; rcached := rcached x; dval := dval x; dtick := dtick x |}).
  destruct (updateQstep (cacheRlimits x0)) as [u|e u|] eqn:E; cbn [andthen]; try discriminate. intros H. injection H as <-.
  assert (U : ds u = s). { revert E. unfold updateQstep. change (cached (cacheRlimits x0)) with (cacheRlimits x0). destruct (Rleb _ _); destruct (k_opt _); unfold base_setQstep; try destruct (negb _); intros E; inversion E; reflexivity. }
  unfold Debye.setStructure, resetValue. cbn [dc ds dsc closteps chisteps rcached dval dtick] in *.
  set (u0 := {| dc := dc u; ds := s; dsc := cacheStructureData (dc u) (ds u); closteps := closteps u; chisteps := chisteps u; rcached := rcached u; dval := repeat 0 (Z.to_nat (qmaxSteps (dc u))); dtick := dtick u |}).
  destruct Hc as (C1 & C2 & C3 & C4 & C5 & _). cbn [dc ds dsc closteps chisteps rcached dval dtick] in *.
  assert (F : cacheRlimits u0 = u0).
  { unfold cacheRlimits. cbn [dc ds chisteps u0]. fold (nhi (dc u) s). rewrite U in C4, C5. rewrite <- C5.
    destruct (Z.leb_spec (nhi (dc u) s) (chisteps u - 50)); [lia|]. destruct (Z.ltb_spec (chisteps u) (nhi (dc u) s)); [lia|]. cbn [orb]. unfold with_lims, u0. cbn. now rewrite C1. }
  rewrite F. pose proof (update_fix _ _ E) as Eu.
  assert (G : updateQstep u0 = Ok u0).
  { assert (T : forall a b, dc a = dc b -> ds a = ds b -> closteps a = closteps b -> chisteps a = chisteps b -> rcached a = true -> rcached b = true -> dtick a = dtick b ->
       updateQstep a = Ok a -> updateQstep b = Ok b).
    { clear. intros a b H1 H2 H3 H4 H5 H6 H7. unfold updateQstep, rcalchi, cached. rewrite H5, H6, ?H5, ?H6, H1, H4. set (o := oqstep _ _).
      assert (B' : forall z, k_qstep (dc z) = o -> eps_gt o 0 SQRT_DOUBLE_EPS = true -> base_setQstep o z = Ok z).
      { intros z Hz He. unfold base_setQstep. rewrite He. cbn [negb]. f_equal. rewrite <- Hz. exact (setq_same z). }
      destruct (Rleb o (k_qstep (dc b))) eqn:E.
      - change (k_opt (dc (set_opt true a))) with true. change (k_opt (dc (set_opt true b))) with true. cbv iota. intros H.
        unfold base_setQstep in H. destruct (eps_gt o 0 SQRT_DOUBLE_EPS) eqn:Ee; cbn [negb] in H; [|discriminate]. injection H as H.
        assert (K : k_opt (dc a) = true) by (rewrite <- H; reflexivity). assert (Q : k_qstep (dc a) = o) by (rewrite <- H; reflexivity).
        assert (SO : set_opt true b = b). { unfold set_opt, with_conf. rewrite H1 in K. rewrite <- K, conf_eta. now destruct b. }
        rewrite SO. apply B'; [now rewrite <- H1|reflexivity].
      - rewrite H1. destruct (k_opt (dc b)) eqn:Ko; [|reflexivity]. intros H. unfold base_setQstep in H. destruct (eps_gt o 0 SQRT_DOUBLE_EPS) eqn:Ee; cbn [negb] in H; [|discriminate]. injection H as H.
        assert (Q : k_qstep (dc a) = o) by (rewrite <- H; reflexivity). apply B'; [now rewrite <- H1|reflexivity]. }
    apply (T u u0); auto. }
  rewrite G. cbn [andthen]. unfold u0. cbn. now rewrite U.
Qed.

(** ** DebyePDFCalculator *)
Section Deb.
  Context (x : adp) (GE : good_env (env_of x)) (w : pwmodel) (masked : bool) (mask : nat -> nat -> bool) (full : bool) (d : deb) (Hd : dinv d).
  Notation T m := (visited w masked mask full (fst (Debye.bondLimits m)) (snd (Debye.bondLimits m)) x).
  Lemma pairs_fine lo hi t : (forall e, In e t -> In e (visited w masked mask full lo hi x)) -> DebyeSpec.pairs_ok (debye_view x) t.
  Proof. intros HT b z H. destruct (in_visited x GE w _ _ masked mask full b z (HT _ H)) as (H0 & H1 & _). cbn [d_n debye_view]. now split. Qed.
  Theorem debye_merge outer dk cnt nf N order : (1 <= N)%nat -> Permutation order (seq 0 N) ->
    (forall k, (k < N)%nat -> dk k = d \/ Debye.setStructure (debye_view x) d = Ok (dk k)) ->
    debye_merged outer w masked mask full x d dk cnt nf N order = debye_eval w masked mask full x d.
  Proof.
    intros H1 HO HK. unfold debye_merged, debye_eval. destruct (setStructure_cases (debye_view x) d Hd) as [(m & E)|(y & E & _)]; rewrite E; cbn [andthen]; [|reflexivity].
    destruct (set_current _ _ _ Hd E) as (Hm & Hc & Hs & Hz & _). pose proof (current_fits m Hm Hc) as HF. pose proof (fits_len m HF) as HL.
    assert (HW : forall k, (k < N)%nat -> exists v, debye_worker outer w masked mask full x (dk k) k N = Ok (with_dval m v) /\ length v = length (dval m) /\
       forall i, (i < length (dval m))%nat -> nth i v 0 = sumf (fun e => term (dc m) (ds m) e (Z.of_nat i)) (worker_pairs outer w masked mask full (fst (Debye.bondLimits m)) (snd (Debye.bondLimits m)) x k N)).
    { intros k Hk. assert (Ek : Debye.setStructure (debye_view x) (dk k) = Ok m). { destruct (HK k Hk) as [->|Ek]; [exact E|]. rewrite E in Ek. injection Ek as <-. exact (set_twice _ _ _ Hd E). }
      unfold debye_worker. rewrite Ek. cbn [andthen].
      destruct (addPairs_ok (worker_pairs outer w masked mask full (fst (Debye.bondLimits m)) (snd (Debye.bondLimits m)) x k N) m HF) as (v & Ev & Lv & Nv).
      { rewrite Hs. apply (pairs_fine (fst (Debye.bondLimits m)) (snd (Debye.bondLimits m))). intros e. now apply pairs_part. }
      exists v. split; [exact Ev|]. split; [exact Lv|]. intros i Hi. specialize (Nv (Z.of_nat i)). rewrite Nat2Z.id in Nv. rewrite Nv by lia.
      rewrite <- (proj1 (Forall_forall _ _) Hz (nth i (dval m) 0)); [ring|now apply nth_In]. }
    assert (Inv : forall k, In k order -> (k < N)%nat). { intros k Hk. apply (Permutation_in _ HO), in_seq in Hk. lia. }
    set (h := fun k => match debye_worker outer w masked mask full x (dk k) k N with Ok y => dval y | _ => [] end).
    rewrite (flat_ok _ dval h). 2:{ intros k Hk. destruct (HW k (Inv k Hk)) as (v & Ev & _). exists (with_dval m v). split; [exact Ev|]. unfold h. now rewrite Ev. }
    assert (Hh : forall k, In k order -> length (h k) = length (dval m) /\
       forall i, (i < length (dval m))%nat -> nth i (h k) 0 = sumf (fun e => term (dc m) (ds m) e (Z.of_nat i)) (worker_pairs outer w masked mask full (fst (Debye.bondLimits m)) (snd (Debye.bondLimits m)) x k N)).
    { intros k Hk. destruct (HW k (Inv k Hk)) as (v & Ev & Lv & Nv). unfold h. rewrite Ev. cbn [with_dval dval]. now split. }
    destruct (merged_nth cnt nf (dval m) (map h order) N H1) as [L M]; [rewrite map_length; now apply perm_length|apply Forall_forall; intros p Hp; apply in_map_iff in Hp as (k & <- & Hk); now apply Hh|].
    destruct (addPairs_ok (T m) m HF) as (v & Ev & Lv & Nv). { rewrite Hs. now apply (pairs_fine (fst (Debye.bondLimits m)) (snd (Debye.bondLimits m))). }
    rewrite Ev. do 2 f_equal. apply (nth_ext _ _ 0 0); [congruence|]. intros i Hi. rewrite L in Hi. rewrite (M i Hi). specialize (Nv (Z.of_nat i)). rewrite Nat2Z.id in Nv. rewrite Nv by lia.
    rewrite <- (proj1 (Forall_forall _ _) Hz (nth i (dval m) 0)) by (now apply nth_In). rewrite Rplus_0_l, sumf_map.
    rewrite <- (sumf_perm _ _ _ (pairs_perm outer w masked mask full (fst (Debye.bondLimits m)) (snd (Debye.bondLimits m)) x N order H1 HO)), sumf_flat.
    apply sumf_ext. intros k Hk. now apply (proj2 (Hh k Hk)).
  Qed.
End Deb.

(** ** PDFCalculator *)
Lemma pset_twice s c : PdfGrid.setStructure s (PdfGrid.setStructure s c) = PdfGrid.setStructure s c.
Proof. unfold PdfGrid.setStructure, PdfGrid.resetValue. cbn. destruct (base c); reflexivity. Qed.
Lemma same_state a b : same_but_value a b -> b = with_value a (mvalue b).
Proof. destruct a, b. unfold same_but_value, with_value. cbn. intros (-> & -> & -> & -> & -> & -> & _). reflexivity. Qed.
Section Pdf.
  Context (x : adp) (w : pwmodel) (masked : bool) (mask : nat -> nat -> bool) (full : bool) (c : pdfc) (Hc : settings_ok (cf c)).
  Theorem pdf_merge outer ck cnt nf N order : (1 <= N)%nat -> Permutation order (seq 0 N) ->
    (forall k, (k < N)%nat -> ck k = c \/ ck k = PdfGrid.setStructure (pdf_view w x) c) ->
    pdf_merged outer w masked mask full x c ck cnt nf N order = pdf_eval w masked mask full x c.
  Proof.
    intros H1 HO HK. unfold pdf_merged, pdf_eval. cbv zeta. destruct (wf_setStructure (pdf_view w x) c Hc) as [W _].
    assert (Z0 : forall i, nth i (mvalue (PdfGrid.setStructure (pdf_view w x) c)) 0 = 0). { intros i. unfold PdfGrid.setStructure, PdfGrid.resetValue. cbn [mvalue]. apply nth_repeat. }
    assert (EK : forall k, (k < N)%nat -> PdfGrid.setStructure (pdf_view w x) (ck k) = PdfGrid.setStructure (pdf_view w x) c). { intros k Hk. destruct (HK k Hk) as [->| ->]; [reflexivity|apply pset_twice]. }
    set (m := PdfGrid.setStructure (pdf_view w x) c) in *. set (P := worker_pairs outer w masked mask full (fst (PdfGrid.bondLimits m)) (snd (PdfGrid.bondLimits m)) x).
    assert (HW : forall k, (k < N)%nat -> exists y, pdf_worker outer w masked mask full x (ck k) k N = Ok y /\ length (mvalue y) = length (mvalue m) /\
       forall i, (i < length (mvalue m))%nat -> nth i (mvalue y) 0 = sumf (fun e => contribution m (fst e) (snd e) (rpoint m i)) (P k N)).
    { intros k Hk. unfold pdf_worker. cbv zeta. rewrite (EK k Hk). destruct (addPairs_spec (P k N) m W) as (y & Ey & _ & S & Ny). exists y. split; [exact Ey|]. split; [apply S|]. intros i Hi. rewrite (Ny i Hi), Z0. ring. }
    assert (Inv : forall k, In k order -> (k < N)%nat). { intros k Hk. apply (Permutation_in _ HO), in_seq in Hk. lia. }
    set (h := fun k => match pdf_worker outer w masked mask full x (ck k) k N with Ok y => mvalue y | _ => [] end).
    rewrite (flat_ok _ mvalue h). 2:{ intros k Hk. destruct (HW k (Inv k Hk)) as (y & Ey & _). exists y. split; [exact Ey|]. unfold h. now rewrite Ey. }
    assert (Hh : forall k, In k order -> length (h k) = length (mvalue m) /\
       forall i, (i < length (mvalue m))%nat -> nth i (h k) 0 = sumf (fun e => contribution m (fst e) (snd e) (rpoint m i)) (P k N)).
    { intros k Hk. destruct (HW k (Inv k Hk)) as (y & Ey & Ly & Ny). unfold h. rewrite Ey. now split. }
    destruct (merged_nth cnt nf (mvalue m) (map h order) N H1) as [L M]; [rewrite map_length; now apply perm_length|apply Forall_forall; intros p Hp; apply in_map_iff in Hp as (k & <- & Hk); now apply Hh|].
    destruct (addPairs_spec (visited w masked mask full (fst (PdfGrid.bondLimits m)) (snd (PdfGrid.bondLimits m)) x) m W) as (y & Ey & _ & S & Ny).
    rewrite Ey. f_equal. rewrite (same_state _ _ S). f_equal. destruct S as (_ & _ & _ & _ & _ & _ & Ly).
    apply (nth_ext _ _ 0 0); [congruence|]. intros i Hi. rewrite L in Hi. rewrite (M i Hi), (Ny i Hi), Z0, Rplus_0_l, sumf_map.
    rewrite <- (sumf_perm _ _ _ (pairs_perm outer w masked mask full (fst (PdfGrid.bondLimits m)) (snd (PdfGrid.bondLimits m)) x N order H1 HO)), sumf_flat.
    apply sumf_ext. intros k Hk. now apply (proj2 (Hh k Hk)).
  Qed.
End Pdf.
