(** Proofs for DebyePDFCalculator: fast updates and rejected settings. *)
From Coq Require Import String Permutation.
From Verif Require Import RBase AList Trig Sums PdfGrid PdfProofs PdfMain PdfFft PdfResult Debye DebyeSpec DebyeProofs DebyeSum DebyeMain.
Open Scope R_scope.

Lemma term_conf c c' s e k : k_prec c' = k_prec c -> k_qstep c' = k_qstep c -> k_sf c' = k_sf c -> term c' s e k = term c s e k.
Proof.
  intros E1 E2 E3. unfold term. rewrite E1, E2. assert (E : forall i q, used_sf c' s i q = used_sf c s i q) by (intros; unfold used_sf, own_sf; now rewrite E3).
  rewrite (kept_ext _ _ _ _ _ _ _ (fun i _ q => E i q)). unfold amplitude. now rewrite !E.
Qed.
Definition same_calc (c c' : dconf) : Prop := k_prec c' = k_prec c /\ k_sf c' = k_sf c /\ k_qmax c' = k_qmax c.
Lemma fast_ok t0 s t1 t x : dinv x -> fits x -> pairs_ok (ds x) t0 -> pairs_ok s t1 -> pairs_ok s t ->
  (exists y, fastUpdate t0 s t1 t x = Ok y /\ fits y /\ ds y = s /\ same_calc (dc x) (dc y) /\
     ((dtick y = dtick x /\ k_qstep (dc y) = k_qstep (dc x) /\ forall k, (0 <= k < qmaxSteps (dc y))%Z ->
         nth (Z.to_nat k) (dval y) 0 = nth (Z.to_nat k) (dval x) 0 + sumf (fun e => term (dc y) (ds x) e k) t0 + sumf (fun e => term (dc y) s e k) t1) \/
      (forall k, (0 <= k < qmaxSteps (dc y))%Z -> nth (Z.to_nat k) (dval y) 0 = sumf (fun e => term (dc y) s e k) t))) \/
  (exists y, fastUpdate t0 s t1 t x = Throw InvalidArgument y).
Proof.
  intros Hx Hf P0 P1 P. destruct (addPairs_ok t0 x Hf P0) as (v & E & El & Ev). unfold fastUpdate. rewrite E. cbn [andthen]. set (x1 := with_dval x v).
  assert (Hx1 : dinv x1) by exact Hx. destruct (setStructure_cases s x1 Hx1) as [(x2 & E2)|(y & E2 & _)]; rewrite E2; cbn [andthen]; [|right; eauto].
  destruct (set_current s x1 x2 Hx1 E2) as (Hi2 & Hc2 & Hs2 & H02 & q & o & Ed & Et & Hq). pose proof (current_fits _ Hi2 Hc2) as Hf2.
  destruct (Nat.eqb_spec (dtick x2) (dtick x1)) as [e|e].
  - assert (Eq : q = k_qstep (dc x)). { destruct (Reqb (k_qstep (dc x1)) q) eqn:E3; [apply Reqb_true in E3; now symmetry|]. cbn [negb] in Et. lia. }
    assert (Em : qmaxSteps (dc x2) = qmaxSteps (dc x)) by (rewrite Ed; unfold qmaxSteps; cbn; now rewrite Eq).
    assert (Hl : length v = length (dval x2)). { rewrite El. destruct Hf as (_ & _ & ->). destruct Hf2 as (_ & _ & ->). now rewrite Em. }
    set (x3 := with_dval x2 v). assert (Hf3 : fits x3) by (apply fits_val; auto). rewrite <- Hs2 in P1.
    destruct (addPairs_ok t1 x3 Hf3 P1) as (w & Ew & Ewl & Ewv). left. exists (with_dval x3 w). split; [exact Ew|].
    split; [now apply fits_val|]. split; [exact Hs2|]. split; [cbn; rewrite Ed; now repeat split|]. left. split; [exact e|].
    split; [cbn; rewrite Ed; exact Eq|]. intros k Hk. cbn [with_dval dval dc x3] in *. rewrite Ewv by exact Hk. cbn [dval x3 ds dc with_dval]. rewrite Ev by (rewrite <- Em; exact Hk).
    rewrite Hs2. rewrite (sumf_ext (fun e0 => term (dc x2) (ds x) e0 k) (fun e0 => term (dc x) (ds x) e0 k)); [reflexivity|].
    intros e0 _. apply term_conf; rewrite Ed; auto.
  - unfold eval. destruct (setStructure_cases s x2 Hi2) as [(x3 & E3)|(y & E3 & _)]; rewrite E3; cbn [andthen]; [|right; eauto].
    destruct (set_current s x2 x3 Hi2 E3) as (Hi3 & Hc3 & Hs3 & H03 & q3 & o3 & Ed3 & _ & _). pose proof (current_fits _ Hi3 Hc3) as Hf3. rewrite <- Hs3 in P.
    destruct (addPairs_ok t x3 Hf3 P) as (w & Ew & Ewl & Ewv). left. exists (with_dval x3 w). split; [exact Ew|]. split; [now apply fits_val|].
    split; [exact Hs3|]. split; [cbn; rewrite Ed3, Ed; now repeat split|]. right. intros k Hk. cbn [with_dval dval dc] in *. rewrite Ewv by exact Hk. rewrite Hs3.
    replace (nth (Z.to_nat k) (dval x3) 0) with 0; [lra|].
    destruct (Nat.lt_ge_cases (Z.to_nat k) (length (dval x3))) as [Hl|Hl]; [|now rewrite nth_overflow]. rewrite Forall_forall in H03. apply H03. now apply nth_In.
Qed.
Lemma amplitude_opp f b z q : amplitude f b (- z) q = - amplitude f b z q.
Proof. unfold amplitude, Rdiv. rewrite opp_IZR. ring. Qed.
Lemma kept_opp f p d b z k : kept f p d b (- z) k = kept f p d b z k.
Proof. unfold kept. induction (zrange 0 (k + 1)) as [|j l IH]; cbn [forallb]; [auto|]. now rewrite IH, amplitude_opp, Rabs_Ropp. Qed.
Lemma taken_back_sum f p d t k : debye_cut f p d (taken_back t) k = - debye_cut f p d t k.
Proof.
  unfold debye_cut, taken_back. rewrite sumf_map. match goal with |- _ = - sumf ?g t => replace (- sumf g t) with (-1 * sumf g t) by ring end. rewrite <- sumf_scale. apply sumf_ext. intros [b z] _. cbn [fst snd].
  rewrite kept_opp, amplitude_opp. destruct (_ && _)%bool; ring.
Qed.
Lemma cut_perm f p d t t' k : Permutation t t' -> debye_cut f p d t k = debye_cut f p d t' k.
Proof. apply sumf_perm. Qed.
Lemma cut_app f p d t t' k : debye_cut f p d (t ++ t') k = debye_cut f p d t k + debye_cut f p d t' k.
Proof. apply sumf_app. Qed.
Lemma cut_same c s0 s t k : same_sites c s0 s t -> debye_cut (used_sf c s0) (k_prec c) (k_qstep c) t k = debye_cut (used_sf c s) (k_prec c) (k_qstep c) t k.
Proof.
  intros H. apply sumf_ext. intros [b z] Hb. cbn [fst snd]. assert (E : forall i, i = b_s0 b \/ i = b_s1 b -> forall q, used_sf c s0 i q = used_sf c s i q) by (intros i Hi q; exact (H b z i q Hb Hi)).
  rewrite (kept_ext _ (used_sf c s) _ _ _ _ _ E). destruct (_ && _)%bool; [|reflexivity]. unfold amplitude. now rewrite !(E _ (or_introl eq_refl)), !(E _ (or_intror eq_refl)).
Qed.
(** a fast update gives the sum over the pairs of the new structure *)
Lemma fast_is_full x s0 T0 C t1 t s y : dinv x -> fits x -> ds x = s0 ->
  (forall k, (0 <= k < qmaxSteps (dc x))%Z -> nth (Z.to_nat k) (dval x) 0 = debye_cut (used_sf (dc x) s0) (k_prec (dc x)) (k_qstep (dc x)) (T0 ++ C) k) ->
  pairs_ok s0 T0 -> pairs_ok s t1 -> pairs_ok s t -> Permutation t (C ++ t1) -> same_sites (dc x) s0 s C ->
  fastUpdate (taken_back T0) s t1 t x = Ok y ->
  forall k, (0 <= k < qmaxSteps (dc y))%Z -> nth (Z.to_nat k) (dval y) 0 = debye_cut (used_sf (dc y) s) (k_prec (dc y)) (k_qstep (dc y)) t k.
Proof.
  intros Hx Hf E0 Hv P0 P1 P Hp Hs Hy k Hk. subst s0.
  assert (P0' : pairs_ok (ds x) (taken_back T0)). { intros b z Hb. unfold taken_back in Hb. apply in_map_iff in Hb. destruct Hb as ([b' z'] & E & Hb). injection E as <- _. exact (P0 _ _ Hb). }
  destruct (fast_ok (taken_back T0) s t1 t x Hx Hf P0' P1 P) as [(y' & E & _ & _ & (C1 & C2 & C3) & D)|(y' & E)]; rewrite Hy in E; [|discriminate].
  injection E as <-. destruct D as [(_ & Eq & D)|D]; rewrite D by exact Hk; [|apply term_sum].
  rewrite !term_sum, taken_back_sum, (cut_perm _ _ _ _ _ _ Hp), cut_app.
  rewrite Hv by (unfold qmaxSteps in *; rewrite C3, Eq in Hk; exact Hk). rewrite cut_app.
  assert (Eu : forall u t' , debye_cut (used_sf (dc y) u) (k_prec (dc y)) (k_qstep (dc y)) t' k = debye_cut (used_sf (dc x) u) (k_prec (dc x)) (k_qstep (dc x)) t' k).
  { intros u t'. rewrite <- !term_sum. apply sumf_ext. intros e _. apply term_conf; congruence. }
  rewrite !Eu, <- (cut_same (dc x) (ds x) s C) by exact Hs. lra.
Qed.
(** rejected settings *)
Lemma throw_update x e z : updateQstep x = Throw e z -> oqstep (k_qmax (dc z)) (snd (bondLimits z)) <= SQRT_DOUBLE_EPS.
Proof.
  intros E. destruct (updateQstep_cases x) as (q & o & [(E' & _)|(E' & H)]); rewrite E in E'; [discriminate|]. injection E' as -> ->.
  cbn [bondLimits snd]. change (oqstep _ _) with (oq (setq (cached x) (k_qstep (dc x)) o)). rewrite oq_setq by apply rc_cached.
  unfold oq in *. now rewrite rcalchi_cached, dc_cached.
Qed.
Lemma zero_qmax s t z : dinv z -> k_qmax (dc z) = 0 -> exists w, dstep (DEval s t) z = Throw InvalidArgument w.
Proof.
  intros Hz Hq. cbn [dstep]. unfold eval, setStructure, resetValue. set (x0 := {| dc := dc z; ds := s; dsc := dsc z; closteps := closteps z; chisteps := chisteps z; rcached := rcached z; dval := dval z; dtick := dtick z |}).
  assert (E0 : oq (cacheRlimits x0) <= 0). { unfold oq, oqstep. cbn [cacheRlimits with_lims dc x0]. rewrite Hq. unfold Rdiv. rewrite !Rmult_0_l. replace (Rltb 4 0) with false by (symmetry; apply Rltb_false; lra). lra. }
  pose proof eps_pos'. destruct Hz as ((_ & _ & _ & _ & _ & Hs & _) & _).
  destruct (updateQstep_cases (cacheRlimits x0)) as (q & o & [(E & Hle & Ht & Hf)|(E & Hle)]).
  - destruct o; [destruct (Ht eq_refl); lra|]. destruct (Hf eq_refl) as [-> _]. change (dc (cacheRlimits x0)) with (dc z) in Hle. lra.
  - rewrite E. cbn [andthen]. eauto.
Qed.

(** settings after an accepted call *)
Lemma update_conf x y : updateQstep x = Ok y -> exists q o, dc y = upd_dconf (dc x) (k_rmin (dc x)) (k_rmax (dc x)) (k_rstep (dc x)) (k_qmin (dc x)) (k_qmax (dc x)) q o (k_maxext (dc x)) /\
  q <= oq x /\ (o = true -> q = oq x) /\ (o = false -> q = k_qstep (dc x) /\ k_opt (dc x) = false).
Proof.
  intros E. destruct (updateQstep_cases x) as (q & o & [(E' & H1 & H2 & H3)|(E' & _)]); rewrite E in E'; [|discriminate]. injection E' as ->. exists q, o.
  split; [unfold setq; rewrite dc_cached; reflexivity|]. split; [exact H1|]. split; [intros Ho; now apply H2|exact H3].
Qed.
Lemma dc_uncache b x : dc (uncache b x) = dc x. Proof. now destruct b. Qed.
Definition others_kept (c c' : dconf) (rmin rmax rstep qmin qmax maxext : R) : Prop :=
  exists q o, c' = upd_dconf c rmin rmax rstep qmin qmax q o maxext.
Lemma set_conf_all x y r :
  (dstep (DRmin r) x = Ok y -> dc y = upd_dconf (dc x) r (k_rmax (dc x)) (k_rstep (dc x)) (k_qmin (dc x)) (k_qmax (dc x)) (k_qstep (dc x)) (k_opt (dc x)) (k_maxext (dc x))) /\
  (dstep (DRstep r) x = Ok y -> dc y = upd_dconf (dc x) (k_rmin (dc x)) (k_rmax (dc x)) r (k_qmin (dc x)) (k_qmax (dc x)) (k_qstep (dc x)) (k_opt (dc x)) (k_maxext (dc x))) /\
  (dstep (DQmin r) x = Ok y -> dc y = upd_dconf (dc x) (k_rmin (dc x)) (k_rmax (dc x)) (k_rstep (dc x)) r (k_qmax (dc x)) (k_qstep (dc x)) (k_opt (dc x)) (k_maxext (dc x))) /\
  (dstep (DRmax r) x = Ok y -> others_kept (dc x) (dc y) (k_rmin (dc x)) r (k_rstep (dc x)) (k_qmin (dc x)) (k_qmax (dc x)) (k_maxext (dc x))) /\
  (dstep (DQmax r) x = Ok y -> others_kept (dc x) (dc y) (k_rmin (dc x)) (k_rmax (dc x)) (k_rstep (dc x)) (k_qmin (dc x)) r (k_maxext (dc x))) /\
  (dstep (DMaxExt r) x = Ok y -> others_kept (dc x) (dc y) (k_rmin (dc x)) (k_rmax (dc x)) (k_rstep (dc x)) (k_qmin (dc x)) (k_qmax (dc x)) r).
Proof.
  cbn [dstep]. unfold setRmin, setRmax, setRstep, setQmin, setQmax, setMaxExtension. split; [|split; [|split]].
  - destruct (Rltb r 0); [discriminate|]. intros H. injection H as <-. reflexivity.
  - destruct (eps_gt r 0 SQRT_DOUBLE_EPS); cbn [negb]; [|discriminate]. intros H. injection H as <-. reflexivity.
  - destruct (Rltb r 0); [discriminate|]. intros H. injection H as <-. reflexivity.
  - destruct (Rltb r 0); [split; [|split]; discriminate|]. split; [|split]; intros H; apply update_conf in H; destruct H as (q & o & -> & _); now exists q, o.
Qed.
Lemma setQstep_conf x y q : dstep (DQstep q) x = Ok y -> dc y = upd_dconf (dc x) (k_rmin (dc x)) (k_rmax (dc x)) (k_rstep (dc x)) (k_qmin (dc x)) (k_qmax (dc x)) (Rmin q (oq x)) (k_opt (dc y)) (k_maxext (dc x)).
Proof.
  cbn [dstep]. unfold setQstep, base_setQstep. destruct (eps_gt q 0 SQRT_DOUBLE_EPS); cbn [negb andthen]; [|discriminate]. set (x1 := set_opt false _).
  intros H. assert (Eo : oq x1 = oq x). { unfold oq, rcalchi, cached. change (rcached x1) with (rcached x). now destruct (rcached x). }
  unfold updateQstep in H. rewrite rcalchi_cached, dc_cached in H. fold (oq x1) in H. rewrite Eo in H. change (k_qstep (dc x1)) with q in H. destruct (Rleb (oq x) q) eqn:E.
  - apply Rleb_true in E. rewrite Rmin_right by exact E. cbn [set_opt with_conf dc upd_dconf k_opt] in H. unfold base_setQstep in H. destruct (negb _) eqn:En in H; [discriminate|]. injection H as <-.
    cbn [with_conf dc upd_dconf set_opt k_rmin k_rmax k_rstep k_qmin k_qmax k_qstep k_opt k_maxext]. rewrite !dc_cached. reflexivity.
  - apply Rleb_false in E. rewrite Rmin_left by lra. rewrite dc_cached in H. change (k_opt (dc x1)) with false in H. cbv iota in H. injection H as <-. rewrite dc_cached. reflexivity.
Qed.
Lemma setOptimum_conf x y : dstep DOptimum x = Ok y -> dc y = upd_dconf (dc x) (k_rmin (dc x)) (k_rmax (dc x)) (k_rstep (dc x)) (k_qmin (dc x)) (k_qmax (dc x)) (oq x) true (k_maxext (dc x)).
Proof.
  cbn [dstep]. unfold setOptimumQstep. set (x1 := set_opt true x). intros H.
  assert (Eo : oq x1 = oq x). { unfold oq, rcalchi, cached. change (rcached x1) with (rcached x). now destruct (rcached x). }
  apply update_conf in H. destruct H as (q & o & -> & _ & Ht & Hf). destruct o; [|destruct (Hf eq_refl); discriminate]. rewrite (Ht eq_refl), Eo. reflexivity.
Qed.
Lemma throw_cause x o e z : dinv x -> dstep o x = Throw e z -> z = x \/ oqstep (k_qmax (dc z)) (snd (bondLimits z)) <= SQRT_DOUBLE_EPS.
Proof.
  intros Hx H. destruct o; cbn [dstep] in H.
  1-8: unfold setRmin, setRmax, setRstep, setQmin, setQmax, setQstep, base_setQstep, setOptimumQstep, setMaxExtension in H.
  1-8: try (match type of H with (if ?b then _ else _) = _ => destruct b; [injection H as <- <-; now left|] end); try discriminate; try (right; exact (throw_update _ _ _ H)).
  - destruct (negb _); cbn [andthen] in H; [injection H as <- <-; now left|]. right. exact (throw_update _ _ _ H).
  - discriminate.
  - destruct (setStructure_cases s x Hx) as [(y & E)|(y & E & _ & Ho)]; rewrite E in H; [discriminate|]. injection H as <- <-. now right.
  - destruct (eval_cases (DEval s t) s t x Hx) as [(y & z' & v & E & _)|(y & E & _ & Ho)]; [now right| |]; cbn [dstep] in E; rewrite E in H; [discriminate|]. injection H as <- <-. now right.
Qed.
