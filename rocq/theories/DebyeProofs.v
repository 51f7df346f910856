(** Proofs for DebyePDFCalculator: settings, r-range and Q-step. *)
From Coq Require Import String.
From Verif Require Import RBase AList Trig Sums PdfGrid PdfProofs PdfMain PdfFft PdfResult Debye DebyeSpec.
Open Scope R_scope.

Definition setq (x : deb) (q : R) (o : bool) : deb :=
  let c := dc x in
  with_conf x (upd_dconf c (k_rmin c) (k_rmax c) (k_rstep c) (k_qmin c) (k_qmax c) q o (k_maxext c)) (negb (Reqb (k_qstep c) q)).
Lemma dc_cached x : dc (cached x) = dc x. Proof. unfold cached. now destruct (rcached x). Qed.
Lemma ds_cached x : ds (cached x) = ds x. Proof. unfold cached. now destruct (rcached x). Qed.
Lemma dsc_cached x : dsc (cached x) = dsc x. Proof. unfold cached. now destruct (rcached x). Qed.
Lemma dval_cached x : dval (cached x) = dval x. Proof. unfold cached. now destruct (rcached x). Qed.
Lemma dtick_cached x : dtick (cached x) = dtick x. Proof. unfold cached. now destruct (rcached x). Qed.
Lemma rc_cached x : rcached (cached x) = true. Proof. unfold cached. now destruct (rcached x) eqn:E. Qed.
Lemma cached_idem x : cached (cached x) = cached x. Proof. unfold cached at 1. now rewrite rc_cached. Qed.
Lemma rcalchi_cached x : rcalchi (cached x) = rcalchi x. Proof. unfold rcalchi. now rewrite cached_idem, dc_cached. Qed.
Definition oq (x : deb) : R := oqstep (k_qmax (dc x)) (rcalchi x).
Lemma conf_eta c : upd_dconf c (k_rmin c) (k_rmax c) (k_rstep c) (k_qmin c) (k_qmax c) (k_qstep c) (k_opt c) (k_maxext c) = c.
Proof. now destruct c. Qed.
Lemma setq_same x : setq x (k_qstep (dc x)) (k_opt (dc x)) = x.
Proof. unfold setq. rewrite conf_eta. unfold with_conf. unfold Reqb. destruct (Req_EM_T _ _); [|congruence]. now destruct x. Qed.

(** the two outcomes of updateQstep *)
Lemma updateQstep_cases x : exists q o,
  (updateQstep x = Ok (setq (cached x) q o) /\ q <= oq x /\ (o = true -> q = oq x /\ SQRT_DOUBLE_EPS < q) /\
     (o = false -> q = k_qstep (dc x) /\ k_opt (dc x) = false) ) \/
  (updateQstep x = Throw InvalidArgument (setq (cached x) (k_qstep (dc x)) o) /\ oq x <= SQRT_DOUBLE_EPS).
Proof.
  unfold updateQstep. rewrite rcalchi_cached, dc_cached. fold (oq x).
  destruct (Rleb (oq x) (k_qstep (dc x))) eqn:E.
  - cbn [set_opt with_conf dc upd_dconf k_opt]. unfold base_setQstep. destruct (eps_gt (oq x) 0 SQRT_DOUBLE_EPS) eqn:E'; cbn [negb].
    + exists (oq x), true. left. apply Rltb_true in E'. rewrite Rplus_0_l in E'.
      split; [|split; [lra|split; [intros _; split; [reflexivity|lra]|discriminate]]]. unfold set_opt, setq, with_conf, upd_dconf. cbn. rewrite ?dc_cached. reflexivity.
    + exists 0, true. right. apply Rltb_false in E'. rewrite Rplus_0_l in E'. split; [|lra]. f_equal.
      unfold set_opt, setq, with_conf, upd_dconf. cbn. rewrite !dc_cached. unfold Reqb. destruct (Req_EM_T _ _); [reflexivity|congruence].
  - apply Rleb_false in E. rewrite dc_cached. destruct (k_opt (dc x)) eqn:Eo.
    + unfold base_setQstep. destruct (eps_gt (oq x) 0 SQRT_DOUBLE_EPS) eqn:E'; cbn [negb].
      * exists (oq x), true. left. apply Rltb_true in E'. rewrite Rplus_0_l in E'.
        split; [|split; [lra|split; [intros _; split; [reflexivity|lra]|discriminate]]]. f_equal. unfold setq. rewrite dc_cached, Eo. reflexivity.
      * exists 0, true. right. apply Rltb_false in E'. rewrite Rplus_0_l in E'. split; [|lra]. f_equal.
        pose proof (setq_same (cached x)) as Hs. rewrite dc_cached, Eo in Hs. now symmetry.
    + exists (k_qstep (dc x)), false. left. split; [|split; [lra|split; [discriminate|auto]]]. f_equal.
      pose proof (setq_same (cached x)) as Hs. rewrite dc_cached, Eo in Hs. now symmetry.
Qed.

(** invariant of all states *)
Definition covers (x : deb) : Prop := rcached x = true -> (rmaxSteps (k_rmax (dc x)) (k_rstep (dc x)) <= chisteps x)%Z.
Definition dinv (x : deb) : Prop := dsettings_ok (dc x) /\ covers x /\ (0 <= chisteps x)%Z.

Lemma gauss_nonneg w : 0 <= gauss_hi w.
Proof. unfold gauss_hi. destruct (Rleb w 0) eqn:E; [lra|]. apply Rleb_false in E. apply Rmult_le_pos; [apply sqrt_pos|lra]. Qed.
Lemma ripples_nonneg' c : 0 <= ext_ripples c.
Proof.
  unfold ext_ripples. destruct (Rltb 0 (k_qmax c)) eqn:E; [|lra]. apply Rltb_true in E. pose proof PI_RGT_0.
  apply Rmult_le_pos; [lra|]. left. now apply Rinv_0_lt_compat.
Qed.
Lemma ext_nonneg c s : dsettings_ok c -> 0 <= ext_total c s.
Proof. intros (_ & _ & _ & _ & _ & _ & H). unfold ext_total. apply Rmin_glb; [exact H|]. pose proof (ripples_nonneg' c). pose proof (gauss_nonneg (k_mw c s (k_rmin c) (k_rmax c))). unfold ext_tails. lra. Qed.
Lemma rmaxSteps_nonneg r dr : 0 < dr -> 0 <= r -> (0 <= rmaxSteps r dr)%Z.
Proof. intros Hd Hr. unfold rmaxSteps. apply Z.nlt_ge. intros H. assert (Rceil (r / dr) <= -1)%Z by lia. apply Rceil_le in H0. assert (0 <= r / dr) by (apply Rmult_le_pos; [lra|left; now apply Rinv_0_lt_compat]). cbn in H0. lra. Qed.
Definition nhi (c : dconf) (s : dstru) : Z := rmaxSteps (k_rmax c + ext_total c s) (k_rstep c).
Lemma cache_hi x : (nhi (dc x) (ds x) <= chisteps (cacheRlimits x) < nhi (dc x) (ds x) + 50)%Z /\
  closteps (cacheRlimits x) = Z.max 0 (rminSteps (k_rmin (dc x) - ext_total (dc x) (ds x)) (k_rstep (dc x))).
Proof.
  unfold cacheRlimits. cbn [with_lims chisteps closteps]. fold (nhi (dc x) (ds x)). split; [|reflexivity].
  destruct (Z.leb_spec (nhi (dc x) (ds x)) (chisteps x - 50)), (Z.ltb_spec (chisteps x) (nhi (dc x) (ds x))); cbn [orb]; lia.
Qed.
Lemma eps_pos' : 0 < SQRT_DOUBLE_EPS. Proof. unfold SQRT_DOUBLE_EPS. lra. Qed.
Lemma cache_inv x : dsettings_ok (dc x) -> dinv (cacheRlimits x).
Proof.
  intros H. destruct (cache_hi x) as [[H1 _] _]. pose proof (ext_nonneg _ (ds x) H) as He. destruct H as (Ha & Hb & Hc & Hr). pose proof eps_pos' as Hp.
  assert (Hm : (rmaxSteps (k_rmax (dc x)) (k_rstep (dc x)) <= nhi (dc x) (ds x))%Z) by (apply rmaxSteps_mono; lra).
  assert (Hn : (0 <= rmaxSteps (k_rmax (dc x)) (k_rstep (dc x)))%Z) by (apply rmaxSteps_nonneg; lra).
  split; [repeat split; tauto|]. split; [|lia]. intros _. change (dc (cacheRlimits x)) with (dc x). lia.
Qed.
Lemma cached_inv x : dinv x -> dinv (cached x) /\ (rmaxSteps (k_rmax (dc x)) (k_rstep (dc x)) <= chisteps (cached x))%Z.
Proof.
  intros (H1 & H2 & H3). unfold cached. destruct (rcached x) eqn:E; [split; [split; auto|auto]|].
  pose proof (cache_inv x H1) as Hc. split; [exact Hc|]. destruct Hc as (_ & Hc & _). exact (Hc eq_refl).
Qed.
Lemma setq_inv x q o : dinv x -> SQRT_DOUBLE_EPS < q -> dinv (setq x q o).
Proof. intros (H1 & H2 & H3) Hq. unfold dsettings_ok in H1. split; [|split; [exact H2|exact H3]]. unfold dsettings_ok. cbn. tauto. Qed.
Lemma update_inv x : dinv x -> exists y, (updateQstep x = Ok y \/ updateQstep x = Throw InvalidArgument y) /\ dinv y.
Proof.
  intros H. pose proof (proj1 (cached_inv x H)) as Hc. assert (Hq : SQRT_DOUBLE_EPS < k_qstep (dc x)) by (destruct H as (H & _); unfold dsettings_ok in H; tauto).
  destruct (updateQstep_cases x) as (q & o & [(E & _ & Ht & Hf)|(E & _)]); eexists; (split; [eauto|]); apply setq_inv; auto.
  destruct o; [now apply Ht|]. destruct (Hf eq_refl) as [-> _]. exact Hq.
Qed.
Definition good (o : outcome deb) : Prop := exists y, (o = Ok y \/ exists e, o = Throw e y) /\ dinv y.
Lemma good_ok x : dinv x -> good (Ok x). Proof. exists x. auto. Qed.
Lemma good_throw e x : dinv x -> good (Throw e x). Proof. exists x. eauto. Qed.
Lemma good_update x : dinv x -> good (updateQstep x).
Proof. intros H. destruct (update_inv x H) as (y & [E|E] & Hy); rewrite E; [now apply good_ok|now apply good_throw]. Qed.
Lemma good_andthen o f : good o -> (forall x, o = Ok x -> dinv x -> good (f x)) -> good (andthen o f).
Proof. intros (y & [->|[e ->]] & Hy) H; [now apply H|now apply good_throw]. Qed.
Lemma uncache_fields b x : dc (uncache b x) = dc x /\ ds (uncache b x) = ds x /\ chisteps (uncache b x) = chisteps x /\ (b = true -> rcached (uncache b x) = false) /\ (b = false -> uncache b x = x).
Proof. destruct b; cbn; repeat split; auto; discriminate. Qed.
Lemma conf_change_inv x (b : bool) c click : dinv x -> dsettings_ok c -> (b = false -> k_rmax c = k_rmax (dc x) /\ k_rstep c = k_rstep (dc x)) ->
  dinv (with_conf (uncache b x) c click).
Proof.
  intros (H1 & H2 & H3) Hc Hb. destruct (uncache_fields b x) as (_ & _ & E3 & E4 & E5). split; [exact Hc|]. split.
  - unfold covers. cbn [with_conf rcached dc chisteps]. destruct b; [rewrite E4 by reflexivity; discriminate|].
    rewrite E5 by reflexivity. destruct (Hb eq_refl) as [-> ->]. exact H2.
  - cbn [with_conf chisteps]. now rewrite E3.
Qed.
Lemma negb_Reqb x y : negb (Reqb x y) = false -> x = y.
Proof. intros H. apply negb_false_iff in H. now apply Reqb_true in H. Qed.
Lemma reset_good x : dsettings_ok (dc x) -> good (resetValue x).
Proof.
  intros H. unfold resetValue. apply good_andthen; [now apply good_update, cache_inv|]. intros y _ Hy. apply good_ok. exact Hy.
Qed.
Lemma setStructure_good s x : dinv x -> good (setStructure s x).
Proof. intros (H & _). now apply reset_good. Qed.

(** the state right after resetValue *)
Definition current (x : deb) : Prop :=
  rcached x = true /\ dsc x = cacheStructureData (dc x) (ds x) /\ length (dval x) = Z.to_nat (qmaxSteps (dc x)) /\
  (nhi (dc x) (ds x) <= chisteps x < nhi (dc x) (ds x) + 50)%Z /\
  closteps x = Z.max 0 (rminSteps (k_rmin (dc x) - ext_total (dc x) (ds x)) (k_rstep (dc x))) /\
  k_qstep (dc x) <= oq x /\ (k_opt (dc x) = true -> k_qstep (dc x) = oq x).
Lemma oq_setq x q o : rcached x = true -> oq (setq x q o) = oq x.
Proof. intros H. unfold oq, rcalchi, cached, setq. cbn. now rewrite H. Qed.
Lemma nhi_upd c s q o : nhi (upd_dconf c (k_rmin c) (k_rmax c) (k_rstep c) (k_qmin c) (k_qmax c) q o (k_maxext c)) s = nhi c s.
Proof. reflexivity. Qed.
Lemma set_current s x y : dinv x -> setStructure s x = Ok y -> dinv y /\ current y /\ ds y = s /\ Forall (eq 0) (dval y) /\
  exists q o, dc y = upd_dconf (dc x) (k_rmin (dc x)) (k_rmax (dc x)) (k_rstep (dc x)) (k_qmin (dc x)) (k_qmax (dc x)) q o (k_maxext (dc x)) /\
    dtick y = (if negb (Reqb (k_qstep (dc x)) q) then S (dtick x) else dtick x) /\ SQRT_DOUBLE_EPS < q.
Proof.
  intros Hx. unfold setStructure, resetValue. set (x0 := {| dc := dc x; ds := s; dsc := dsc x; closteps := closteps x; chisteps := chisteps x; rcached := rcached x; dval := dval x; dtick := dtick x |}).
  assert (Hc : dinv (cacheRlimits x0)) by (apply cache_inv; exact (proj1 Hx)).
  assert (Eq : cached (cacheRlimits x0) = cacheRlimits x0) by reflexivity.
  assert (Hq0 : SQRT_DOUBLE_EPS < k_qstep (dc x)) by (destruct Hx as (Hx & _); unfold dsettings_ok in Hx; tauto).
  destruct (updateQstep_cases (cacheRlimits x0)) as (q & o & [(E & Hq & Ht & Hf)|(E & _)]); rewrite E; [|discriminate].
  rewrite Eq. cbn [andthen]. set (u := setq (cacheRlimits x0) q o). intros H. injection H as <-.
  assert (Hq' : SQRT_DOUBLE_EPS < q) by (destruct o; [now apply Ht|destruct (Hf eq_refl) as [-> _]; exact Hq0]).
  pose proof (setq_inv _ q o Hc Hq') as Hu. fold u in Hu. destruct (cache_hi x0) as [Hh Hl].
  assert (Eo : oq u = oq (cacheRlimits x0)) by (now apply oq_setq).
  split; [exact Hu|]. split.
  { unfold current. cbn [rcached dsc dc ds dval chisteps closteps]. split; [reflexivity|]. split; [reflexivity|]. split; [apply repeat_length|].
    split; [exact Hh|]. split; [exact Hl|]. split.
    - change (k_qstep (dc u)) with q. change (oq _) with (oq u). rewrite Eo. exact Hq.
    - change (k_qstep (dc u)) with q. change (oq _) with (oq u). change (k_opt (dc u)) with o. rewrite Eo. intros Ho. now apply Ht. }
  split; [reflexivity|]. split.
  { cbn. apply Forall_forall. intros z Hz. apply repeat_spec in Hz. now symmetry. }
  exists q, o. split; [reflexivity|]. split; [reflexivity|exact Hq'].
Qed.
