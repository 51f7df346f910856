(** A DebyePDFCalculator history after which G(r) is read outside of its array. *)
From Coq Require Import String.
From Verif Require Import RBase AList Trig Sums PdfGrid PdfProofs PdfMain PdfFft PdfResult Debye DebyeSpec DebyeProofs DebyeSum DebyeMain DebyePdf DebyeFast DebyeExample.
Open Scope R_scope.

Lemma step_opt x h : dinv x -> k_opt (dc x) = true -> 1 <= k_qmax (dc x) -> chisteps (cached x) = h -> IZR h * k_rstep (dc x) <= 100 ->
  exists y, updateQstep x = Ok y /\ dinv y /\ chisteps y = h /\ rcached y = true /\
    dc y = upd_dconf (dc x) (k_rmin (dc x)) (k_rmax (dc x)) (k_rstep (dc x)) (k_qmin (dc x)) (k_qmax (dc x)) (oqstep (k_qmax (dc x)) (IZR h * k_rstep (dc x))) true (k_maxext (dc x)).
Proof.
  intros Hx Ho Hq Hh Hb. assert (Er : rcalchi x = IZR h * k_rstep (dc x)) by (unfold rcalchi; now rewrite Hh).
  assert (Hoq : SQRT_DOUBLE_EPS < oq x) by (apply oq_big; [exact (proj1 Hx)|exact Hq|rewrite Er; exact Hb]).
  rewrite (update_opt x Ho Hoq). eexists. split; [reflexivity|]. split; [apply setq_inv; [apply (cached_inv x Hx)|exact Hoq]|]. split; [exact Hh|]. split; [cbn; apply rc_cached|].
  unfold setq. rewrite dc_cached. unfold oq. rewrite Er. reflexivity.
Qed.
Definition tight : list dop := [DRstep 1; DMaxExt 0; DRmax 32; DQmax 1; DEval narrow []].
Lemma nhi_0 c s z : k_maxext c = 0 -> 0 <= k_maxext c -> k_rstep c = 1 -> k_rmax c = IZR z -> nhi c s = z.
Proof.
  intros H0 _ H1 H2. unfold nhi, rmaxSteps. assert (E : ext_total c s = 0).
  { unfold ext_total. rewrite H0. apply Rmin_left. pose proof (ripples_nonneg' c). unfold ext_tails. pose proof (gauss_nonneg (k_mw c s (k_rmin c) (k_rmax c))). lra. }
  rewrite E, H1, H2. apply Rceil_is. lra.
Qed.
Lemma Reqb_neq x y : x <> y -> negb (Reqb x y) = true.
Proof. intros H. apply Reqb_false in H. now rewrite H. Qed.
Lemma tight_state : exists y, drun tight (newDebye sf1 mw2 []) = Ok y /\ dinv y /\ current y /\ chisteps y = 32%Z /\ k_rmin (dc y) = 0 /\ k_rmax (dc y) = 32 /\ k_rstep (dc y) = 1 /\
  k_qmax (dc y) = 1 /\ k_qstep (dc y) = PI / 32.
Proof.
  destruct new_rstep1 as (x0 & E0 & Hx0 & Ho0 & Hh0 & A1 & A2 & A3 & A4 & A5 & A6 & A7). pose proof PI_34 as Hpi.
  (* setMaxExtension *)
  assert (R0 : forall r, 0 <= r -> Rltb r 0 = false) by (intros; now apply Rltb_false).
  pose proof Hx0 as (Hs0 & _). pose proof Hs0 as (U1 & U2 & U3 & U4 & U5 & U6 & U7).
  assert (S1 : exists x1, dstep (DMaxExt 0) x0 = Ok x1 /\ dinv x1 /\ chisteps x1 = 10%Z /\ exists q, dc x1 = upd_dconf (dc x0) 0 10 1 0 25 q true 0).
  { cbn [dstep]. unfold setMaxExtension. rewrite R0 by lra. rewrite A5, A1, A2, A3, A4, A7, Ho0. rewrite (Reqb_neq 10 0) by lra. set (x := with_conf _ _ _).
    assert (Hx : dinv x). { apply conf_change_inv; [exact Hx0|unfold dsettings_ok; cbn; lra|discriminate]. }
    destruct (step_opt x 10%Z Hx eq_refl) as (y & Ey & Hy & Hc & _ & Hd); [cbn; lra| |cbn; lra|].
    - change (cached x) with (cacheRlimits x). rewrite cache_lims. rewrite (nhi_0 (dc x) (ds x) 10) by (cbn; lra). change (chisteps x) with (chisteps x0). destruct (Z.leb_spec 10 (chisteps x0 - 50)); [reflexivity|lia].
    - exists y. split; [exact Ey|]. split; [exact Hy|]. split; [exact Hc|]. eexists. rewrite Hd. reflexivity. }
  destruct S1 as (x1 & Ex1 & Hx1 & Hc1 & q1 & Hd1). clear U1 U2 U3 U4 U5 U6 U7. pose proof (proj1 Hx1) as (U1 & U2 & U3 & U4 & U5 & U6 & U7).
  assert (S2 : exists x2, dstep (DRmax 32) x1 = Ok x2 /\ dinv x2 /\ chisteps x2 = 32%Z /\ rcached x2 = true /\ exists q, dc x2 = upd_dconf (dc x0) 0 32 1 0 25 q true 0).
  { cbn [dstep]. unfold setRmax. rewrite R0 by lra. rewrite Hd1 in *. cbn [k_rmin k_rmax k_rstep k_qmin k_qmax k_qstep k_opt k_maxext upd_dconf] in *. rewrite (Reqb_neq 10 32) by lra. set (x := with_conf _ _ _).
    assert (Hx : dinv x). { apply conf_change_inv; [exact Hx1|unfold dsettings_ok; cbn; lra|discriminate]. }
    destruct (step_opt x 32%Z Hx eq_refl) as (y & Ey & Hy & Hc & Hr & Hd); [cbn; lra| |cbn; lra|].
    - change (cached x) with (cacheRlimits x). rewrite cache_lims. rewrite (nhi_0 (dc x) (ds x) 32) by (cbn; lra). change (chisteps x) with (chisteps x1). rewrite Hc1. reflexivity.
    - exists y. split; [exact Ey|]. split; [exact Hy|]. split; [exact Hc|]. split; [exact Hr|]. eexists. rewrite Hd. reflexivity. }
  destruct S2 as (x2 & Ex2 & Hx2 & Hc2 & Hr2 & q2 & Hd2). clear U1 U2 U3 U4 U5 U6 U7. pose proof Hx2 as ((U1 & U2 & U3 & U4 & U5 & U6 & U7) & Hcov2 & Hn2).
  assert (S3 : exists x3, dstep (DQmax 1) x2 = Ok x3 /\ dinv x3 /\ chisteps x3 = 32%Z /\ exists q, dc x3 = upd_dconf (dc x0) 0 32 1 0 1 q true 0).
  { cbn [dstep]. unfold setQmax. rewrite R0 by lra. rewrite Hd2 in *. cbn [k_rmin k_rmax k_rstep k_qmin k_qmax k_qstep k_opt k_maxext upd_dconf] in *. set (x := with_conf _ _ _).
    assert (Hx : dinv x). { apply (conf_change_inv x2 false); [exact Hx2|unfold dsettings_ok; cbn; lra|intros _; rewrite Hd2; split; reflexivity]. }
    destruct (step_opt x 32%Z Hx eq_refl) as (y & Ey & Hy & Hc & Hr & Hd); [cbn; lra| |cbn; lra|].
    - unfold cached. change (rcached x) with (rcached x2). rewrite Hr2. exact Hc2.
    - exists y. split; [exact Ey|]. split; [exact Hy|]. split; [exact Hc|]. eexists. rewrite Hd. reflexivity. }
  destruct S3 as (x3 & Ex3 & Hx3 & Hc3 & q3 & Hd3).
  assert (Ho3 : k_opt (dc x3) = true) by (rewrite Hd3; reflexivity).
  destruct (set_opt_ok narrow x3 32%Z Hx3 Ho3) as (y & Es & Hy & Hcur & _ & Hc & _ & _ & Hq & Hd & _); [rewrite Hd3; cbn; lra| |rewrite Hd3; cbn; lra|].
  { rewrite cache_lims. cbn [with_ds dc ds chisteps]. rewrite (nhi_0 (dc x3) narrow 32) by (rewrite Hd3; cbn; lra). rewrite Hc3. reflexivity. }
  exists y. split.
  { unfold tight. change [DRstep 1; DMaxExt 0; DRmax 32; DQmax 1; DEval narrow []] with (((([DRstep 1] ++ [DMaxExt 0]) ++ [DRmax 32]) ++ [DQmax 1]) ++ [DEval narrow []]).
    rewrite !drun_app, E0. unfold drun_from. rewrite Ex1, Ex2, Ex3, (eval_nil narrow x3 y Es). reflexivity. }
  split; [exact Hy|]. split; [exact Hcur|]. split; [exact Hc|].
  split; [rewrite Hd, Hd3; reflexivity|]. split; [rewrite Hd, Hd3; reflexivity|]. split; [rewrite Hd, Hd3; reflexivity|]. split; [rewrite Hd, Hd3; reflexivity|].
  rewrite Hq, Hd3. cbn [k_qmax k_rstep upd_dconf]. unfold oqstep. replace (Rltb 4 _) with true; [now rewrite Rmult_1_r|]. symmetry. apply Rltb_true. apply lt_div_iff; lra.
Qed.
Lemma tight_outside : exists y, drun tight (newDebye sf1 mw2 []) = Ok y /\ getPDF y = UB.
Proof.
  destruct tight_state as (y & E & Hy & Hcur & Hc & A1 & A2 & A3 & A4 & A5). exists y. split; [exact E|]. pose proof PI_34 as Hpi.
  destruct (F_defined y (current_fits y Hy Hcur)) as (F & HF & HFl).
  apply (index_bad y F 32 Hy Hcur HF); [lia|exact Hc| | | |exact A1].
  - rewrite A2, A3. unfold rmaxSteps. apply Rceil_is. lra.
  - rewrite A5, A3. now rewrite Rmult_1_r.
  - unfold npad. rewrite HFl, A3, A5. assert (En : Rceil (PI / 1 / (PI / 32)) = 32%Z) by (replace (PI / 1 / (PI / 32)) with 32 by (field; lra); apply Rceil_is; lra). rewrite En.
    assert (Hm : (qmaxSteps (dc y) <= 32)%Z). { assert (~ (32 < qmaxSteps (dc y))%Z); [|lia]. intros H. apply (proj1 (qmaxSteps_lt' _ _ (proj1 Hy))) in H. rewrite A5, A4 in H. lra. }
    replace (Z.max (Z.of_nat (Z.to_nat (qmaxSteps (dc y)))) 32) with 32%Z by lia. exact (padded_pow2 5 ltac:(lia)).
Qed.
