(** C69: which settings a history of calls leaves in a DebyePDFCalculator. *)
From Coq Require Import String.
From Verif Require Import RBase Trig Debye DebyeSpec DebyeMain DebyeFast PdfSettingsSpec PdfSettingsProps DebyeSettingsSpec.
Open Scope R_scope.

Definition conf_of (c : dconf) := (k_rmin c, k_rmax c, k_rstep c, k_qmin c, k_qmax c, k_maxext c, (k_prec c, k_sf c, k_mw c, k_env c)).
(** the calculator after a call, also after one that fails *)
Definition leaves (r : outcome deb) (P : deb -> Prop) : Prop := match r with Ok y | Throw _ y => P y | UB => True end.
Lemma base_keeps q x : leaves (base_setQstep q x) (fun y => conf_of (dc y) = conf_of (dc x)).
Proof. unfold base_setQstep. destruct (negb _); reflexivity. Qed.
Lemma dc_of_cached x : dc (cached x) = dc x. Proof. unfold cached. now destruct (rcached x). Qed.
Lemma update_keeps x : leaves (updateQstep x) (fun y => conf_of (dc y) = conf_of (dc x)).
Proof.
  unfold updateQstep. rewrite dc_of_cached. set (o := oqstep _ _).
  set (x1 := if Rleb o (k_qstep (dc x)) then set_opt true (cached x) else cached x).
  assert (E : conf_of (dc x1) = conf_of (dc x)). { unfold x1. destruct (Rleb _ _); cbn [set_opt with_conf dc]; unfold conf_of; rewrite dc_of_cached; reflexivity. }
  change (dc (if Rleb o (k_qstep (dc x)) then set_opt true (cached x) else cached x)) with (dc x1). destruct (k_opt (dc x1)); [|exact E].
  pose proof (base_keeps o x1) as H. destruct (base_setQstep o x1); cbn [leaves] in *; congruence.
Qed.
Lemma leaves_bind r f P : leaves r P -> (forall y, P y -> leaves (f y) P) -> leaves (andthen r f) P.
Proof. destruct r; cbn; auto. Qed.
Lemma structure_keeps s x : leaves (setStructure s x) (fun y => conf_of (dc y) = conf_of (dc x)).
Proof.
  unfold setStructure, resetValue. match goal with |- leaves (andthen (updateQstep ?z) _) _ => pose proof (update_keeps z) as H; destruct (updateQstep z) as [y|e y|] end;
    cbn [leaves andthen] in *; try exact I; exact H.
Qed.
Lemma addPairs_keeps t x : leaves (addPairs x t) (fun y => dc y = dc x).
Proof.
  unfold addPairs. set (f := fun r e => _). assert (G : forall r, leaves r (fun y => dc y = dc x) -> leaves (fold_left f t r) (fun y => dc y = dc x)).
  { induction t as [|e t IH]; intros r H; [exact H|]. cbn [fold_left]. apply IH. destruct r as [y|er y|]; [|exact H|exact H]. cbn [f]. destruct (addPair _ _ _); exact H || exact I. }
  apply G. reflexivity.
Qed.
Lemma eval_keeps s t x : leaves (eval s t x) (fun y => conf_of (dc y) = conf_of (dc x)).
Proof.
  unfold eval. apply leaves_bind; [apply structure_keeps|]. intros y H. pose proof (addPairs_keeps t y) as A. destruct (addPairs y t); cbn [leaves] in *; congruence.
Qed.
Lemma Rltb_dec r : (if Rle_dec 0 r then Rltb r 0 = false else Rltb r 0 = true).
Proof. destruct (Rle_dec 0 r) as [H|H]; [apply Rltb_false; lra|apply Rltb_true; lra]. Qed.
Lemma eps_dec r : (if Rlt_dec SQRT_DOUBLE_EPS r then eps_gt r 0 SQRT_DOUBLE_EPS = true else eps_gt r 0 SQRT_DOUBLE_EPS = false).
Proof. unfold eps_gt. rewrite Rplus_0_l. destruct (Rlt_dec SQRT_DOUBLE_EPS r) as [H|H]; [apply Rltb_true; lra|apply Rltb_false; lra]. Qed.

(** what one call leaves *)
Definition d_step_ok (o : dop) (x y : deb) : Prop :=
  let pick {B} (f : dop -> option B) d := match f o with Some v => v | None => d end in let c := dc x in
  conf_of (dc y) = (pick d_rmin (k_rmin c), pick d_rmax (k_rmax c), pick d_rstep (k_rstep c), pick d_qmin (k_qmin c), pick d_qmax (k_qmax c), pick d_maxext (k_maxext c),
                    pick d_objects (k_prec c, k_sf c, k_mw c, k_env c)).
Lemma dc_unc b x : dc (uncache b x) = dc x. Proof. now destruct b. Qed.
Lemma leaves_weak r (P Q : deb -> Prop) : leaves r P -> (forall y, P y -> Q y) -> leaves r Q. Proof. destruct r; cbn; auto. Qed.
Lemma d_step_settings o x : leaves (dstep o x) (d_step_ok o x).
Proof.
  destruct o as [r|r|r|q|q|q| |m|prec sf mw env|s|s t]; cbn [dstep]; unfold d_step_ok; cbn [d_rmin d_rmax d_rstep d_qmin d_qmax d_maxext d_objects].
  - unfold setRmin. pose proof (Rltb_dec r) as D. destruct (Rle_dec 0 r); rewrite D; reflexivity.
  - unfold setRmax. pose proof (Rltb_dec r) as D. destruct (Rle_dec 0 r); rewrite D; [|reflexivity]. cbv zeta. eapply leaves_weak; [apply update_keeps|]. intros y ->. reflexivity.
  - unfold setRstep. pose proof (eps_dec r) as D. destruct (Rlt_dec _ r); rewrite D; reflexivity.
  - unfold setQmin. pose proof (Rltb_dec q) as D. destruct (Rle_dec 0 q); rewrite D; reflexivity.
  - unfold setQmax. pose proof (Rltb_dec q) as D. destruct (Rle_dec 0 q); rewrite D; [|reflexivity]. cbv zeta. eapply leaves_weak; [apply update_keeps|]. intros y ->. reflexivity.
  - unfold setQstep. pose proof (base_keeps q x) as H. destruct (base_setQstep q x) as [y|e y|]; cbn [andthen leaves] in *; [|exact H|exact I]. eapply leaves_weak; [apply update_keeps|]. intros z ->. exact H.
  - unfold setOptimumQstep. eapply leaves_weak; [apply update_keeps|]. intros y ->. reflexivity.
  - unfold setMaxExtension. pose proof (Rltb_dec m) as D. destruct (Rle_dec 0 m); rewrite D; [|reflexivity]. cbv zeta. eapply leaves_weak; [apply update_keeps|]. intros y ->. reflexivity.
  - reflexivity.
  - apply structure_keeps.
  - apply eval_keeps.
Qed.
Lemma leaves_ok (r : outcome deb) P y : leaves r P -> r = Ok y -> P y. Proof. intros H ->. exact H. Qed.
Lemma new_settings sf mw env x : newDebye sf mw env = Ok x -> conf_of (dc x) = (0, 10, 1 / 100, 0, 25, 10, (1 / 1000000, sf, mw, env)).
Proof.
  unfold newDebye. intros E. destruct (setRmax 10 (rawDebye sf mw env)) as [x1|e x1|] eqn:E1; [|discriminate|discriminate]. cbn [andthen] in E.
  destruct (setQmax 25 x1) as [x2|e x2|] eqn:E2; [|discriminate|discriminate]. cbn [andthen] in E. destruct (setOptimumQstep x2) as [x3|e x3|] eqn:E3; [|discriminate|discriminate]. cbn [andthen] in E.
  pose proof (leaves_ok _ _ _ (d_step_settings (DRmax 10) (rawDebye sf mw env)) E1) as H1. pose proof (leaves_ok _ _ _ (d_step_settings (DQmax 25) x1) E2) as H2.
  pose proof (leaves_ok _ _ _ (d_step_settings DOptimum x2) E3) as H3. pose proof (leaves_ok _ _ _ (d_step_settings (DSetStructure empty_stru) x3) E) as H4.
  unfold d_step_ok in *. cbn [d_rmin d_rmax d_rstep d_qmin d_qmax d_maxext d_objects] in *. destruct (Rle_dec 0 10) as [_|N]; [|lra]. destruct (Rle_dec 0 25) as [_|N]; [|lra].
  rewrite H4. change (conf_of (dc x3) = (0, 10, 1 / 100, 0, 25, 10, (1 / 1000000, sf, mw, env))). rewrite H3. change (conf_of (dc x2) = (0, 10, 1 / 100, 0, 25, 10, (1 / 1000000, sf, mw, env))). rewrite H2.
  unfold conf_of in H1. cbn [rawDebye dc k_rmin k_rmax k_rstep k_qmin k_qmax k_maxext k_prec k_sf k_mw k_env] in H1. injection H1 as -> -> -> -> _ -> -> -> -> ->. reflexivity.
Qed.

(** C69: after every history of calls, also those that fail, each setting is the last argument inside of its range, or the default; only the Q-step
    depends on more (C69_qstep). *)
Theorem C69_settings_history : forall ops sf mw env, exists x, drun ops (newDebye sf mw env) = Ok x /\ d_settings_of ops sf mw env x.
Proof.
  intros ops sf mw env. destruct (reach_inv ops sf mw env) as (x & E & _). exists x. split; [exact E|]. revert x E. induction ops as [|o ops IH] using rev_ind; intros x E.
  - pose proof (new_settings _ _ _ _ E) as H. unfold conf_of in H. injection H as H1 H2 H3 H4 H5 H6 H7 H8 H9 H10. constructor; try assumption. cbn. congruence.
  - destruct (reach_inv ops sf mw env) as (x0 & E0 & _). specialize (IH x0 E0). unfold drun in *. rewrite fold_left_app, E0 in E. cbn [fold_left drun_from] in E.
    assert (S : d_step_ok o x0 x). { pose proof (d_step_settings o x0) as H. destruct (dstep o x0); cbn [leaves] in H; [injection E as <-; exact H|injection E as <-; exact H|discriminate]. }
    unfold d_step_ok, conf_of in S. injection S as S1 S2 S3 S4 S5 S6 S7. destruct IH as [I1 I2 I3 I4 I5 I6 I7].
    constructor; rewrite last_snoc; [rewrite <- I1|rewrite <- I2|rewrite <- I3|rewrite <- I4|rewrite <- I5|rewrite <- I6|rewrite <- I7]; assumption.
Qed.
Print Assumptions C69_settings_history.
Example C69_nonvacuous_history : last_of d_rmin 0 [DRmin 2; DRmin (-1); DQmin 3] = 2.
Proof.
  unfold last_of, d_rmin. cbn [rev app find]. destruct (Rle_dec 0 (-1)); [lra|]. destruct (Rle_dec 0 2) as [H|H]; [|lra]. cbn. destruct (Rle_dec 0 2); [reflexivity|lra].
Qed.
