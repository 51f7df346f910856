(** C104: settings of PDFCalculator. *)
From Coq Require Import String.
From Verif Require Import RBase Trig PdfGrid PdfSpec PdfProofs PdfMain PdfFinal PdfExample PdfSettingsSpec.
Open Scope R_scope.

Lemma last_snoc {A B} (f : A -> option B) d ops o : last_of f d (ops ++ [o]) = match f o with Some v => v | None => last_of f d ops end.
Proof. unfold last_of. rewrite rev_unit. cbn [find]. destruct (f o) eqn:E; [now rewrite E|reflexivity]. Qed.

(** The settings that one call leaves *)
Definition step_ok (o : pop) (x y : pdfc) : Prop :=
  let pick {B} (f : pop -> option B) d := match f o with Some v => v | None => d end in
  c_rmin (cf y) = pick good_rmin (c_rmin (cf x)) /\ c_rmax (cf y) = pick good_rmax (c_rmax (cf x)) /\
  c_rstep (cf y) = pick good_rstep (c_rstep (cf x)) /\ c_qmin (cf y) = pick good_qmin (c_qmin (cf x)) /\
  c_qmax (cf y) = pick good_qmax (c_qmax (cf x)) /\ c_maxext (cf y) = pick good_maxext (c_maxext (cf x)) /\
  (c_pk (cf y), c_sftable (cf y), c_env (cf y), c_dflt (cf y), c_inv (cf y)) =
    pick good_objects (c_pk (cf x), c_sftable (cf x), c_env (cf x), c_dflt (cf x), c_inv (cf x)) /\
  own_baseline (base y) = pick good_baseline (own_baseline (base x)).
Lemma cf_initial x : cf (initialUpdate x) = cf x.
Proof. unfold initialUpdate. now destruct (p_empty _). Qed.
Lemma own_reset x : own_baseline (base (resetValue x)) = own_baseline (base x).
Proof. cbn [resetValue base]. now destruct (base x). Qed.
Lemma own_initial x : own_baseline (base (initialUpdate x)) = own_baseline (base x).
Proof. unfold initialUpdate. destruct (p_empty _); [apply own_reset|reflexivity]. Qed.
Lemma own_base_of b c s : own_baseline (base_of b c s) = own_baseline b.
Proof. unfold base_of. unfold setStructure. rewrite own_reset. reflexivity. Qed.
Lemma step_settings o x : wf x -> exists y, (pstep o x = Ok y \/ exists e, pstep o x = Throw e y /\ y = x) /\ wf y /\ step_ok o x y.
Proof.
  intros H. destruct (pstep_wf o x H) as (y & E & W). exists y. split; [destruct E as [E|(e & E & ->)]; eauto|split; [exact W|]].
  destruct o as [r|r|r|q|q|m|pk sf env d inv b|s|s t|t0 s t1]; cbn [pstep] in E; unfold step_ok; cbn [good_rmin good_rmax good_rstep good_qmin good_qmax good_maxext good_objects good_baseline].
  - unfold setRmin in E. destruct (Rltb r 0) eqn:B; rb.
    + destruct (Rle_dec 0 r); [lra|]. destruct E as [[=]|(e & E & ->)]. auto 10.
    + destruct (Rle_dec 0 r); [|lra]. destruct E as [[= <-]|(e & [=] & _)]. cbn. auto 10.
  - unfold setRmax in E. destruct (Rltb r 0) eqn:B; rb.
    + destruct (Rle_dec 0 r); [lra|]. destruct E as [[=]|(e & E & ->)]. auto 10.
    + destruct (Rle_dec 0 r); [|lra]. destruct E as [[= <-]|(e & [=] & _)]. rewrite cf_initial, own_initial. cbn. auto 10.
  - unfold setRstep, eps_gt in E. destruct (Rltb (0 + SQRT_DOUBLE_EPS) r) eqn:B; cbn [negb] in E; rb; rewrite Rplus_0_l in B.
    + destruct (Rlt_dec SQRT_DOUBLE_EPS r); [|lra]. destruct E as [[= <-]|(e & [=] & _)]. rewrite cf_initial, own_initial. cbn. auto 10.
    + destruct (Rlt_dec SQRT_DOUBLE_EPS r); [lra|]. destruct E as [[=]|(e & E & ->)]. auto 10.
  - unfold setQmin in E. destruct (Rltb q 0) eqn:B; rb.
    + destruct (Rle_dec 0 q); [lra|]. destruct E as [[=]|(e & E & ->)]. auto 10.
    + destruct (Rle_dec 0 q); [|lra]. destruct E as [[= <-]|(e & [=] & _)]. cbn. auto 10.
  - unfold setQmax in E. destruct (Rltb q 0) eqn:B; rb.
    + destruct (Rle_dec 0 q); [lra|]. destruct E as [[=]|(e & E & ->)]. auto 10.
    + destruct (Rle_dec 0 q); [|lra]. destruct E as [[= <-]|(e & [=] & _)]. rewrite cf_initial, own_initial. cbn [cf base set_conf upd_conf c_rmin c_rmax c_rstep c_qmin c_qmax c_maxext c_pk c_sftable c_env c_dflt c_inv].
      repeat (split; [reflexivity|]). split; [|auto 10]. destruct (Rltb 0 q) eqn:B2; rb; destruct (Req_EM_T q 0); try lra; reflexivity.
  - unfold setMaxExtension in E. destruct (Rltb m 0) eqn:B; rb.
    + destruct (Rle_dec 0 m); [lra|]. destruct E as [[=]|(e & E & ->)]. auto 10.
    + destruct (Rle_dec 0 m); [|lra]. destruct E as [[= <-]|(e & [=] & _)]. cbn. auto 10.
  - destruct E as [[= <-]|(e & [=] & _)]. cbn. destruct b; auto 10.
  - destruct E as [[= <-]|(e & [=] & _)]. unfold setStructure. rewrite own_reset. cbn. auto 10.
  - destruct (wf_setStructure s x (wf_conf x H)) as [W1 _]. destruct (addPairs_spec t _ W1) as (z & Ez & _). 
    assert (E' : pstep (PEval s t) x = Ok y). { destruct E as [E|(e & E & _)]; [exact E|rewrite Ez in E; discriminate]. }
    destruct (eval_base x s t y H E') as [-> ->]. rewrite own_base_of. auto 10.
  - destruct (fast_ok t0 s t1 x H) as (y0 & z & _ & _ & _ & Ez & _).
    assert (E' : pstep (PFast t0 s t1) x = Ok y). { destruct E as [E|(e & E & _)]; [exact E|rewrite Ez in E; discriminate]. }
    destruct (fast_base x _ _ _ y H E') as [-> ->]. rewrite own_base_of. auto 10.
Qed.

(** C104: after any history of calls each setting is the argument of the last accepted call of its setter, or the documented default; what was
    rejected left no trace. *)
Theorem C104_settings_history : forall ops pk sf env e, exists x, prun ops (newPDF pk sf env e) = Ok x /\ settings_of ops pk sf env x.
Proof.
  intros ops pk sf env e. induction ops as [|o ops IH] using rev_ind.
  - exists (newPDF pk sf env e). split; [reflexivity|]. constructor; reflexivity.
  - destruct IH as (x & E & [I1 I2 I3 I4 I5 I6 I7 I8]). destruct (prun_ok ops pk sf env e) as (x' & E' & W). rewrite E in E'. injection E' as <-.
    destruct (step_settings o x W) as (y & Ey & _ & S1 & S2 & S3 & S4 & S5 & S6 & S7 & S8).
    exists y. split.
    + unfold prun in *. rewrite fold_left_app. rewrite E. cbn [fold_left]. destruct Ey as [Ey|(er & Ey & ->)]; now rewrite Ey.
    + constructor; rewrite last_snoc.
      * now rewrite S1, I1.
      * now rewrite S2, I2.
      * now rewrite S3, I3.
      * now rewrite S4, I4.
      * now rewrite S5, I5.
      * now rewrite S6, I6.
      * now rewrite S7, I7.
      * now rewrite S8, I8.
Qed.
Print Assumptions C104_settings_history.

(** C104: arguments outside of the range are rejected with an exception that changes nothing, all others are accepted. *)
Theorem C104_rejected : forall x r,
  (r < 0 -> pstep (PRmin r) x = Throw InvalidArgument x /\ pstep (PRmax r) x = Throw InvalidArgument x /\ pstep (PQmin r) x = Throw InvalidArgument x /\
            pstep (PQmax r) x = Throw InvalidArgument x /\ pstep (PMaxExt r) x = Throw InvalidArgument x) /\
  (0 <= r -> exists a b c d e, pstep (PRmin r) x = Ok a /\ pstep (PRmax r) x = Ok b /\ pstep (PQmin r) x = Ok c /\ pstep (PQmax r) x = Ok d /\ pstep (PMaxExt r) x = Ok e) /\
  (r <= SQRT_DOUBLE_EPS -> pstep (PRstep r) x = Throw InvalidArgument x) /\ (SQRT_DOUBLE_EPS < r -> exists a, pstep (PRstep r) x = Ok a).
Proof.
  intros x r. cbn [pstep]. unfold setRmin, setRmax, setQmin, setQmax, setMaxExtension, setRstep, eps_gt. rewrite Rplus_0_l. split; [|split; [|split]]; intros H.
  - rewrite (proj2 (Rltb_true r 0) H). auto.
  - assert (E : Rltb r 0 = false) by (apply Rltb_false; lra). rewrite E. do 5 eexists. repeat split.
  - assert (E : Rltb SQRT_DOUBLE_EPS r = false) by (apply Rltb_false; lra). rewrite E. reflexivity.
  - assert (E : Rltb SQRT_DOUBLE_EPS r = true) by (now apply Rltb_true). rewrite E. eexists. reflexivity.
Qed.
Print Assumptions C104_rejected.

(** Nothing else of the history is remembered. *)
Definition forget (x : pdfc) : pdfc :=
  {| cf := cf x; str := str x; sc := sc x; lim := lim x; base := base x; mvalue := mvalue x; stashed := ([], 0%Z) |}.
Lemma forget_pairs t : forall x y, addPairs x t = Ok y -> addPairs (forget x) t = Ok (forget y).
Proof.
  assert (B : forall (f : outcome pdfc -> pbond * Z -> outcome pdfc) l, (forall e, f UB e = UB) -> (forall er z e, f (Throw er z) e = Throw er z) ->
     fold_left f l (@UB pdfc) = UB /\ forall er z, fold_left f l (@Throw pdfc er z) = Throw er z).
  { intros f l H1 H2. induction l as [|a l IH]; cbn [fold_left]; [auto|]. split; [now rewrite H1|intros; now rewrite H2]. }
  unfold addPairs. induction t as [|e t IH]; intros x y E; cbn [fold_left] in *; [now injection E as <-|].
  assert (EP : addPairContribution (forget x) (fst e) (snd e) = addPairContribution x (fst e) (snd e)) by reflexivity.
  rewrite EP. destruct (addPairContribution x (fst e) (snd e)) as [v|er v|].
  - apply (IH (with_value x v)). exact E.
  - match type of E with fold_left ?f _ _ = _ => destruct (B f t) as [_ B2]; [reflexivity|reflexivity|] end. rewrite B2 in E. discriminate.
  - match type of E with fold_left ?f _ _ = _ => destruct (B f t) as [B1 _]; [reflexivity|reflexivity|] end. rewrite B1 in E. discriminate.
Qed.
Lemma forget_results x y : forget x = forget y -> same_results x y.
Proof.
  intros E. assert (G : forall A (f : pdfc -> A), (forall z, f (forget z) = f z) -> f x = f y).
  { intros A f H. rewrite <- (H x), <- (H y). now rewrite E. }
  constructor.
  - exact (G _ getRgrid (fun z => eq_refl)).
  - exact (G _ getQgrid (fun z => eq_refl)).
  - exact (G _ getRDF (fun z => eq_refl)).
  - exact (G _ getRDFperR (fun z => eq_refl)).
  - exact (G _ getF (fun z => eq_refl)).
  - exact (G _ getPDF (fun z => eq_refl)).
  - exact (G _ bondLimits (fun z => eq_refl)).
  - exact (G _ (fun z => baseline_value (base z)) (fun z => eq_refl)).
Qed.

(** C104: two calculators with equal settings, whatever they did before, give the same results for the same evaluation. *)
Theorem C104_results_by_settings : forall ops1 ops2 pk1 pk2 sf1 sf2 env1 env2 e1 e2 s t x1 x2 y1 y2,
  prun ops1 (newPDF pk1 sf1 env1 e1) = Ok x1 -> prun ops2 (newPDF pk2 sf2 env2 e2) = Ok x2 ->
  cf x1 = cf x2 -> own_baseline (base x1) = own_baseline (base x2) ->
  pstep (PEval s t) x1 = Ok y1 -> pstep (PEval s t) x2 = Ok y2 -> same_results y1 y2.
Proof.
  intros ops1 ops2 pk1 pk2 sf1 sf2 env1 env2 e1 e2 s t x1 x2 y1 y2 _ _ EC EB E1 E2. cbn [pstep] in E1, E2.
  apply forget_results. apply forget_pairs in E1. apply forget_pairs in E2.
  assert (F : forget (setStructure s x1) = forget (setStructure s x2)).
  { unfold forget, setStructure, resetValue. cbn [cf str sc lim base mvalue stashed]. rewrite EC.
    destruct (base x1), (base x2); cbn [own_baseline] in EB; try discriminate; try (injection EB as ->); reflexivity. }
  rewrite F in E1. rewrite E1 in E2. apply (f_equal (fun o => match o with Ok y => y | _ => forget y1 end)) in E2. exact E2.
Qed.
Print Assumptions C104_results_by_settings.

Lemma conf_eq c d : c_rmin c = c_rmin d -> c_rmax c = c_rmax d -> c_rstep c = c_rstep d -> c_qmin c = c_qmin d -> c_qmax c = c_qmax d ->
  c_maxext c = c_maxext d -> (c_pk c, c_sftable c, c_env c, c_dflt c, c_inv c) = (c_pk d, c_sftable d, c_env d, c_dflt d, c_inv d) -> c = d.
Proof. destruct c, d. cbn. intros -> -> -> -> -> -> H. injection H as -> -> -> -> ->. reflexivity. Qed.
(** C104: so the order of the calls of different setters, and rejected or overwritten calls, make no difference: only the last accepted argument of each does. *)
Theorem C104_order_irrelevant : forall ops1 ops2 pk sf env e s t,
  last_of good_rmin 0 ops1 = last_of good_rmin 0 ops2 -> last_of good_rmax 10 ops1 = last_of good_rmax 10 ops2 ->
  last_of good_rstep (1 / 100) ops1 = last_of good_rstep (1 / 100) ops2 -> last_of good_qmin 0 ops1 = last_of good_qmin 0 ops2 ->
  last_of good_qmax DOUBLE_MAX ops1 = last_of good_qmax DOUBLE_MAX ops2 -> last_of good_maxext 10 ops1 = last_of good_maxext 10 ops2 ->
  last_of good_objects (pk, sf, env, true, []) ops1 = last_of good_objects (pk, sf, env, true, []) ops2 ->
  last_of good_baseline None ops1 = last_of good_baseline None ops2 ->
  exists y1 y2, prun (ops1 ++ [PEval s t]) (newPDF pk sf env e) = Ok y1 /\ prun (ops2 ++ [PEval s t]) (newPDF pk sf env e) = Ok y2 /\ same_results y1 y2.
Proof.
  intros ops1 ops2 pk sf env e s t H1 H2 H3 H4 H5 H6 H7 H8.
  assert (G : forall ops, exists x y, prun ops (newPDF pk sf env e) = Ok x /\ settings_of ops pk sf env x /\ pstep (PEval s t) x = Ok y /\
     prun (ops ++ [PEval s t]) (newPDF pk sf env e) = Ok y).
  { intros ops. destruct (C104_settings_history ops pk sf env e) as (x & E & S). destruct (prun_ok ops pk sf env e) as (x' & E' & W).
    rewrite E in E'. injection E' as <-. destruct (wf_setStructure s x (wf_conf x W)) as [W1 _]. destruct (addPairs_spec t _ W1) as (y & Ey & _).
    exists x, y. split; [exact E|split; [exact S|split; [exact Ey|]]]. unfold prun in *. rewrite fold_left_app, E. cbn [fold_left pstep]. now rewrite Ey. }
  destruct (G ops1) as (x1 & y1 & A1 & [] & A3 & A4). destruct (G ops2) as (x2 & y2 & B1 & [] & B3 & B4).
  exists y1, y2. split; [exact A4|split; [exact B4|]]. apply (C104_results_by_settings ops1 ops2 pk pk sf sf env env e e s t x1 x2 y1 y2 A1 B1); auto; [|congruence].
  apply conf_eq; congruence.
Qed.
Print Assumptions C104_order_irrelevant.
Example C104_nonvacuous : exists x y,
  prun [PRmin 1; PRmax 20; PRmin (-1); PQmax 30; PQmax 0; PRstep (1 / 10)] ex_start = Ok x /\
  prun [PRstep (1 / 10); PRmax 5; PRmin 1; PRmax 20] ex_start = Ok y /\ cf x = cf y /\ c_rmin (cf x) = 1 /\ c_qmax (cf x) = DOUBLE_MAX /\ c_rmax (cf x) = 20.
Proof.
  destruct (C104_settings_history [PRmin 1; PRmax 20; PRmin (-1); PQmax 30; PQmax 0; PRstep (1 / 10)] ex_box ex_sf [] ex_none) as (x & Ex & Sx).
  destruct (C104_settings_history [PRstep (1 / 10); PRmax 5; PRmin 1; PRmax 20] ex_box ex_sf [] ex_none) as (y & Ey & Sy).
  exists x, y. split; [exact Ex|split; [exact Ey|]]. destruct Sx as [A1 A2 A3 A4 A5 A6 A7 A8]. destruct Sy as [B1 B2 B3 B4 B5 B6 B7 B8].
  unfold last_of in *. assert (HE : SQRT_DOUBLE_EPS < 1 / 10) by (unfold SQRT_DOUBLE_EPS; lra).
  repeat (cbn [rev app find good_rmin good_rmax good_rstep good_qmin good_qmax good_maxext good_objects good_baseline] in *; match goal with
  | H : context [Rle_dec 0 ?r] |- _ => destruct (Rle_dec 0 r); try lra
  | H : context [Rlt_dec ?a ?r] |- _ => destruct (Rlt_dec a r); try lra
  | H : context [Req_EM_T ?a ?r] |- _ => destruct (Req_EM_T a r); try lra; try (exfalso; auto; fail)
  end).
  split; [apply conf_eq; [now rewrite A1, B1|now rewrite A2, B2|now rewrite A3, B3|now rewrite A4, B4|now rewrite A5, B5|now rewrite A6, B6|now rewrite A7, B7]|split; [exact A1|split; [exact A5|exact A2]]].
Qed.
