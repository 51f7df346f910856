(** Proofs about the stash, reachable states and results of PDFCalculator. *)
From Coq Require Import String.
From Verif Require Import RBase AList Trig Sums PdfGrid PdfSpec PdfProofs.
Open Scope R_scope.

(** ** stash and restore *)
Lemma copy_length src dst : length (copy_loop src dst) = length dst.
Proof. revert dst; induction src as [|a src IH]; intros [|b dst]; cbn; auto. Qed.
Lemma copy_nth src dst k : (k < length dst)%nat ->
  nth k (copy_loop src dst) 0 = if (k <? length src)%nat then nth k src 0 else nth k dst 0.
Proof.
  revert dst k; induction src as [|a src IH]; intros [|b dst] k H; cbn [copy_loop length] in *; try lia.
  - destruct k; reflexivity.
  - destruct k as [|k]; cbn [nth]; [reflexivity|]. rewrite IH by lia. reflexivity.
Qed.
Lemma nth_skipn (l : list R) n k : nth k (skipn n l) 0 = nth (n + k) l 0.
Proof. revert l; induction n as [|n IH]; intros [|a l]; cbn; auto; destruct k; auto. Qed.
Lemma nth_firstn' (l : list R) n k : (k < n)%nat -> nth k (firstn n l) 0 = nth k l 0.
Proof. revert l k; induction n as [|n IH]; intros [|a l] [|k] H; cbn; auto; try lia. apply IH. lia. Qed.

Lemma restore_length x : length (mvalue (restorePartialValue x)) = length (mvalue x).
Proof.
  unfold restorePartialValue. destruct (stashed x) as [sv slo]. cbn [mvalue].
  destruct (Z.leb _ _); [apply copy_length|]. rewrite app_length, copy_length, <- app_length, firstn_skipn. reflexivity.
Qed.
(** element k of the restored array: the stashed value of the same grid point when there is one *)
Lemma restore_nth x k : (k < length (mvalue x))%nat ->
  let sv := fst (stashed x) in let j := (calclo (lim x) + Z.of_nat k - snd (stashed x))%Z in
  nth k (mvalue (restorePartialValue x)) 0 =
  if ((0 <=? j) && (j <? Z.of_nat (length sv)))%Z then nth (Z.to_nat j) sv 0 else nth k (mvalue x) 0.
Proof.
  intros Hk. unfold restorePartialValue. destruct (stashed x) as [sv slo]. cbv zeta. cbn [fst snd mvalue].
  set (sh := (calclo (lim x) - slo)%Z). replace (calclo (lim x) + Z.of_nat k - slo)%Z with (sh + Z.of_nat k)%Z by lia.
  destruct (Z.leb_spec 0 sh) as [Hs|Hs].
  - rewrite copy_nth by assumption. rewrite skipn_length, nth_skipn.
    destruct (Nat.ltb_spec k (length sv - Z.to_nat (Z.min sh (Z.of_nat (length sv))))).
    + destruct (Z.leb_spec 0 (sh + Z.of_nat k)); [|lia]. destruct (Z.ltb_spec (sh + Z.of_nat k) (Z.of_nat (length sv))); [|lia].
      cbn [andb]. f_equal. lia.
    + destruct (Z.ltb_spec (sh + Z.of_nat k) (Z.of_nat (length sv))); [lia|]. rewrite andb_false_r. reflexivity.
  - set (n := Z.to_nat (Z.min (- sh) (Z.of_nat (length (mvalue x))))).
    destruct (Z.leb_spec 0 (sh + Z.of_nat k)) as [Hj|Hj]; cbn [andb].
    + rewrite app_nth2; rewrite firstn_length, Nat.min_l by lia; [|lia].
      rewrite copy_nth by (rewrite skipn_length; lia).
      destruct (Nat.ltb_spec (k - n) (length sv)); destruct (Z.ltb_spec (sh + Z.of_nat k) (Z.of_nat (length sv))); try lia.
      * f_equal. lia.
      * rewrite nth_skipn. f_equal. lia.
    + rewrite app_nth1 by (rewrite firstn_length; lia). apply nth_firstn'. lia.
Qed.

(** ** Reachable states *)
Lemma wf_set_conf x c : wf x -> settings_ok c -> wf (set_conf x c).
Proof. intros [A B C D] H. constructor; cbn; auto. Qed.
Lemma wf_initial x : wf x -> wf (initialUpdate x).
Proof. intros H. unfold initialUpdate. destruct (p_empty _); [apply wf_reset, H|assumption]. Qed.
Lemma dmax_pos : 0 < DOUBLE_MAX. Proof. unfold DOUBLE_MAX. apply (IZR_lt 0). reflexivity. Qed.
Lemma wf_setStructure s x : settings_ok (cf x) -> wf (setStructure s x) /\ current (setStructure s x).
Proof. intros H. apply wf_reset. exact H. Qed.
Lemma wf_restore x : wf x -> wf (restorePartialValue x).
Proof.
  intros [A B C D]. pose proof (restore_length x) as L. unfold restorePartialValue in *. destruct (stashed x) as [sv slo].
  constructor; cbn [cf lim mvalue sc str] in *; auto. rewrite L. assumption.
Qed.
Lemma fast_ok t0 s t1 x : wf x -> exists y0 y, addPairs x t0 = Ok y0 /\ wf y0 /\
  addPairs (restorePartialValue (setStructure s (stashPartialValue y0))) t1 = Ok y /\
  fastUpdate t0 s t1 x = Ok y /\ wf y /\ cf y = cf x /\ str y = s /\ lim y = cacheRlimitsData (cf x) s.
Proof.
  intros H. destruct (addPairs_spec t0 x H) as (y0 & E0 & W0 & S0 & _).
  assert (W1 : wf (restorePartialValue (setStructure s (stashPartialValue y0)))).
  { apply wf_restore, wf_setStructure. apply W0. }
  destruct (addPairs_spec t1 _ W1) as (y & E & W & S & _).
  exists y0, y. unfold fastUpdate. rewrite E0. cbn [bind].
  split; [reflexivity|split; [assumption|split; [assumption|split; [assumption|split; [assumption|]]]]].
  destruct S as (S1 & S2 & _ & S4 & _). destruct S0 as (S01 & _).
  unfold restorePartialValue in S1, S2, S4. destruct (stashed _) in S1, S2, S4.
  cbn [cf str lim setStructure resetValue stashPartialValue] in *. rewrite S01 in *. auto.
Qed.
Ltac rb := repeat match goal with
  | H : Rltb _ _ = true |- _ => apply Rltb_true in H
  | H : Rltb _ _ = false |- _ => apply Rltb_false in H
  | H : negb _ = true |- _ => apply negb_true_iff in H
  | H : negb _ = false |- _ => apply negb_false_iff in H
  | H : Rleb _ _ = true |- _ => apply Rleb_true in H
  | H : Rleb _ _ = false |- _ => apply Rleb_false in H
  end.
Lemma pstep_wf o x : wf x -> exists y, (pstep o x = Ok y \/ exists e, pstep o x = Throw e x /\ y = x) /\ wf y.
Proof.
  intros H. pose proof (wf_conf x H) as (C1 & C2 & C3 & C4 & C5 & C6).
  destruct o as [r|r|r|q|q|m|pk sf env d inv b|s|s t|t0 s t1]; cbn [pstep].
  - unfold setRmin. destruct (Rltb r 0) eqn:E; rb; [exists x; eauto|]. eexists; split; [left; reflexivity|].
    apply wf_set_conf; auto. unfold settings_ok; cbn; tauto.
  - unfold setRmax. destruct (Rltb r 0) eqn:E; rb; [exists x; eauto|]. eexists; split; [left; reflexivity|].
    apply wf_initial, wf_set_conf; auto. unfold settings_ok; cbn; tauto.
  - unfold setRstep, eps_gt. destruct (negb (Rltb (0 + SQRT_DOUBLE_EPS) r)) eqn:E; rb; [exists x; eauto|].
    eexists; split; [left; reflexivity|].
    apply wf_initial, wf_set_conf; auto. unfold settings_ok; cbn. rewrite Rplus_0_l in E. tauto.
  - unfold setQmin. destruct (Rltb q 0) eqn:E; rb; [exists x; eauto|]. eexists; split; [left; reflexivity|].
    apply wf_set_conf; auto. unfold settings_ok; cbn; tauto.
  - unfold setQmax. destruct (Rltb q 0) eqn:E; rb; [exists x; eauto|]. eexists; split; [left; reflexivity|].
    apply wf_initial, wf_set_conf; auto. unfold settings_ok; cbn. pose proof dmax_pos.
    destruct (Rltb 0 q) eqn:E2; rb; tauto.
  - unfold setMaxExtension. destruct (Rltb m 0) eqn:E; rb; [exists x; eauto|]. eexists; split; [left; reflexivity|].
    apply wf_set_conf; auto. unfold settings_ok; cbn; tauto.
  - eexists; split; [left; reflexivity|]. destruct H as [A B C D]. constructor; cbn; auto.
  - eexists; split; [left; reflexivity|]. apply wf_setStructure. apply H.
  - destruct (addPairs_spec t (setStructure s x)) as (y & E & W & _); [apply wf_setStructure, H|]. exists y; auto.
  - destruct (fast_ok t0 s t1 x H) as (y0 & y & _ & _ & _ & E & W & _). exists y; auto.
Qed.
Definition prun_from := fun r o => match r with Ok y => match pstep o y with Throw _ z => Ok z | r => r end | r => r end.
Lemma prun_wf ops : forall x, wf x -> exists y, fold_left prun_from ops (Ok x) = Ok y /\ wf y.
Proof.
  induction ops as [|o ops IH]; intros x H; cbn [fold_left]; [eauto|].
  destruct (pstep_wf o x H) as (y & [E|(e & E & ->)] & W); cbn [prun_from]; rewrite E; apply IH; assumption.
Qed.
Lemma new_wf pk sf env e : wf (newPDF pk sf env e).
Proof.
  apply wf_setStructure. unfold settings_ok; cbn. pose proof dmax_pos. unfold SQRT_DOUBLE_EPS. lra.
Qed.
Lemma prun_ok ops pk sf env e : exists x, prun ops (newPDF pk sf env e) = Ok x /\ wf x.
Proof. apply prun_wf, new_wf. Qed.
Lemma prun_app ops o x y : wf x -> prun (ops ++ [o]) x = Ok y ->
  exists z, wf z /\ prun ops x = Ok z /\ (pstep o z = Ok y \/ exists e, pstep o z = Throw e y).
Proof.
  intros H E. destruct (prun_wf ops x H) as (z & Ez & Wz).
  unfold prun in *. rewrite fold_left_app in E. fold prun_from in *.
  rewrite Ez in E. cbn [fold_left prun_from] in E.
  exists z. split; [assumption|split; [assumption|]]. destruct (pstep o z) as [a|er a|]; inversion E; eauto.
Qed.

(** operations that bring the limits up to date *)
Definition evaluates (o : pop) (s : pstru) : Prop := o = PSetStructure s \/ (exists t, o = PEval s t) \/ (exists t0 t1, o = PFast t0 s t1).
Lemma eval_current o s x y : wf x -> evaluates o s -> pstep o x = Ok y \/ (exists e, pstep o x = Throw e y) ->
  wf y /\ current y /\ str y = s /\ cf y = cf x.
Proof.
  intros H [->|[[t ->]|(t0 & t1 & ->)]] HE; cbn [pstep] in HE.
  - destruct HE as [[= <-]|[e [=]]]. destruct (wf_setStructure s x (wf_conf x H)). auto.
  - destruct (wf_setStructure s x (wf_conf x H)) as [W C].
    destruct (addPairs_spec t _ W) as (z & E & Wz & S & _). rewrite E in HE. destruct HE as [[= <-]|[e [=]]].
    destruct S as (S1 & S2 & S3 & S4 & _). unfold current in *. rewrite S4, S2, S1. auto.
  - destruct (fast_ok t0 s t1 x H) as (y0 & z & _ & _ & _ & E & W & Ec & Es & El). rewrite E in HE.
    destruct HE as [[= <-]|[e [=]]]. unfold current. rewrite El, Ec, Es. auto.
Qed.

(** ** Results *)
Lemma range_ok v i j : (0 <= i <= j)%Z -> (j <= Z.of_nat (length v))%Z ->
  range v i j = Ok (firstn (Z.to_nat (j - i)) (skipn (Z.to_nat i) v)).
Proof.
  intros H1 H2. unfold range. destruct (Z.leb_spec 0 i); [|lia]. destruct (Z.leb_spec i j); [|lia].
  destruct (Z.leb_spec j (Z.of_nat (length v))); [|lia]. reflexivity.
Qed.
Lemma grid_length a b dr : length (grid a b dr) = Z.to_nat (b - a).
Proof. unfold grid, zrange. now rewrite !map_length, seq_length. Qed.
(** a slice of an array given by a function of the step *)
Lemma zrange_app a b c : (a <= b <= c)%Z -> zrange a c = zrange a b ++ zrange b c.
Proof.
  intros H. remember (Z.to_nat (b - a)) as n eqn:En. revert a H En. induction n as [|n IH]; intros a H En.
  - assert (a = b) by lia. subst. rewrite (zrange_nil b b) by lia. reflexivity.
  - rewrite (zrange_cons a c), (zrange_cons a b) by lia. cbn [app]. f_equal. apply IH; lia.
Qed.
Lemma zrange_length a b : length (zrange a b) = Z.to_nat (b - a).
Proof. unfold zrange. now rewrite map_length, seq_length. Qed.
Lemma range_map (f : Z -> R) a b i j : (0 <= i <= j)%Z -> (a + j <= b)%Z ->
  range (map f (zrange a b)) i j = Ok (map f (zrange (a + i) (a + j))).
Proof.
  intros H1 H2. rewrite range_ok; [|lia|rewrite map_length, zrange_length; lia]. f_equal.
  rewrite (zrange_app a (a + i) b), (zrange_app (a + i) (a + j) b) by lia. rewrite map_app, skipn_app.
  rewrite skipn_all2 by (rewrite map_length, zrange_length; lia).
  rewrite map_length, zrange_length. replace (Z.to_nat i - Z.to_nat (a + i - a))%nat with 0%nat by lia.
  cbn [app skipn]. rewrite map_app, firstn_app. rewrite map_length, zrange_length.
  replace (Z.to_nat (j - i) - Z.to_nat (a + j - (a + i)))%nat with 0%nat by lia. cbn [firstn]. rewrite app_nil_r.
  apply firstn_all2. rewrite map_length, zrange_length. lia.
Qed.
(** an array as a function of the step *)
Lemma as_map v a b : Z.of_nat (length v) = (b - a)%Z -> v = map (fun n => nth (Z.to_nat (n - a)) v 0) (zrange a b).
Proof.
  intros H. apply nth_ext with (d := 0) (d' := 0); [rewrite map_length, zrange_length; lia|].
  intros k Hk. unfold zrange. rewrite map_map.
  rewrite nth_map_seq by lia. f_equal. lia.
Qed.
Lemma map2_map (F : R -> R -> R) (f g : Z -> R) l : map2 F (map f l) (map g l) = Ok (map (fun n => F (f n) (g n)) l).
Proof. induction l as [|n l IH]; cbn [map map2]; [reflexivity|]. rewrite IH. reflexivity. Qed.
Lemma cut_map x (f : Z -> R) : wf x -> current x ->
  cutRipplePoints x (map f (zrange (extmin (lim x)) (extmax (lim x)))) =
  Ok (map f (zrange (rminSteps (c_rmin (cf x)) (c_rstep (cf x))) (rmaxSteps (c_rmax (cf x)) (c_rstep (cf x))))).
Proof.
  intros W C. pose proof (wf_conf x W) as Hc. unfold current in C.
  set (a := rminSteps (c_rmin (cf x)) (c_rstep (cf x))). set (b := rmaxSteps (c_rmax (cf x)) (c_rstep (cf x))).
  destruct (Z_lt_dec a b) as [Hab|Hab].
  - pose proof (limits_inside (cf x) (str x) Hc Hab) as Hl. cbv zeta in Hl. rewrite <- C in Hl. fold a b in Hl.
    unfold cutRipplePoints. fold a b.
    remember (map f (zrange (extmin (lim x)) (extmax (lim x)))) as y eqn:Ey.
    assert (Ly : Z.of_nat (length y) = (extmax (lim x) - extmin (lim x))%Z) by (subst y; rewrite map_length, zrange_length; lia).
    destruct y as [|y0 y']; [cbn in Ly; lia|]. set (y := y0 :: y') in *. clearbody y.
    destruct (Z.ltb_spec (extmax (lim x) - b) 0); [lia|].
    rewrite Ly. subst y. rewrite range_map by lia. cbn [bind].
    replace (extmin (lim x) + 0)%Z with (extmin (lim x)) by lia.
    replace (extmin (lim x) + (extmax (lim x) - extmin (lim x) - (extmax (lim x) - b)))%Z with b by lia.
    destruct (Z.ltb_spec (a - extmin (lim x)) 0); [lia|].
    rewrite map_length, zrange_length.
    rewrite range_map by lia. f_equal. f_equal. f_equal; lia.
  - rewrite C, (limits_empty (cf x) (str x)) by exact Hab. cbn [extmin extmax].
    rewrite (zrange_nil a b) by lia. rewrite (zrange_nil 0 0) by lia. reflexivity.
Qed.
(** the value array by step *)
Definition value_at (x : pdfc) (n : Z) : R := nth (Z.to_nat (n - calclo (lim x))) (mvalue x) 0.
Lemma extRDF_map x : wf x -> getExtendedRDF x = Ok (map (fun n => value_at x n *
    (if Reqb (totocc (sc x) * sfaverage (sc x)) 0 then 0 else 1 / (totocc (sc x) * sfaverage (sc x) * sfaverage (sc x))))
    (zrange (extmin (lim x)) (extmax (lim x)))).
Proof.
  intros [Hc Hl Hn _]. unfold lims_ok, countCalcPoints in *. unfold getExtendedRDF. cbv zeta.
  rewrite (as_map (mvalue x) (calclo (lim x)) (calchi (lim x))) by lia.
  rewrite range_map by lia. cbn [bind]. rewrite map_map. f_equal.
  replace (calclo (lim x) + (extmin (lim x) - calclo (lim x)))%Z with (extmin (lim x)) by lia.
  replace (calclo (lim x) + (extmax (lim x) - calclo (lim x)))%Z with (extmax (lim x)) by lia.
  apply map_ext_in. intros n Hin%zrange_In. unfold value_at. f_equal.
Qed.
