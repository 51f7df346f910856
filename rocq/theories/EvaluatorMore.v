(** Corollaries used by EvaluatorProps.v. *)
From Verif Require Import Base StructDiff StructDiffSpec StructDiffProofs Evaluator EvaluatorSpec EvaluatorProofs EvaluatorHist EvaluatorRun.
Open Scope nat_scope.

Section More.
  Context {stru cfg bond V : Type} (K : calc stru cfg bond V).

  Lemma flat_map_map_filter {B C} (f : B -> bool) (g : B -> C) l :
    flat_map (fun b => if f b then [g b] else []) l = map g (filter f l).
  Proof. induction l as [|b l IH]; cbn; auto. destruct (f b); cbn; now rewrite IH. Qed.

  Lemma basic_all_work c s full : (forall i j, hasmask K c = false -> mask K c s i j = true) ->
    basic_all K c s full = serial_work K c s full.
  Proof.
    intros Hm. unfold basic_all, serial_work. apply flat_map_ext. intros i.
    unfold basic_item, visit. rewrite <- flat_map_map_filter. rewrite Nat.add_1_r.
    apply flat_map_ext. intros b. specialize (Hm i (site1 K b)).
    destruct (hasmask K c); cbn [andb negb].
    - destruct (mask K c s i (site1 K b)); cbn [negb]; auto. destruct full; cbn [orb]; auto.
    - rewrite Hm by auto. destruct full; cbn [orb]; auto.
  Qed.

  Theorem work_partition c s full ncpu : 1 <= ncpu ->
    (forall i j, hasmask K c = false -> mask K c s i j = true) ->
    Permutation (flat_map (fun k => basic_trace K c s full k ncpu) (seq 0 ncpu)) (serial_work K c s full).
  Proof. intros Hn Hm. rewrite <- basic_all_work by auto. now apply basic_trace_partition. Qed.

  Context (opp : V -> V) (pairs : cfg -> stru -> nat -> nat -> list bond).
  Context {A E : Type} (atoms : stru -> list A) (env : stru -> E)
          (w : cfg -> E -> Z -> nat -> A -> nat -> A -> V).
  Hypothesis OK : calc_ok K opp pairs atoms env w.
  Context (close : V -> V -> bool).

  Lemma fold_add_sum l : forall v, fold_left (add K) l v = add K v (sum K l).
  Proof.
    induction l as [|a l IH]; intros v; cbn.
    - rewrite (add_comm _ _ _ _ _ _ OK). now rewrite (add_zero _ _ _ _ _ _ OK).
    - rewrite IH. now rewrite (add_assoc _ _ _ _ _ _ OK).
  Qed.

  Lemma sum_perm l l' : Permutation l l' -> sum K l = sum K l'.
  Proof.
    unfold sum. induction 1; cbn; auto.
    - now rewrite IHPermutation.
    - rewrite !(add_assoc _ _ _ _ _ _ OK). now rewrite (add_comm _ _ _ _ _ _ OK y x).
    - congruence.
  Qed.

  Theorem merged_history N fixed c e t full ops s order : 1 <= N ->
    fixed = true \/ index_free K w ->
    Forall safe_op ops -> mode_ok K w full ops ->
    Permutation order (seq 0 N) ->
    let x k := run K close (ops ++ [OpEval s]) (init K c e t full fixed k N) in
    fold_left (fun acc k => add K acc (val (x k))) order (zero K) = total K pairs (fullsum (x 0)) (cf (x 0)) s.
  Proof.
    intros HN HF Hs Hm Hp x.
    etransitivity; [|exact (history_value K opp pairs atoms env w OK close N HN fixed HF c e t full ops s Hs Hm)].
    fold x. transitivity (fold_left (add K) (map (fun k => val (x k)) order) (zero K)).
    - generalize (zero K). induction order as [|k order IH] in |- *; intros v; cbn; auto.
    - rewrite fold_add_sum, (add_zero _ _ _ _ _ _ OK). apply sum_perm, Permutation_map, Hp.
  Qed.

  Lemma sum1 v : sum K [v] = v.
  Proof. cbn. rewrite (add_comm _ _ _ _ _ _ OK). apply (add_zero _ _ _ _ _ _ OK). Qed.

  Theorem serial_history fixed c e t full ops s :
    fixed = true \/ index_free K w ->
    Forall safe_op ops -> mode_ok K w full ops ->
    let x := run K close (ops ++ [OpEval s]) (init K c e t full fixed 0 1) in
    val x = total K pairs (fullsum x) (cf x) s.
  Proof.
    intros HF Hs Hm x.
    pose proof (history_value K opp pairs atoms env w OK close 1 (le_n 1) fixed HF c e t full ops s Hs Hm) as H.
    cbn [seq map] in H. rewrite sum1 in H. exact H.
  Qed.

  Theorem serial_history_current fixed c e t full ops :
    fixed = true \/ index_free K w ->
    Forall safe_op ops -> mode_ok K w full ops ->
    let x0 := run K close ops (init K c e t full fixed 0 1) in
    let x := step K close OpEvalCurrent x0 in
    val x = total K pairs (fullsum x) (cf x) (ms x0).
  Proof.
    intros HF Hs Hm x0 x.
    pose proof (history_value_current K opp pairs atoms env w OK close 1 (le_n 1) fixed HF c e t full ops Hs Hm) as H.
    cbn [seq map] in H. rewrite sum1 in H. unfold run in H. rewrite fold_left_app in H. exact H.
  Qed.

  (** a complete evaluation in serial is right in any state *)
  Theorem basic_value s (x : st stru cfg V) : ncpu x = 1 ->
    let y := basic_update K s x in val y = total K pairs (fullsum y) (cf y) s.
  Proof.
    intros Hn y. unfold y, basic_update, setStructure. cbn. destruct (custom K s (cf x)) as [c' b]. cbn.
    rewrite (apply_trace_sum K opp pairs atoms env w OK), (add_zero _ _ _ _ _ _ OK), Hn, basic_trace_serial.
    apply (basic_all_total K opp pairs atoms env w OK).
  Qed.

  Definition basic_op (o : op stru cfg) : Prop :=
    match o with OpSetType t => t = EvBasic | OpParallel _ n => n <= 1 | _ => True end.
  Lemma basic_history c e full fixed ops : Forall basic_op ops ->
    let x := run K close ops (init K c e EvBasic full fixed 0 1) in kind x = EvBasic /\ ncpu x = 1.
  Proof.
    intros H. cbv zeta.
    assert (G : forall x, kind x = EvBasic /\ ncpu x = 1 -> kind (run K close ops x) = EvBasic /\ ncpu (run K close ops x) = 1).
    { induction H as [|o ops Ho _ IH]; intros x [H1 H2]; cbn [run fold_left]; [auto|]. apply IH.
      destruct o; cbn [step]; cbn in Ho; try (split; assumption).
      - unfold eval, update. rewrite H1. unfold basic_update, setStructure; cbn. destruct (custom K _ (cf x)); cbn; auto.
      - unfold eval_current, eval, update. rewrite H1. unfold basic_update, setStructure; cbn. destruct (custom K _ (cf x)); cbn; auto.
      - unfold setStructure; cbn. destruct (custom K _ (cf x)); cbn; auto.
      - subst t. unfold setEvaluatorType. rewrite H1. cbn. auto.
      - unfold setupParallelRun. destruct (Nat.ltb_spec n 1); cbn; auto. split; auto; lia. }
    apply G. auto.
  Qed.
  Theorem basic_eval_current c e full fixed ops : Forall basic_op ops ->
    let x0 := run K close ops (init K c e EvBasic full fixed 0 1) in
    let x := step K close OpEvalCurrent x0 in
    val x = total K pairs (fullsum x) (cf x) (ms x0).
  Proof.
    intros H x0 x. destruct (basic_history c e full fixed ops H) as [H1 H2]. fold x0 in H1, H2.
    unfold x. cbn [step]. unfold eval_current. rewrite (eval_update K opp pairs atoms env w OK). unfold update. rewrite H1. cbn [state_of]. now apply basic_value.
  Qed.
  Lemma run_setStructure ops s x : ms (run K close (ops ++ [OpSetStructure s]) x) = s.
  Proof.
    unfold run. rewrite fold_left_app. cbn [fold_left step]. unfold setStructure. now destruct (custom K s _).
  Qed.

  (** no evaluation yet *)
  Definition before_eval (o : op stru cfg) : Prop :=
    match o with OpEval _ | OpEvalCurrent => False | OpParallel _ n => n <= 1 | _ => True end.
  Lemma before_history c e t full fixed ops : Forall before_eval ops ->
    let x := run K close ops (init K c e t full fixed 0 1) in last x = None /\ ncpu x = 1.
  Proof.
    intros H. cbv zeta.
    assert (G : forall x, last x = None /\ ncpu x = 1 -> last (run K close ops x) = None /\ ncpu (run K close ops x) = 1).
    { induction H as [|o ops Ho _ IH]; intros x [H1 H2]; cbn [run fold_left]; [auto|]. apply IH.
      destruct o; cbn [step]; cbn in Ho; try contradiction; try (split; assumption).
      - unfold setStructure; cbn. destruct (custom K _ (cf x)); cbn; auto.
      - unfold setEvaluatorType. destruct (evtype_eqb _ _); cbn; auto.
        destruct t0; cbn; auto; destruct (has_stash K); cbn; auto.
      - unfold setupParallelRun. destruct (Nat.ltb_spec n 1); cbn; auto. split; auto; lia. }
    apply G. auto.
  Qed.
  Theorem first_eval_current c e t full fixed ops : Forall before_eval ops ->
    let x0 := run K close ops (init K c e t full fixed 0 1) in
    let x := step K close OpEvalCurrent x0 in
    val x = total K pairs (fullsum x) (cf x) (ms x0).
  Proof.
    intros H x0 x. destruct (before_history c e t full fixed ops H) as [H1 H2]. fold x0 in H1, H2.
    unfold x. cbn [step]. unfold eval_current. rewrite (eval_update K opp pairs atoms env w OK). unfold update.
    assert (HO : let y := optimized_update K (ms x0) x0 in
                 val y = total K pairs (fullsum y) (cf y) (ms x0) /\ used y = EvBasic).
    { unfold optimized_update. cbn [last set_used]. rewrite H1. split.
      - now apply (basic_value (ms x0) (set_used EvOptimized x0)).
      - unfold complete_update, basic_update, setStructure. cbn. now destruct (custom K _ _). }
    destruct (kind x0); cbn [state_of]; try now apply basic_value.
    - apply HO.
    - unfold check_update. destruct HO as [HO1 HO2]. rewrite HO2. cbn. exact HO1.
  Qed.

  Lemma type_change_atomic t (x : st stru cfg V) :
    match setEvaluatorType K t x with
    | Ok y => kind y = t /\ cf y = cf x /\ ms y = ms x /\ fullsum y = fullsum x /\ fixedidx y = fixedidx x /\
              cpu y = cpu x /\ ncpu y = ncpu x /\ ptick y = ptick x /\
              (kind x = t -> y = x) /\ (kind x <> t -> val y = zero K)
    | Throw e y => e = InvalidArgument /\ y = x /\ kind x <> t /\
                   (t = EvNone \/ (has_stash K = false /\ (t = EvOptimized \/ t = EvCheck)))
    | UB => False
    end.
  Proof.
    unfold setEvaluatorType. destruct (evtype_eqb (kind x) t) eqn:E1.
    - destruct (kind x) eqn:Ek, t; try discriminate; repeat split; auto; congruence.
    - assert (Hne : kind x <> t) by (destruct (kind x), t; discriminate).
      destruct t; cbn; try destruct (has_stash K) eqn:EH; repeat split; auto; try tauto; congruence.
  Qed.
End More.
