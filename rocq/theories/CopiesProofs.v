(** Proofs for C76. *)
From Verif Require Import Base StructDiff StructDiffSpec Evaluator EvaluatorSpec EvaluatorProofs EvaluatorHist EvaluatorRun EvaluatorMore Copies CopiesSpec.
Open Scope nat_scope.

Section Proofs.
  Context {stru cfg bond V : Type} (K : calc stru cfg bond V).
  Context (opp : V -> V) (pairs : cfg -> stru -> nat -> nat -> list bond).
  Context {A E : Type} (atoms : stru -> list A) (env : stru -> E)
          (wt : cfg -> E -> Z -> nat -> A -> nat -> A -> V).
  Hypothesis OK : calc_ok K opp pairs atoms env wt.
  Context (close : V -> V -> bool).
  Notation st := (st stru cfg V).
  Notation world := (world stru cfg V).
  Notation INV := (Inv K pairs wt 1).

  (** the invariant of C13 for one calculator with its evaluator *)
  Definition fine (x : st) : Prop := exists X, INV (fixedidx x) X /\ X 0 = x /\ (fixedidx x = true \/ index_free K wt).

  Lemma fine_step x o : fine x -> safe_op o -> (no_mode_change o \/ (two_way wt /\ doubling K)) -> fine (step K close o x).
  Proof.
    intros (X & I & E0 & F) S M. exists (fun k => step K close o (X k)).
    pose proof (step_inv K opp pairs atoms env wt OK close 1 (le_n 1) (fixedidx x) F X o I S M) as I'.
    pose proof (i_fix _ _ _ _ _ (inv0 _ _ _ _ _ _ I')) as EF. cbv beta in EF. rewrite E0 in EF. split; [|split].
    - rewrite EF. exact I'.
    - now rewrite E0.
    - rewrite EF. exact F.
  Qed.
  Lemma fine_eval x s : fine x -> let y := step K close (OpEval s) x in val y = total K pairs (fullsum y) (cf y) s.
  Proof.
    intros (X & I & E0 & F) y. destruct (eval_good K opp pairs atoms env wt OK close 1 (le_n 1) (fixedidx x) F X s X I) as [_ [_ G]].
    unfold vsum in G. cbn [seq map] in G. rewrite (sum1 K opp pairs atoms env wt OK) in G. rewrite E0 in G. exact G.
  Qed.
  Lemma fine_init c s t full fixed : full = true \/ two_way wt -> fixed = true \/ index_free K wt -> fine (init K c s t full fixed 0 1).
  Proof. intros M F. exists (fun k => init K c s t full fixed k 1). split; [|split; auto]. now apply init_inv. Qed.

  (** other calculators may move the clock and, when the evaluator is shared, its flags and time of evaluation *)
  Lemma fine_change (x x' : st) : fine x ->
    cf x' = cf x -> ptick x' = ptick x -> ms x' = ms x -> val x' = val x -> kind x' = kind x -> fixedidx x' = fixedidx x ->
    cpu x' = cpu x -> ncpu x' = ncpu x -> last x' = last x ->
    (clock x <= clock x')%Z -> (vtick x' <= clock x')%Z -> (vtick x' = vtick x \/ last x = None) ->
    (fullsum x' = fullsum x \/ (two_way wt /\ doubling K)) -> fine x'.
  Proof.
    intros (X & I & E0 & F) H1 H2 H3 H4 H5 H6 H7 H8 H9 HC HV HL HM.
    exists (fun k => {| cf := cf (X k); ptick := ptick (X k); ms := ms (X k); val := val (X k); clock := clock x'; kind := kind (X k); fullsum := fullsum x';
      fixedidx := fixedidx (X k); cpu := cpu (X k); ncpu := ncpu (X k); vtick := vtick x'; last := last (X k); used := used x' |}).
    rewrite H6. destruct I as [[A1 A2 A3 A4 A5 A6 A7] B C]. subst x.
    assert (Q : forall k, cf (X k) = cf (X 0) /\ ptick (X k) = ptick (X 0) /\ ms (X k) = ms (X 0) /\ kind (X k) = kind (X 0) /\ fixedidx (X k) = fixedidx (X 0) /\ ncpu (X k) = ncpu (X 0) /\ last (X k) = last (X 0)).
    { intros k. specialize (A2 k). repeat split; [exact (f_equal cf A2)|exact (f_equal ptick A2)|exact (f_equal ms A2)|exact (f_equal kind A2)|exact (f_equal fixedidx A2)|exact (f_equal ncpu A2)|exact (f_equal last A2)]. }
    split; [|split; [|exact F]].
    - split; [split|..]; cbn; auto.
      + intros k. destruct (Q k) as (q1 & q2 & q3 & q4 & q5 & q6 & q7). unfold erase. cbn. now rewrite q1, q2, q3, q4, q5, q6, q7.
      + lia.
      + destruct HM as [-> |[]]; auto.
      + intros s Hs Ht. assert (G : Good K pairs 1 X s).
        { apply C; auto. destruct HL as [<-|HL]; [exact Ht|congruence]. }
        destruct G as [G1 G2]. split; [exact G1|]. cbn. transitivity (vsum K 1 X); [reflexivity|]. rewrite G2.
        destruct HM as [-> |[TW DB]]; auto. destruct (fullsum x'), (fullsum (X 0)); cbn; auto; [|symmetry];
          apply (half_is_full K opp pairs atoms env wt OK); auto.
    - destruct x'. cbn in *. subst. reflexivity.
  Qed.

  Lemma step_clock x o : (clock x <= clock (step K close o x))%Z.
  Proof.
    assert (SS : forall s y, (clock y <= clock (setStructure K s y))%Z) by (intros s y; unfold setStructure; destruct (custom K s (cf y)) as [c []]; cbn; lia).
    assert (BU : forall s y, (clock y <= clock (basic_update K s y))%Z).
    { intros s y. unfold basic_update. cbn. specialize (SS s (set_used EvBasic y)). cbn in SS. lia. }
    assert (CU : forall s y, (clock y <= clock (complete_update K s y))%Z) by (intros s y; exact (BU s y)).
    assert (OU : forall s y, (clock y <= clock (optimized_update K s y))%Z).
    { intros s y. unfold optimized_update. cbn [last set_used]. pose proof (CU s (set_used EvOptimized y)) as C0. cbn [clock set_used] in C0.
      destruct (last y); auto. destruct (_ <=? _)%Z; auto. destruct (negb _); auto. destruct (_ && _); auto. unfold fast_update.
      destruct (rm_trace _ _ _ _ _ _ _ _) as [t0 n1]. match goal with |- context [setStructure K s ?a] => pose proof (SS s a) as S1; cbn [clock set_val set_used] in S1; set (b := setStructure K s a) in * end.
      destruct (_ <=? _)%Z; [specialize (CU s b); lia|]. cbn. lia. }
    assert (EV : forall s y, (clock y <= clock (state_of (eval K close s y) y))%Z).
    { intros s y. rewrite (eval_update K opp pairs atoms env wt OK). unfold update. destruct (kind y); [apply BU|apply BU|apply OU|]. unfold check_update. specialize (OU s y).
      destruct (evtype_eqb _ _); [exact OU|]. pose proof (BU s (optimized_update K s y)) as BB. destruct (close _ _); cbn [state_of]; change (clock (set_used EvCheck ?z)) with (clock z); eapply Z.le_trans; eauto. }
    destruct o; cbn [step]; auto; try apply Z.le_refl.
    - apply EV.
    - cbn. lia.
    - unfold setEvaluatorType. destruct (evtype_eqb _ _); cbn; auto using Z.le_refl. destruct t; cbn; auto using Z.le_refl; destruct (has_stash K); cbn; auto using Z.le_refl.
    - unfold setupParallelRun. destruct (_ <? _); cbn; auto using Z.le_refl; lia.
  Qed.
  Lemma fine_vtick x : fine x -> (vtick x <= clock x)%Z.
  Proof. intros (X & I & <- & _). apply I. Qed.
  Lemma fine_ncpu x : fine x -> ncpu x = 1 /\ cpu x = 0.
  Proof. intros (X & I & <- & _). split; [apply I|]. apply (i_cpu _ _ _ _ _ (inv0 _ _ _ _ _ _ I)). Qed.
  Lemma fine_last x : fine x -> kind x = EvNone \/ kind x = EvBasic -> last x = None.
  Proof. intros (X & I & <- & _) H. pose proof (inv_basic _ _ _ _ _ _ I) as B. destruct H as [H|H]; rewrite H in B; exact B. Qed.

  (** *** worlds *)
  Definition all_fine (w : world) : Prop :=
    (forall p i, nth_error (w_pq w) i = Some p -> p_ev p < length (w_ev w)) /\ (forall i x, load w i = Some x -> fine x).

  Lemma join_split (y : st) k : join (clock y) (pq_of y k) (ev_of y) = y.
  Proof. now destruct y. Qed.

  (** what an operation that is not an evaluation, or that is one with a basic evaluator, does to a shared evaluator *)
  Lemma shared_step x o : fine x -> safe_op o -> replaces K o x = false -> (is_eval o -> kind x = EvNone \/ kind x = EvBasic) ->
    let y := step K close o x in
    kind y = kind x /\ fixedidx y = fixedidx x /\ cpu y = cpu x /\ ncpu y = ncpu x /\ last y = last x /\
    (vtick y = vtick x \/ last x = None) /\ (fullsum y = fullsum x \/ ~ no_mode_change o).
  Proof.
    intros FX SO RP EV y.
    assert (EB : forall s, kind x = EvNone \/ kind x = EvBasic -> let z := state_of (eval K close s x) x in
      kind z = kind x /\ fixedidx z = fixedidx x /\ cpu z = cpu x /\ ncpu z = ncpu x /\ last z = last x /\ (vtick z = vtick x \/ last x = None) /\ (fullsum z = fullsum x \/ ~ no_mode_change o)).
    { intros s HK z. pose proof (fine_last x FX HK) as HL. assert (EZ : z = basic_update K s x).
      { unfold z. rewrite (eval_update K opp pairs atoms env wt OK). unfold update. destruct HK as [-> | ->]; reflexivity. }
      rewrite EZ. unfold basic_update, setStructure. cbn. destruct (custom K s (cf x)) as [c b]. cbn. auto 10. }
    destruct o; cbn in SO; try contradiction.
    - apply EB. apply EV. exact I.
    - apply (EB (ms x)). apply EV. exact I.
    - cbn in y. subst y. cbn. auto 10.
    - subst y. cbn [step] in *. unfold replaces in RP. unfold setEvaluatorType in *. destruct (evtype_eqb (kind x) t); [cbn; auto 10|].
      destruct t; cbn in *; try discriminate; auto 10; destruct (has_stash K); cbn in *; try discriminate; auto 10.
    - subst y. cbn. auto 10.
  Qed.

  Lemma wstep_clock w c : (w_clock w <= w_clock (wstep K close w c))%Z.
  Proof.
    destruct c as [c s t full fixed|i|i j|i o]; cbn [wstep]; try (cbn; lia).
    - destruct (nth_error (w_pq w) i); cbn; lia.
    - destruct (nth_error (w_pq w) j); cbn; lia.
    - unfold perform. destruct (nth_error (w_pq w) i) as [p|] eqn:Ep; [|lia].
      destruct (load w i) as [x|] eqn:Ex; [|lia]. unfold load in Ex. rewrite Ep in Ex.
      destruct (nth_error (w_ev w) (p_ev p)) as [e|]; [|discriminate]. injection Ex as <-.
      pose proof (step_clock (join (w_clock w) p e) o) as H. cbn [clock join] in H.
      destruct (replaces K o _); exact H.
  Qed.
  Lemma wstep_fine w c : (0 <= w_clock w)%Z -> fair K wt w c -> all_fine w -> all_fine (wstep K close w c).
  Proof.
    intros C0 HF [B G]. destruct c as [c s t full fixed|i|i j|i o]; cbn [wstep].
    - destruct HF as [M F]. split; cbn.
      + intros p i. destruct (Nat.lt_ge_cases i (length (w_pq w))) as [H|H].
        * rewrite nth_error_app1 by auto. intros E1. specialize (B p i E1). rewrite app_length. lia.
        * rewrite nth_error_app2 by auto. rewrite app_length. destruct (i - length (w_pq w)) as [|[|n]]; cbn; try discriminate. intros [= <-]. cbn. lia.
      + intros i x. unfold load. cbn. destruct (Nat.lt_ge_cases i (length (w_pq w))) as [H|H].
        * rewrite nth_error_app1 by auto. destruct (nth_error (w_pq w) i) as [p|] eqn:Ep; [|discriminate]. rewrite nth_error_app1 by (eapply B; eauto).
          intros Hx. apply (G i). unfold load. rewrite Ep. exact Hx.
        * rewrite nth_error_app2 by auto. destruct (i - length (w_pq w)) as [|[|n]]; cbn; try discriminate.
          rewrite nth_error_app2 by auto. rewrite Nat.sub_diag. cbn. intros [= <-].
          apply (fine_change (init K c s t full fixed 0 1)); auto; [now apply fine_init|cbn; lia..].
    - destruct (nth_error (w_pq w) i) as [p|] eqn:Ep; [|split; auto]. split; cbn.
      + intros q k. destruct (Nat.lt_ge_cases k (length (w_pq w))) as [H|H].
        * rewrite nth_error_app1 by auto. apply B.
        * rewrite nth_error_app2 by auto. destruct (k - length (w_pq w)) as [|[|n]]; cbn; try discriminate. intros [= <-]. eauto.
      + intros k x. unfold load. cbn. destruct (Nat.lt_ge_cases k (length (w_pq w))) as [H|H].
        * rewrite nth_error_app1 by auto. intros Hx. apply (G k). exact Hx.
        * rewrite nth_error_app2 by auto. destruct (k - length (w_pq w)) as [|[|n]]; cbn; try discriminate.
          intros Hx. apply (G i). unfold load. rewrite Ep. exact Hx.
    - destruct (nth_error (w_pq w) j) as [p|] eqn:Ep; [|split; auto]. split; cbn.
      + intros q k. rewrite nth_error_upd. destruct (i =? k); [destruct (i <? _)|]; try discriminate; [intros [= <-]|]; eauto.
      + intros k x. unfold load. cbn. rewrite nth_error_upd. destruct (i =? k); [destruct (i <? _)|]; try discriminate.
        * intros Hx. apply (G j). unfold load. rewrite Ep. exact Hx.
        * intros Hx. apply (G k). exact Hx.
    - destruct HF as (SO & MC & EV). unfold perform. destruct (nth_error (w_pq w) i) as [p|] eqn:Ep; [|split; auto].
      destruct (load w i) as [x|] eqn:Ex; [|split; auto]. pose proof (G i x Ex) as FX. pose proof (fine_step x o FX SO MC) as FY.
      assert (IL : i < length (w_pq w)) by (apply nth_error_Some; congruence).
      pose proof Ex as Ex'. unfold load in Ex'. rewrite Ep in Ex'. destruct (nth_error (w_ev w) (p_ev p)) as [e|] eqn:Ee; [|discriminate]. injection Ex' as EX.
      assert (CX : clock x = w_clock w) by now rewrite <- EX.
      pose proof (step_clock x o) as SC.
      assert (OTHER : forall z, fine z -> clock z = w_clock w -> fine (join (clock (step K close o x)) (pq_of z 0) (ev_of z))).
      { intros z FZ CZ. apply (fine_change z); auto; cbn; [lia|pose proof (fine_vtick z FZ); lia]. }
      destruct (replaces K o x) eqn:ER; split; cbn.
      + intros q k. rewrite nth_error_upd, app_length. destruct (i =? k); [destruct (i <? _)|]; try discriminate; [intros [= <-]; cbn; lia|]. intros Hq. specialize (B q k Hq). lia.
      + intros k z. unfold load. cbn. rewrite nth_error_upd. destruct (Nat.eqb_spec i k) as [->|NE].
        * destruct (k <? _); [|discriminate]. cbn. rewrite nth_error_app2 by auto. rewrite Nat.sub_diag. cbn. intros [= <-]. now rewrite join_split.
        * destruct (nth_error (w_pq w) k) as [q|] eqn:Eq; [|discriminate]. rewrite nth_error_app1 by eauto.
          destruct (nth_error (w_ev w) (p_ev q)) as [f|] eqn:Ef; [|discriminate]. cbn. intros [= <-].
          apply (OTHER (join (w_clock w) q f)); auto. apply (G k). unfold load. now rewrite Eq, Ef.
      + intros q k. rewrite nth_error_upd, upd_length. destruct (i =? k); [destruct (i <? _)|]; try discriminate; [intros [= <-]; cbn|]; eauto.
      + intros k z. unfold load. cbn. rewrite nth_error_upd. destruct (Nat.eqb_spec i k) as [->|NE].
        * destruct (k <? _); [|discriminate]. cbn. rewrite nth_error_upd, Nat.eqb_refl. destruct (_ <? _); [|discriminate]. cbn. intros [= <-]. now rewrite join_split.
        * destruct (nth_error (w_pq w) k) as [q|] eqn:Eq; [|discriminate]. rewrite nth_error_upd.
          destruct (Nat.eqb_spec (p_ev p) (p_ev q)) as [SH|NS].
          -- destruct (_ <? _); [|discriminate]. cbn. intros [= <-].
             assert (FZ : fine (join (w_clock w) q e)) by (apply (G k); unfold load; now rewrite Eq, <- SH, Ee).
             assert (EV' : is_eval o -> kind x = EvNone \/ kind x = EvBasic).
             { intros HE. destruct (EV HE) as [OW|BA]; [exfalso; apply NE; symmetry; apply (OW k p q); auto|now apply BA]. }
             destruct (shared_step x o FX SO ER EV') as (q1 & q2 & q3 & q4 & q5 & q6 & q7).
             pose proof (fine_vtick _ FY) as VY.
             apply (fine_change (join (w_clock w) q e) _ FZ); cbn; auto; rewrite ?q1, ?q2, ?q3, ?q4, ?q5; try (rewrite <- EX; reflexivity); try lia.
             ++ destruct q6 as [q6|q6]; [left; rewrite q6|right]; rewrite <- EX in *; auto.
             ++ destruct q7 as [q7|q7]; [left; rewrite q7; now rewrite <- EX|]. destruct MC as [MC|MC]; [contradiction|auto].
          -- destruct (nth_error (w_ev w) (p_ev q)) as [f|] eqn:Ef; [|discriminate]. cbn. intros [= <-].
             apply (OTHER (join (w_clock w) q f)); auto. apply (G k). unfold load. now rewrite Eq, Ef.
  Qed.
  Lemma wrun_fine l : forall w, (0 <= w_clock w)%Z -> fair_run K close wt w l -> all_fine w -> all_fine (fold_left (wstep K close) l w).
  Proof. induction l as [|c l IH]; intros w C0 F G; cbn; auto. destruct F as [F1 F2]. apply IH; auto.
    - pose proof (wstep_clock w c). lia.
    - now apply wstep_fine.
  Qed.
  Lemma wstart_fine : all_fine wstart.
  Proof. split; intros; destruct i; discriminate. Qed.
End Proofs.
