(** C76: copies of calculators. *)
From Verif Require Import Base StructDiff StructDiffSpec Evaluator EvaluatorSpec EvaluatorExample Copies CopiesSpec CopiesProofs.
Open Scope nat_scope.

(** C76, the part that holds: any number of calculators, made new, by copying and by assignment; as long as every
    evaluation is one with a BASIC evaluator or with an evaluator that is not shared, eval(s) returns the sum over all pairs
    of [s] for the configuration of that calculator, whatever was done with its copies. *)
Theorem C76_copies_partial : forall (stru cfg bond V : Type) (K : calc stru cfg bond V)
    (opp : V -> V) (pairs : cfg -> stru -> nat -> nat -> list bond) (A E : Type)
    (atoms : stru -> list A) (env : stru -> E) (wt : cfg -> E -> Z -> nat -> A -> nat -> A -> V),
  calc_ok K opp pairs atoms env wt ->
  forall (close : V -> V -> bool) (l : list (call stru cfg)) (i : nat) (s : stru),
  fair_run K close wt wstart (l ++ [On i (OpEval s)]) -> i < length (w_pq (wrun K close l)) ->
  exists y, load (wrun K close (l ++ [On i (OpEval s)])) i = Some y /\ val y = total K pairs (fullsum y) (cf y) s /\ ms y = s.
Proof.
  intros * OK close l i s FR IL.
  assert (FR' : fair_run K close wt wstart l).
  { clear IL. revert FR. generalize (@wstart stru cfg V). induction l as [|c l IH]; intros w F; [exact I|]. destruct F as [F1 F2]. split; auto. }
  destruct (wrun_fine K opp pairs atoms env wt OK close l wstart (Z.le_refl 0) FR' (wstart_fine K pairs wt)) as [B G]. fold (wrun K close l) in B, G.
  unfold wrun. rewrite fold_left_app. fold (wrun K close l). cbn [fold_left wstep]. unfold perform.
  destruct (nth_error (w_pq (wrun K close l)) i) as [p|] eqn:Ep; [|apply nth_error_None in Ep; lia].
  pose proof (B p i Ep) as BP. destruct (nth_error (w_ev (wrun K close l)) (p_ev p)) as [e|] eqn:Ee; [|apply nth_error_None in Ee; lia].
  assert (EL : load (wrun K close l) i = Some (join (w_clock (wrun K close l)) p e)) by (unfold load; now rewrite Ep, Ee).
  rewrite EL. cbn [replaces]. exists (step K close (OpEval s) (join (w_clock (wrun K close l)) p e)). split.
  - unfold load. cbn. rewrite upd_same by auto. cbn. rewrite upd_same by auto. cbn. f_equal. apply join_split.
  - destruct (G i _ EL) as (X & I1 & E0 & F). split.
    + apply (fine_eval K opp pairs atoms env wt OK close). now apply (G i).
    + destruct (EvaluatorRun.eval_good K opp pairs atoms env wt OK close 1 (le_n 1) _ F X s X I1) as [_ [G1 _]]. cbv beta in G1. rewrite E0 in G1. exact G1.
Qed.
Print Assumptions C76_copies_partial.

(** A change of the evaluator type gives the calculator an evaluator of its own, and the copies keep theirs. *)
Theorem C76_type_change_separates : forall (stru cfg bond V : Type) (K : calc stru cfg bond V) (close : V -> V -> bool)
    (w : world stru cfg V) (i : nat) (t : evtype) x y,
  (forall p j, nth_error (w_pq w) j = Some p -> p_ev p < length (w_ev w)) ->
  load w i = Some x -> kind x <> t -> setEvaluatorType K t x = Ok y ->
  let w' := wstep K close w (On i (OpSetType t)) in
  own_evaluator w' i /\ load w' i = Some y /\ (forall j, j <> i -> load w' j = load w j).
Proof.
  intros * B L NK SE w'.
  assert (R : replaces K (OpSetType t) x = true).
  { cbn. rewrite SE. destruct (evtype_eqb (kind x) t) eqn:E; auto. exfalso. apply NK. destruct (kind x), t; auto; discriminate. }
  pose proof L as L'. unfold load in L'. destruct (nth_error (w_pq w) i) as [p|] eqn:Ep; [|discriminate].
  assert (IL : i < length (w_pq w)) by (apply nth_error_Some; congruence).
  assert (CY : clock y = w_clock w).
  { destruct (nth_error (w_ev w) (p_ev p)) as [e|]; [|discriminate]. injection L' as <-. unfold setEvaluatorType in SE. cbn [kind] in SE.
    destruct (evtype_eqb _ t); [now injection SE as <-|]. destruct t; try discriminate; try (injection SE as <-; reflexivity); destruct (has_stash K); try discriminate; injection SE as <-; reflexivity. }
  subst w'. cbn [wstep]. unfold perform. rewrite Ep, L, R. cbn [step]. rewrite SE. cbn [state_of]. split; [|split].
  - intros j q r. cbn. rewrite upd_same by auto. intros [= <-]. rewrite nth_error_upd. destruct (Nat.eqb_spec i j) as [->|N]; auto. intros Hr HE. specialize (B r j Hr). cbn in HE. lia.
  - unfold load. cbn. rewrite upd_same by auto. cbn. rewrite nth_error_app2 by auto. rewrite Nat.sub_diag. cbn. f_equal. apply join_split.
  - intros j N. unfold load. cbn. rewrite upd_other by auto. destruct (nth_error (w_pq w) j) as [q|] eqn:Eq; auto. rewrite nth_error_app1 by eauto. now rewrite CY.
Qed.
Print Assumptions C76_type_change_separates.

(** C76, defect: with the OPTIMIZED evaluator a copy is not independent. After eval(s1), copying, and eval(s2) on the
    copy, eval(s2) on the original returns the value of s1. *)
Theorem C76_copies_refuted :
  exists (c : ecfg) (s1 s2 : list Z) y, let l := [New c [] EvOptimized false true; On 0 (OpEval s1); Copy 0; On 1 (OpEval s2); On 0 (OpEval s2)] in
    load (wrun EK Z.eqb l) 0 = Some y /\ ms y = s2 /\ cf y = c /\ val y = total EK epairs (fullsum y) c s1 /\ val y <> total EK epairs (fullsum y) c s2.
Proof.
  exists {| reach := 10; nopairs := [] |}, [0; 3]%Z, [0; 4]%Z. eexists. cbv zeta. split; [vm_compute; reflexivity|]. repeat split; vm_compute; try reflexivity. discriminate.
Qed.
Print Assumptions C76_copies_refuted.

(** the same history with a change of the type of the copy in between is fair, and right *)
Example C76_nonvacuous :
  let c := {| reach := 10; nopairs := [] |} in let s1 := [0; 3]%Z in let s2 := [0; 4]%Z in
  let l := [New c [] EvOptimized false true; On 0 (OpEval s1); Copy 0; On 1 (OpSetType EvBasic); On 1 (OpEval s2); On 1 (OpSetType EvOptimized); On 1 (OpEval s1)] in
  fair_run EK Z.eqb ew wstart (l ++ [On 0 (OpEval s2)]) /\ length (w_pq (wrun EK Z.eqb l)) = 2 /\
  option_map val (load (wrun EK Z.eqb (l ++ [On 0 (OpEval s2)])) 0) = Some 32%Z.
Proof.
  cbv zeta. split; [|split; vm_compute; reflexivity].
  assert (OWN0 : forall w i (p : pq), w_pq w = [p] -> own_evaluator (stru := list Z) (cfg := ecfg) (V := Z) w i).
  { intros w i p E j q r Hi Hj _. rewrite E in *. destruct i as [|[|i]], j as [|[|j]]; cbn in *; auto; discriminate. }
  assert (OWN : forall w i (p q : pq), w_pq w = [p; q] -> p_ev p <> p_ev q -> own_evaluator (stru := list Z) (cfg := ecfg) (V := Z) w i).
  { intros w i p q E N j a b Hi Hj HE. rewrite E in *. destruct i as [|[|[|i]]], j as [|[|[|j]]]; cbn in *; auto; try discriminate; injection Hi as <-; injection Hj as <-; congruence. }
  cbn [app fair_run fair]. repeat split; try exact I; try (right; exact EK_two_way); try (left; exact I); try (left; reflexivity); intros HE; try (destruct HE; fail); left.
  - eapply OWN0. vm_compute. reflexivity.
  - eapply OWN; [vm_compute; reflexivity|vm_compute; lia].
  - eapply OWN; [vm_compute; reflexivity|vm_compute; lia].
  - eapply OWN; [vm_compute; reflexivity|vm_compute; lia].
Qed.
