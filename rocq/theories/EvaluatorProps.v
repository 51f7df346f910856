(** Properties C09, C10, C12, C13, C14, C48, C52, C53: evaluators. *)
From Verif Require Import Base StructDiff StructDiffSpec Evaluator EvaluatorSpec EvaluatorHist EvaluatorRun
  EvaluatorMore EvaluatorExample.
Open Scope nat_scope.

(** C09: for any number of CPUs, the pair contributions made by all of them together are those of a serial
    evaluation: every unmasked bond once, with its weight, on exactly one CPU. *)
Theorem C09_parallel_work_partition : forall (stru cfg bond V : Type) (K : calc stru cfg bond V)
    (c : cfg) (s : stru) (full : bool) (ncpu : nat),
  1 <= ncpu -> (forall i j, hasmask K c = false -> mask K c s i j = true) ->
  Permutation (flat_map (fun k => basic_trace K c s full k ncpu) (seq 0 ncpu)) (serial_work K c s full).
Proof. exact @work_partition. Qed.
Print Assumptions C09_parallel_work_partition.

(** C10: any number of workers with the same history of evaluations and configuration changes; their values
    added up in any order are the sum over all pairs of sites of the structure, i.e. the serial result. *)
Theorem C10_merged_parallel_is_total : forall (stru cfg bond V : Type) (K : calc stru cfg bond V)
    (opp : V -> V) (pairs : cfg -> stru -> nat -> nat -> list bond) (A E : Type)
    (atoms : stru -> list A) (env : stru -> E) (w : cfg -> E -> Z -> nat -> A -> nat -> A -> V),
  calc_ok K opp pairs atoms env w ->
  forall (close : V -> V -> bool) (N : nat) (fixed : bool) (c : cfg) (e : stru) (t : evtype) (full : bool)
         (ops : list (op stru cfg)) (s : stru) (order : list nat),
  1 <= N -> fixed = true \/ index_free K w ->
  Forall safe_op ops -> mode_ok K w full ops ->
  Permutation order (seq 0 N) ->
  let x k := run K close (ops ++ [OpEval s]) (init K c e t full fixed k N) in
  fold_left (fun acc k => add K acc (val (x k))) order (zero K) = total K pairs (fullsum (x 0)) (cf (x 0)) s.
Proof. exact @merged_history. Qed.
Print Assumptions C10_merged_parallel_is_total.

(** C12: the sum over unordered pairs with double weight is the full sum over ordered pairs. *)
Theorem C12_half_sum_is_full_sum : forall (stru cfg bond V : Type) (K : calc stru cfg bond V)
    (opp : V -> V) (pairs : cfg -> stru -> nat -> nat -> list bond) (A E : Type)
    (atoms : stru -> list A) (env : stru -> E) (w : cfg -> E -> Z -> nat -> A -> nat -> A -> V),
  calc_ok K opp pairs atoms env w ->
  forall (c : cfg) (s : stru), two_way w -> doubling K -> half_total K pairs c s = full_total K pairs c s.
Proof. exact @half_is_full. Qed.
Print Assumptions C12_half_sum_is_full_sum.

(** C12: and each kind of sum is what a serial evaluation in that mode returns, from any state. *)
Theorem C12_basic_value : forall (stru cfg bond V : Type) (K : calc stru cfg bond V)
    (opp : V -> V) (pairs : cfg -> stru -> nat -> nat -> list bond) (A E : Type)
    (atoms : stru -> list A) (env : stru -> E) (w : cfg -> E -> Z -> nat -> A -> nat -> A -> V),
  calc_ok K opp pairs atoms env w ->
  forall (s : stru) (x : st stru cfg V), ncpu x = 1 ->
  let y := basic_update K s x in
  val y = if fullsum y then full_total K pairs (cf y) s else half_total K pairs (cf y) s.
Proof. intros. now apply (basic_value K opp pairs atoms env w). Qed.
Print Assumptions C12_basic_value.

(** C13: whatever was evaluated and configured before, and whatever the evaluator type is (BASIC, OPTIMIZED or
    CHECK, or changed on the way), eval(s) returns the sum over all pairs of [s] for the present configuration. *)
Theorem C13_value_of_any_history : forall (stru cfg bond V : Type) (K : calc stru cfg bond V)
    (opp : V -> V) (pairs : cfg -> stru -> nat -> nat -> list bond) (A E : Type)
    (atoms : stru -> list A) (env : stru -> E) (w : cfg -> E -> Z -> nat -> A -> nat -> A -> V),
  calc_ok K opp pairs atoms env w ->
  forall (close : V -> V -> bool) (fixed : bool) (c : cfg) (e : stru) (t : evtype) (full : bool)
         (ops : list (op stru cfg)) (s : stru),
  fixed = true \/ index_free K w ->
  Forall safe_op ops -> mode_ok K w full ops ->
  let x := run K close (ops ++ [OpEval s]) (init K c e t full fixed 0 1) in
  val x = total K pairs (fullsum x) (cf x) s.
Proof. exact @serial_history. Qed.
Print Assumptions C13_value_of_any_history.

(** C13, as a comparison: an OPTIMIZED calculator after any history agrees with a new BASIC one. *)
Theorem C13_optimized_equals_basic : forall (stru cfg bond V : Type) (K : calc stru cfg bond V)
    (opp : V -> V) (pairs : cfg -> stru -> nat -> nat -> list bond) (A E : Type)
    (atoms : stru -> list A) (env : stru -> E) (w : cfg -> E -> Z -> nat -> A -> nat -> A -> V),
  calc_ok K opp pairs atoms env w ->
  forall (close : V -> V -> bool) (fixed : bool) (c : cfg) (e : stru) (full : bool)
         (ops : list (op stru cfg)) (s : stru),
  fixed = true \/ index_free K w ->
  Forall safe_op ops -> mode_ok K w full ops ->
  let x := run K close (ops ++ [OpEval s]) (init K c e EvOptimized full fixed 0 1) in
  let b := run K close [OpEval s] (init K (cf x) e EvBasic (fullsum x) fixed 0 1) in
  cf b = cf x -> val x = val b.
Proof.
  intros stru cfg bond V K opp pairs A E atoms env w OK close fixed c e full ops s HF Hs Hm x b Hb.
  pose proof (serial_history K opp pairs atoms env w OK close fixed c e EvOptimized full ops s HF Hs Hm) as H1.
  pose proof (basic_value K opp pairs atoms env w OK s (set_used EvNone (init K (cf x) e EvBasic (fullsum x) fixed 0 1)) eq_refl) as H2.
  cbv zeta in H1. fold x in H1. rewrite H1.
  assert (Eb : b = basic_update K s (set_used EvNone (init K (cf x) e EvBasic (fullsum x) fixed 0 1))).
  { unfold b, run. cbn [fold_left step]. now rewrite (eval_update K opp pairs atoms env w OK). }
  rewrite <- Eb in H2. rewrite H2, Hb. f_equal.
  rewrite Eb. unfold basic_update, setStructure; cbn. now destruct (custom K s (cf x)).
Qed.
Print Assumptions C13_optimized_equals_basic.

(** C14, defect: with the OPTIMIZED evaluator setStructure(s) followed by eval() returns zeros when [s] was
    evaluated before, although a BASIC calculator returns the sum. *)
Theorem C14_eval_after_setStructure_refuted :
  exists (c : ecfg) (s : list Z),
    let ops := [OpEval s; OpSetStructure s; OpEvalCurrent] in
    val (run EK Z.eqb ops (init EK c [] EvOptimized false true 0 1)) = 0%Z /\
    val (run EK Z.eqb ops (init EK c [] EvBasic false true 0 1)) = 18%Z /\
    total EK epairs false c s = 18%Z.
Proof.
  exists {| reach := 10; nopairs := [] |}, [0%Z; 3%Z]. cbv zeta. repeat split; vm_compute; reflexivity.
Qed.
Print Assumptions C14_eval_after_setStructure_refuted.

(** C14, the part that holds: with the BASIC evaluator after any history of operations in serial ... *)
Theorem C14_eval_after_setStructure_basic_partial : forall (stru cfg bond V : Type) (K : calc stru cfg bond V)
    (opp : V -> V) (pairs : cfg -> stru -> nat -> nat -> list bond) (A E : Type)
    (atoms : stru -> list A) (env : stru -> E) (w : cfg -> E -> Z -> nat -> A -> nat -> A -> V),
  calc_ok K opp pairs atoms env w ->
  forall (close : V -> V -> bool) (c : cfg) (e : stru) (full fixed : bool) (ops : list (op stru cfg)),
  Forall basic_op ops ->
  let x0 := run K close ops (init K c e EvBasic full fixed 0 1) in
  let x := step K close OpEvalCurrent x0 in
  val x = total K pairs (fullsum x) (cf x) (ms x0).
Proof. exact @basic_eval_current. Qed.
Print Assumptions C14_eval_after_setStructure_basic_partial.

(** ... with any evaluator when nothing was evaluated before ... *)
Theorem C14_eval_after_setStructure_first_partial : forall (stru cfg bond V : Type) (K : calc stru cfg bond V)
    (opp : V -> V) (pairs : cfg -> stru -> nat -> nat -> list bond) (A E : Type)
    (atoms : stru -> list A) (env : stru -> E) (w : cfg -> E -> Z -> nat -> A -> nat -> A -> V),
  calc_ok K opp pairs atoms env w ->
  forall (close : V -> V -> bool) (c : cfg) (e : stru) (t : evtype) (full fixed : bool) (ops : list (op stru cfg)),
  Forall before_eval ops ->
  let x0 := run K close ops (init K c e t full fixed 0 1) in
  let x := step K close OpEvalCurrent x0 in
  val x = total K pairs (fullsum x) (cf x) (ms x0).
Proof. exact @first_eval_current. Qed.
Print Assumptions C14_eval_after_setStructure_first_partial.

(** ... and with any evaluator after any history without setStructure. *)
Theorem C14_eval_current_partial : forall (stru cfg bond V : Type) (K : calc stru cfg bond V)
    (opp : V -> V) (pairs : cfg -> stru -> nat -> nat -> list bond) (A E : Type)
    (atoms : stru -> list A) (env : stru -> E) (w : cfg -> E -> Z -> nat -> A -> nat -> A -> V),
  calc_ok K opp pairs atoms env w ->
  forall (close : V -> V -> bool) (fixed : bool) (c : cfg) (e : stru) (t : evtype) (full : bool) (ops : list (op stru cfg)),
  fixed = true \/ index_free K w ->
  Forall safe_op ops -> mode_ok K w full ops ->
  let x0 := run K close ops (init K c e t full fixed 0 1) in
  let x := step K close OpEvalCurrent x0 in
  val x = total K pairs (fullsum x) (cf x) (ms x0).
Proof. exact @serial_history_current. Qed.
Print Assumptions C14_eval_current_partial.

(** C48: setEvaluatorType either throws invalid_argument and leaves the calculator exactly as it was, or
    installs the type and keeps the flags, the parallel setup, the configuration and the structure; asking for the
    present type changes nothing, another type resets the value. *)
Theorem C48_evaluator_type_change : forall (stru cfg bond V : Type) (K : calc stru cfg bond V)
    (t : evtype) (x : st stru cfg V),
  match setEvaluatorType K t x with
  | Ok y => kind y = t /\ cf y = cf x /\ ms y = ms x /\ fullsum y = fullsum x /\ fixedidx y = fixedidx x /\
            cpu y = cpu x /\ ncpu y = ncpu x /\ ptick y = ptick x /\
            (kind x = t -> y = x) /\ (kind x <> t -> val y = zero K)
  | Throw e y => e = InvalidArgument /\ y = x /\ kind x <> t /\
                 (t = EvNone \/ (has_stash K = false /\ (t = EvOptimized \/ t = EvCheck)))
  | UB => False
  end.
Proof. exact @type_change_atomic. Qed.
Print Assumptions C48_evaluator_type_change.

(** C52: in serial runs the CHECK evaluator never reports an inconsistency, after any history. *)
Theorem C52_check_never_fails_serial : forall (stru cfg bond V : Type) (K : calc stru cfg bond V)
    (opp : V -> V) (pairs : cfg -> stru -> nat -> nat -> list bond) (A E : Type)
    (atoms : stru -> list A) (env : stru -> E) (w : cfg -> E -> Z -> nat -> A -> nat -> A -> V),
  calc_ok K opp pairs atoms env w ->
  forall (close : V -> V -> bool) (fixed : bool),
  fixed = true \/ index_free K w ->
  forall (c : cfg) (e : stru) (t : evtype) (full : bool) (ops : list (op stru cfg)) (s : stru),
  (forall v, close v v = true) ->
  (forall s c, fst (custom K s (fst (custom K s c))) = fst (custom K s c)) ->
  Forall safe_op ops -> mode_ok K w full ops ->
  exists y, eval K close s (run K close ops (init K c e t full fixed 0 1)) = Ok y.
Proof.
  intros stru cfg bond V K opp pairs A E atoms env w OK close fixed HF c e t full ops s.
  exact (check_passes K opp pairs atoms env w OK close 1 (le_n 1) fixed HF c e t full ops s eq_refl).
Qed.
Print Assumptions C52_check_never_fails_serial.

(** C52, defect: with two CPUs the CHECK evaluator throws logic_error on a correct evaluation, because the fast
    update and the complete evaluation share the pairs among the CPUs differently. *)
Theorem C52_check_parallel_refuted :
  exists (c : ecfg) (s0 s1 : list Z) (y : st (list Z) ecfg Z),
    eval EK Z.eqb s1 (run EK Z.eqb [OpEval s0] (init EK c [] EvCheck false true 0 2)) = Throw LogicError y.
Proof.
  exists {| reach := 100; nopairs := [] |}, [1; 2; 4; 8; 16; 32]%Z, [1; 3; 4; 8; 16; 32]%Z.
  eexists. vm_compute. reflexivity.
Qed.
Print Assumptions C52_check_parallel_refuted.

(** C53, defect: setupParallelRun does not invalidate the value kept by the OPTIMIZED evaluator.  Two
    calculators that were used in serial and are then set up as two workers both return the whole sum. *)
Theorem C53_parallel_setup_after_evaluation_refuted :
  exists (c : ecfg) (s : list Z),
    let x k := run EK Z.eqb [OpEval s; OpParallel k 2; OpEval s] (init EK c [] EvOptimized false true 0 1) in
    add EK (val (x 0)) (val (x 1)) = 36%Z /\ total EK epairs false c s = 18%Z.
Proof.
  exists {| reach := 10; nopairs := [] |}, [0%Z; 3%Z]. split; vm_compute; reflexivity.
Qed.
Print Assumptions C53_parallel_setup_after_evaluation_refuted.

(** C53, the part that holds: a calculator that is set up before its first evaluation is the worker of C10. *)
Theorem C53_parallel_setup_first_partial : forall (stru cfg bond V : Type) (K : calc stru cfg bond V)
    (c : cfg) (e : stru) (t : evtype) (full fixed : bool) (k n k' n' : nat), 1 <= n ->
  setupParallelRun k n (init K c e t full fixed k' n') = Ok (init K c e t full fixed k n).
Proof.
  intros * H. unfold setupParallelRun. destruct (Nat.ltb_spec n 1); [lia|reflexivity].
Qed.
Print Assumptions C53_parallel_setup_first_partial.

(** *** The hypotheses are met by a concrete calculator *)
Example C13_nonvacuous : calc_ok EK Z.opp epairs (fun s => s) (fun _ => tt) ew /\ index_free EK ew /\ two_way ew /\ doubling EK.
Proof. exact (conj EK_ok (conj EK_index_free (conj EK_two_way EK_doubling))). Qed.
(** a history with fast updates by both methods, a pair mask, a change of range and of evaluator type *)
Definition c13 : ecfg := {| reach := 100; nopairs := [] |}.
Definition ops13 : list (op (list Z) ecfg) :=
  [OpEval [1; 2; 4; 8; 16; 32]%Z; OpEval [1; 3; 4; 8; 16; 32]%Z; OpEval [32; 16; 8; 4; 1; 3; 3]%Z;
   OpConfigure (fun c => {| reach := 9; nopairs := [(2, 0)] |}); OpEvalCurrent; OpFullSum true;
   OpSetType EvCheck; OpEval [1; 3; 4; 8; 16; 32]%Z].
Example C13_nonvacuous_history :
  Forall safe_op ops13 /\
  used (run EK Z.eqb (firstn 2 ops13) (init EK c13 [] EvOptimized false false 0 1)) = EvOptimized /\
  used (run EK Z.eqb (firstn 3 ops13) (init EK c13 [] EvOptimized false false 0 1)) = EvOptimized /\
  diffmethod (ediff [1; 3; 4; 8; 16; 32]%Z [32; 16; 8; 4; 1; 3; 3]%Z) = SORTED /\
  val (run EK Z.eqb (ops13 ++ [OpEval [1; 3; 4; 8; 16; 33]%Z]) (init EK c13 [] EvOptimized false false 0 1)) = 318%Z.
Proof. split; [repeat constructor|]. vm_compute. repeat split; reflexivity. Qed.
Example C09_nonvacuous :
  map (fun k => length (basic_trace EK c13 [1; 2; 4; 8; 16; 32]%Z false k 4)) (seq 0 4) = [4; 3; 4; 4] /\
  length (serial_work EK c13 [1; 2; 4; 8; 16; 32]%Z false) = 15.
Proof. split; vm_compute; reflexivity. Qed.
Example C52_nonvacuous :
  exists y, eval EK Z.eqb [1; 3; 4; 8; 16; 32]%Z (run EK Z.eqb [OpEval [1; 2; 4; 8; 16; 32]%Z] (init EK c13 [] EvCheck false true 0 1)) = Ok y /\
            used y = EvCheck /\ val y = 8248%Z.
Proof. eexists. vm_compute. repeat split. Qed.
