(** Properties C24-C27 and a part of C52: BondCalculator. *)
From Coq Require Import Sorting.Sorted.
From Verif Require Import RBase R3 Trig Lattice BondGen StructDiff StructDiffSpec Evaluator EvaluatorSpec
  BondCalc BondCalcSpec BondCalcSim BondCalcMain EvaluatorExample BondCalcExample.
Open Scope nat_scope.

(** C24: after any history of evaluations and configuration changes, with the BASIC or OPTIMIZED evaluator, the
    result of eval(s) is the list of all bonds of [s] that pass masks and filters, each as often as it occurs
    (Permutation), ordered by distance, sites and direction; the accessors return the columns of that one list. *)
Theorem C24_bonds_complete_and_sorted : forall (stru cfg V0 : Type) (W : calc stru cfg bond V0) (cone : cfg -> cones)
    (pairs : cfg -> stru -> nat -> nat -> list bond) (A E : Type) (atoms : stru -> list A) (env : stru -> E)
    (we : cfg -> E -> nat -> A -> nat -> A -> list bentry), world_ok W cone pairs atoms env we ->
  forall (close : bval -> bval -> bool) (c : cfg) (e : stru) (t : evtype) (ops : list (op stru cfg)) (s : stru),
  t <> EvCheck -> Forall bond_op ops ->
  let K := bond_calc W cone in
  let x := run K close (ops ++ [OpEval s]) (init K c e t true true 0 1) in
  exists l, in_order l /\ Permutation l (all_bonds W cone pairs (cf x) s) /\
    bvalue (val x) = map e_dist l /\ distances (val x) = map e_dist l /\ StronglySorted Rle (distances (val x)) /\
    directions (val x) = map (fun b => V3 (e_d0 b) (e_d1 b) (e_d2 b)) l /\
    sites0 (val x) = map e_s0 l /\ sites1 (val x) = map e_s1 l.
Proof. exact @bonds_of_history. Qed.
Print Assumptions C24_bonds_complete_and_sorted.

(** C25: the value depends on the last structure and the present configuration only: whatever fast updates were
    made before, eval(s) gives what a new calculator with the BASIC evaluator gives (take ops' = []). *)
Theorem C25_fast_update_exact : forall (stru cfg V0 : Type) (W : calc stru cfg bond V0) (cone : cfg -> cones)
    (pairs : cfg -> stru -> nat -> nat -> list bond) (A E : Type) (atoms : stru -> list A) (env : stru -> E)
    (we : cfg -> E -> nat -> A -> nat -> A -> list bentry), world_ok W cone pairs atoms env we ->
  forall (close close' : bval -> bval -> bool) (c : cfg) (e : stru) (t : evtype) (ops : list (op stru cfg))
    (c' : cfg) (e' : stru) (t' : evtype) (ops' : list (op stru cfg)) (s : stru),
  t <> EvCheck -> Forall bond_op ops -> t' <> EvCheck -> Forall bond_op ops' ->
  let K := bond_calc W cone in
  let x := run K close (ops ++ [OpEval s]) (init K c e t true true 0 1) in
  let x' := run K close' (ops' ++ [OpEval s]) (init K c' e' t' true true 0 1) in
  cf x = cf x' -> val x = val x'.
Proof. exact @same_bonds. Qed.
Print Assumptions C25_fast_update_exact.

(** C26: two or more new workers, with the same settings, evaluate [s]; their data merged in any order into a
    calculator that was reset give the value of a serial evaluation. *)
Theorem C26_parallel_merge_is_serial : forall (stru cfg V0 : Type) (W : calc stru cfg bond V0) (cone : cfg -> cones)
    (close : bval -> bval -> bool) (c : cfg) (e : stru) (t : evtype) (ops : list (op stru cfg)) (s : stru)
    (N : nat) (order : list nat),
  2 <= N -> Forall setup_op ops -> Permutation order (seq 0 N) ->
  let K := bond_calc W cone in
  let x k n := run K close (ops ++ [OpEval s]) (init K c e t true true k n) in
  merge_all (map (fun k => getParallelData (val (x k N))) order) N (bzero, 0) = Ok (val (x 0 1), N).
Proof. exact @parallel_bonds. Qed.
Print Assumptions C26_parallel_merge_is_serial.

(** C26, defect: one worker. isParallel() is false with one CPU, so finishValue has already emptied the lists that
    getParallelData sends; the merged result has no bonds. *)
Theorem C26_single_worker_refuted : forall (stru cfg V0 : Type) (W : calc stru cfg bond V0) (cone : cfg -> cones)
    (close : bval -> bval -> bool) (c : cfg) (e : stru) (t : evtype) (ops : list (op stru cfg)) (s : stru),
  Forall setup_op ops ->
  let K := bond_calc W cone in
  let x := run K close (ops ++ [OpEval s]) (init K c e t true true 0 1) in
  exists v, merge_all [getParallelData (val x)] 1 (bzero, 0) = Ok (v, 1) /\ bonds v = [].
Proof. exact @one_worker. Qed.
Print Assumptions C26_single_worker_refuted.

(** C26, defect: workers that evaluate a second time with the OPTIMIZED evaluator send only the differences from
    their previous evaluation; the merged result has none of the two bonds of the structure. *)
Theorem C26_reused_workers_refuted :
  let x k n := run ZK bclose [OpEval [0; 3]%Z; OpEval [0; 3]%Z] (init ZK (zc 10) [] EvOptimized true true k n) in
  merge_all (map (fun k => getParallelData (val (x k 2))) [0; 1]) 2 (bzero, 0) = Ok (bzero, 2) /\
  length (bonds (val (x 0 1))) = 2.
Proof. exact (conj reused serial_two). Qed.
Print Assumptions C26_reused_workers_refuted.

(** C27: after any calls of filterCone and filterOff a bond passes if no filter is in force or if it is inside of
    at least one cone; opening angles of 180 degrees and more accept every direction (see [accepted]). *)
Theorem C27_cone_filters : forall (ops : list cone_op) (b : bond),
  b_distance b = vnorm (b_r01 b) -> (0 < b_distance b)%R ->
  (passes (cone_run ops) b = true <-> accepted (active ops) (b_r01 b)).
Proof. exact cone_filters. Qed.
Print Assumptions C27_cone_filters.

(** C27: the ticker clicks when the filters change, and a call that changes nothing changes nothing. *)
Theorem C27_cone_clicks : forall (ops : list cone_op) (o : cone_op),
  (active (ops ++ [o]) = active ops /\ cone_run (ops ++ [o]) = cone_run ops) \/
  (active (ops ++ [o]) <> active ops /\ c_clicks (cone_run (ops ++ [o])) = S (c_clicks (cone_run ops))).
Proof. exact cone_clicks. Qed.
Print Assumptions C27_cone_clicks.
(** C27: a zero axis is refused and changes nothing. *)
Theorem C27_cone_axis_error : forall (axis : vec) (deg : R) (x : cones),
  (vnorm axis <= / 67108864)%R -> filterCone axis deg x = Throw InvalidArgument x.
Proof. exact cone_error. Qed.
Print Assumptions C27_cone_axis_error.

(** C52, defect: the CHECK evaluator compares lists that finishValue has not processed, so with a BondCalculator it
    throws logic_error at every fast update of a list of bonds that is not empty. *)
Theorem C52_check_bonds_refuted : forall (stru cfg V0 : Type) (W : calc stru cfg bond V0) (cone : cfg -> cones)
    (s : stru) (x : st stru cfg bval),
  let K := bond_calc W cone in
  kind x = EvCheck -> bonds (val x) <> [] -> used (optimized_update K s x) <> EvBasic ->
  exists y, eval K bclose s x = Throw LogicError y.
Proof. exact @check_throws. Qed.
Print Assumptions C52_check_bonds_refuted.

(** The hypotheses are met: atoms on a line, with a fast update; and a CHECK calculator with bonds. *)
Example C24_nonvacuous : world_ok ZW snd zpairs (fun s => s) (fun _ => tt) zwe /\
  used (run ZK bclose [OpEval s6; OpEval s6'] (init ZK (zc 10) [] EvOptimized true true 0 1)) = EvOptimized /\
  length (all_bonds ZW snd zpairs (zc 10) s6') = 14.
Proof. exact (conj ZW_ok (conj fast_used eq_refl)). Qed.
Example C52_nonvacuous_bonds : kind xcheck = EvCheck /\ bonds (val xcheck) <> [] /\ used (optimized_update ZK s6' xcheck) <> EvBasic.
Proof. exact xcheck_ok. Qed.
Example C27_nonvacuous : let b := zbond 0 1 1 3 in b_distance b = vnorm (b_r01 b) /\ (0 < b_distance b)%R /\
  length (active [FilterCone (V3 1 0 0) 10; FilterOff; FilterCone (V3 0 2 0) 100; FilterCone vzero 5]) = 1.
Proof.
  cbv zeta. unfold zbond. cbn [b_distance b_r01]. split; [|split; [cbn; lra|]].
  - unfold vnorm, vdot. cbn [vx vy vz]. replace (Z.abs (3 - 1)) with 2%Z by reflexivity. replace (3 - 1)%Z with 2%Z by reflexivity.
    symmetry. rewrite Rmult_0_l, !Rplus_0_r. apply sqrt_square. lra.
  - unfold active. cbn [fold_left active_step].
    assert (N1 : vnorm (V3 1 0 0) = 1%R) by (unfold vnorm, vdot; cbn [vx vy vz]; rewrite Rmult_0_l, !Rplus_0_r, Rmult_1_l; apply sqrt_1).
    assert (N2 : vnorm (V3 0 2 0) = 2%R).
    { unfold vnorm, vdot. cbn [vx vy vz]. rewrite Rmult_0_l, Rplus_0_l, Rplus_0_r. apply sqrt_square. lra. }
    assert (N0 : vnorm vzero = 0%R).
    { unfold vnorm, vdot, vzero. cbn [vx vy vz]. rewrite Rmult_0_l, !Rplus_0_r. apply sqrt_0. }
    rewrite N0, N2. repeat (destruct (Rlt_dec _ _); try (exfalso; lra)). reflexivity.
Qed.
