(** C83: saving and loading calculators. *)

From Verif Require Import BondGen BondCalc Base Ticker TickerSpec StructDiff StructDiffSpec Evaluator EvaluatorSpec EvaluatorExample Persist PersistSpec PersistProofs.
Open Scope Z_scope.

(** C83: a calculator that was saved, and loaded in a process of the same age of the event counter, answers every further
    sequence of calls as the saved one does: the same values, structure, configuration and exceptions. There is no condition on the
    contributions, so the numbers are equal to the last bit. *)
Theorem C83_restored_calculator : forall (stru cfg bond V : Type) (K : calc stru cfg bond V) (close : V -> V -> bool) (keep : V -> V)
    (c : cfg) (e : stru) (t : evtype) (full fixed : bool) (i n : nat) (before after : list (op stru cfg)) (o : op stru cfg) (g : Z) a,
  let x := run K close before (init K c e t full fixed i n) in
  save keep x = Some a -> keep (val x) = val x -> 0 <= g -> same_age (clock x) g ->
  looks_same (run K close after x) (run K close after (restore g a)) /\
  call_throws K close o (run K close after x) = call_throws K close o (run K close after (restore g a)).
Proof.
  intros * HS HK Hg HA. apply (restored_behaves K close keep); auto. apply run_in_time. split; cbn; lia.
Qed.
Print Assumptions C83_restored_calculator.

(** C83: a calculator that is saved and loaded any number of times, in any processes, between evaluations and changes of the
    configuration: eval(s) returns the sum over all pairs of [s] for the present configuration. *)
Theorem C83_any_life : forall (stru cfg bond V : Type) (K : calc stru cfg bond V)
    (opp : V -> V) (pairs : cfg -> stru -> nat -> nat -> list bond) (A E : Type)
    (atoms : stru -> list A) (env : stru -> E) (w : cfg -> E -> Z -> nat -> A -> nat -> A -> V),
  calc_ok K opp pairs atoms env w ->
  forall (close : V -> V -> bool) (fixed : bool) (c : cfg) (e : stru) (t : evtype) (full : bool) (l : list (act stru cfg)) (s : stru),
  fixed = true \/ index_free K w ->
  Forall act_ok l -> mode_ok K w full (calls l) ->
  let x := live K close (fun v => v) (l ++ [Do (OpEval s)]) (init K c e t full fixed 0 1) in
  val x = total K pairs (fullsum x) (cf x) s.
Proof. intros * OK close fixed c e t full l s HF. exact (live_value K opp pairs atoms env w OK close fixed HF c e t full l s). Qed.
Print Assumptions C83_any_life.

(** C83: the times of the model are those of the tickers: they have the same order, and loading does the same to them. *)
Theorem C83_times : forall g ga a b a' b',
  clock_ok g -> clock_ok ga -> load_tick Strict g a ga = Some a' -> load_tick Strict g b ga = Some b' ->
  load_time (code g) (code a) (code ga) = code a' /\ load_time (code g) (code b) (code ga) = code b' /\
  (in_long (snd a) = true -> in_long (snd b) = true -> (tick_leb a b = true <-> code a <= code b)) /\
  (same_age (code ga) (code g) <-> fst ga <= fst g).
Proof.
  intros * Hg Ha H1 H2. repeat split; auto using load_code; try (now apply code_order).
  - unfold same_age. rewrite (epoch_code g Hg), (epoch_code ga Ha). unfold code, clock_ok, LONG_MAX in *. intros [H|H]; nia.
  - unfold same_age. rewrite (epoch_code g Hg), (epoch_code ga Ha). unfold code, clock_ok, LONG_MAX in *. intros H.
    destruct (Z.eq_dec (fst ga) (fst g)); [right; auto|left; nia].
Qed.
Print Assumptions C83_times.

(** C83, the bond calculator: the lists of removed and added bonds are not saved; in serial runs they are empty whenever the
    calculator can be saved, so C83_restored_calculator holds for it after any history. *)
Definition keep_bonds (v : bval) : bval := {| bonds := bonds v; pops := []; adds := []; bvalue := bvalue v |}.
Theorem C83_bond_calculator : forall (stru cfg V0 : Type) (W : calc stru cfg BondGen.bond V0) (cone : cfg -> cones) (close : bval -> bval -> bool)
    (c : cfg) (e : stru) (t : evtype) (full fixed : bool) (ops : list (op stru cfg)) a,
  Forall (fun o => match o with OpParallel _ _ => False | _ => True end) ops ->
  let x := run (bond_calc W cone) close ops (init (bond_calc W cone) c e t full fixed 0 1) in
  save keep_bonds x = Some a -> keep_bonds (val x) = val x.
Proof.
  intros * HO x HS.
  assert (H : kind x = EvCheck \/ (pops (val x) = [] /\ adds (val x) = [])).
  { assert (G : forall ops y, Forall (fun o => match o with OpParallel _ _ => False | _ => True end) ops ->
      ncpu y = 1%nat -> (kind y = EvCheck \/ (pops (val y) = [] /\ adds (val y) = [])) ->
      let z := run (bond_calc W cone) close ops y in kind z = EvCheck \/ (pops (val z) = [] /\ adds (val z) = [])).
    { clear. induction ops as [|o ops IH]; intros y HO HN HC; cbn; auto. inversion HO as [|? ? Ho HO']; subst.
      assert (P : ncpu (step (bond_calc W cone) close o y) = 1%nat /\ (kind (step (bond_calc W cone) close o y) = EvCheck \/
        (pops (val (step (bond_calc W cone) close o y)) = [] /\ adds (val (step (bond_calc W cone) close o y)) = []))).
      { assert (EV : forall s, let z := state_of (eval (bond_calc W cone) close s y) y in ncpu z = 1%nat /\ (kind z = EvCheck \/ (pops (val z) = [] /\ adds (val z) = []))).
        { intros s. destruct (eval_shape (bond_calc W cone) close s y) as (N & KD & F). cbv zeta. rewrite N, KD, HN. split; auto.
          destruct (kind y) eqn:EK; auto; right; destruct (F ltac:(congruence)) as [v ->]; rewrite HN; cbn; auto. }
        destruct o; cbn [step]; try contradiction.
        - apply EV. - apply EV.
        - cbn. auto.
        - unfold setStructure. destruct (custom _ _ _) as [c' []]; cbn; auto.
        - unfold setEvaluatorType. destruct (evtype_eqb _ _); cbn; auto. destruct t; cbn; auto.
        - cbn. auto. }
      destruct P as [P1 P2]. now apply IH. }
    apply G; auto. }
  destruct H as [H|[H1 H2]]; [unfold save in HS; rewrite H in HS; discriminate|].
  unfold keep_bonds. destruct (val x). cbn in *. congruence.
Qed.
Print Assumptions C83_bond_calculator.

(** C83, defect: a calculator with the CHECK evaluator cannot be saved, and it is the only one. *)
Theorem C83_check_not_saved_refuted : forall (stru cfg V : Type) (keep : V -> V) (x : st stru cfg V),
  save keep x = None <-> kind x = EvCheck.
Proof. intros. unfold save. destruct (kind x); split; congruence. Qed.
Print Assumptions C83_check_not_saved_refuted.

(** *** The hypotheses are met: a calculator that is moved to a process with an older counter and makes a fast update there,
    and one that is moved to another epoch and evaluates anew. *)
Definition c83 : ecfg := {| reach := 100; nopairs := [] |}.
Definition s83 := [1; 2; 4; 8; 16; 32]%Z.
Definition s83' := [1; 3; 4; 8; 16; 32]%Z.
Definition l83 g : list (act (list Z) ecfg) := [Do (OpConfigure (fun c => c)); Do (OpEval s83); Move g].
Example C83_nonvacuous :
  let x := live EK Z.eqb (fun v => v) (l83 1) (init EK c83 [] EvOptimized false true 0 1) in
  let y := live EK Z.eqb (fun v => v) (Do (OpConfigure (fun c => c)) :: l83 (2 ^ 64 + 7)) (init EK c83 [] EvOptimized false true 0 1) in
  let z := live EK Z.eqb (fun v => v) [Do (OpEval s83); Move (2 ^ 64 + 7); Do (OpEval s83); Move 5] (init EK c83 [] EvOptimized false true 0 1) in
  clock x = 1 /\ ptick x = 0 /\ vtick x = 1 /\ used (step EK Z.eqb (OpEval s83') x) = EvOptimized /\
  same_age 2 1 /\ same_age 3 (2 ^ 64 + 7) /\ ~ same_age (2 ^ 64 + 8) 5 /\
  used (step EK Z.eqb (OpEval s83') y) = EvOptimized /\
  used (step EK Z.eqb (OpEval s83') z) = EvBasic /\ val (step EK Z.eqb (OpEval s83') z) = val (step EK Z.eqb (OpEval s83') x) /\
  Forall act_ok (l83 1).
Proof.
  cbv zeta. repeat split; try (vm_compute; reflexivity); try (right; vm_compute; reflexivity); try (left; lia).
  - intros [H|H]; [lia|vm_compute in H; discriminate].
  - repeat constructor; cbn; auto. lia.
Qed.
