(** Proofs: values of pair quantities are sums over neighbours. *)
From Coq Require Import String.
From Verif Require Import RBase R3 Trig TrigProofs Sphere SphereSpec SphereProofs SphereGeom SphereMain Lattice LatticeSpec LatticeProofs Crystal CrystalSpec CrystalCell
  StructDiff StructDiffSpec StructDiffProofs Evaluator EvaluatorSpec EvaluatorHist EvaluatorProofs EvaluatorRun EvaluatorMore BondGen BondGenSpec BondGenProofs BondGenMain OverlapGen World WorldSpec WorldAtoms WorldProofs WorldMain WorldFlip.
Import ListNotations.
Open Scope R_scope.
Notation length := List.length.

Lemma finite_choice {X} (d : X) (R : nat -> X -> Prop) n : (forall i, (i < n)%nat -> exists x, R i x) -> exists f, forall i, (i < n)%nat -> R i (f i).
Proof.
  induction n as [|n IH]; intros H; [exists (fun _ => d); intros; lia|].
  destruct IH as [f Hf]; [intros; apply H; lia|]. destruct (H n ltac:(lia)) as [x Hx]. exists (fun i => if Nat.eqb i n then x else f i).
  intros i Hi. destruct (Nat.eqb_spec i n) as [->|E]; auto. apply Hf. lia.
Qed.
Section World.
  Context {cfg V : Type} (Q : quantity cfg V).
  Lemma neighbours_exist c x : good_env (env_of x) -> exists P, neighbours Q c x P.
  Proof.
    intros G. unfold neighbours. rewrite create_view. destruct (gview (env_of x) (atoms_of x)) as [cls M] eqn:E.
    assert (HM : length (spos M) = length (atoms_of x)) by (rewrite <- (view_sites (env_of x) (atoms_of x)), E; reflexivity).
    assert (OK : stru_ok cls M) by (pose proof (view_ok _ (atoms_of x) G) as H; now rewrite E in H).
    set (n := length (atoms_of x)) in *.
    destruct (finite_choice (fun _ => []) (fun i p => forall j, (j < n)%nat -> exact_images cls M (q_rmin Q c) (q_rmax Q c) i [j] (p j)) n) as [P HP].
    - intros i Hi. destruct (finite_choice [] (fun j v => exact_images cls M (q_rmin Q c) (q_rmax Q c) i [j] v) n) as [p Hp].
      + intros j Hj. destruct (shown_spec cls M (q_rmin Q c) (q_rmax Q c) i [j] OK) as (v & HV & _); [lia|intros ? [<-|[]]; lia|]. eauto.
      + eauto.
    - exists P. intros i j Hi Hj. exact (HP i Hi j Hj).
  Qed.
  Context (objs : adp -> Prop) (sortf : list (catom * Z) -> list (catom * Z)) (HO : program objs).
  Context (opp : V -> V) (HQ : quantity_ok Q opp).
  Notation K := (pair_calc objs sortf Q).
  Lemma pair_is_sum c (s : wstru objs) P z i j : neighbours Q c (wadp objs s) P -> (i < length (watoms objs s))%nat -> (j < length (watoms objs s))%nat ->
    pair_value K (wpairs objs Q) c s z i j = pair_sum Q c (wadp objs s) P z i j.
  Proof.
    intros HN Hi Hj. unfold pair_value, pair_sum, neighbours in *. rewrite create_view in *. change (atoms_of (wadp objs s)) with (watoms objs s) in *.
    change (env_of (wadp objs s)) with (wenv objs s) in *.
    destruct (wpairs_spec objs HO Q c s i j Hi Hj) as (v & HV & ->).
    destruct (gview (wenv objs s) (watoms objs s)) as [cls M]. cbn [fst snd] in *.
    cbn [mask pair_calc zero contrib]. change (watom objs s i) with (atom_at (wadp objs s) i). change (watom objs s j) with (atom_at (wadp objs s) j).
    destruct (q_mask Q c i (atom_at (wadp objs s) i) j (atom_at (wadp objs s) j)); auto.
    destruct HV as [N HV]. destruct (HN i j Hi Hj) as [N' HV'].
    assert (PV : Permutation v (P i j)) by (apply NoDup_Permutation; auto; intros y; now rewrite HV, HV').
    change (sum K) with (qsum Q). rewrite map_map, (qsum_perm Q opp HQ _ _ (Permutation_map _ PV)). unfold qsum. f_equal. apply map_ext_in.
    intros [[k t] T] Hy. apply HV' in Hy as [[HK _] _]. cbn in HK. assert (k = O) as -> by lia. reflexivity.
  Qed.
  Lemma full_is_sum_all c (s : wstru objs) P : neighbours Q c (wadp objs s) P -> full_total K (wpairs objs Q) c s = sum_all Q c (wadp objs s) P.
  Proof.
    intros HN. unfold full_total, sum_all. change (sum K) with (qsum Q). change (Evaluator.nsites K s) with (countSites (wadp objs s)). unfold countSites.
    unfold qsum at 1 3. f_equal. apply map_ext_in. intros i Hi. apply in_seq in Hi. unfold qsum. f_equal. apply map_ext_in. intros j Hj. apply in_seq in Hj.
    apply pair_is_sum; auto; unfold watoms; lia.
  Qed.
End World.
Section Mode.
  Context {stru cfg bond V : Type} (K : calc stru cfg bond V).
  Lemma full_setStructure s x : fullsum (setStructure K s x) = fullsum x.
  Proof. unfold setStructure. now destruct (custom K s (cf x)). Qed.
  Lemma full_complete s x : fullsum (complete_update K s x) = fullsum x.
  Proof. unfold complete_update. cbn. apply (full_setStructure s (set_used EvBasic x)). Qed.
  Lemma full_optimized s x : fullsum (optimized_update K s x) = fullsum x.
  Proof.
    unfold optimized_update. change (fullsum x) with (fullsum (set_used EvOptimized x)). generalize (set_used EvOptimized x). clear x. intros x. cbv zeta.
    destruct (last _) as [s0|]; [|apply full_complete].
    destruct (_ <=? _)%Z; [apply full_complete|]. cbv zeta. destruct (negb (allowsfast _ _)); [apply full_complete|]. destruct (_ && _); [apply full_complete|].
    unfold fast_update. destruct (rm_trace _ _ _ _ _ _ _ _) as [t0 n1]. cbv zeta. destruct (_ <=? _)%Z.
    - rewrite full_complete. exact (full_setStructure s (set_val _ x)).
    - cbn -[setStructure]. exact (full_setStructure s (set_val _ x)).
  Qed.
  Lemma full_step close o x : no_mode_change o -> fullsum (step K close o x) = fullsum x.
  Proof.
    assert (U : forall s, fullsum (state_of (eval K close s x) x) = fullsum x).
    { intros s. unfold eval, update. destruct (kind x); cbn [state_of finished set_val fullsum]; try apply (full_setStructure s (set_used EvBasic x)).
      - apply full_optimized.
      - unfold check_update. cbv zeta. destruct (evtype_eqb _ _); cbn [state_of finished set_val fullsum]; [apply full_optimized|].
        destruct (close _ _); cbn [state_of finished set_val set_used fullsum]; (etransitivity; [|apply (full_optimized s x)]); exact (full_setStructure s (set_used EvBasic _)). }
    destruct o; cbn [step no_mode_change]; intros H; auto.
    - apply U.
    - apply full_setStructure.
    - unfold setEvaluatorType. destruct (evtype_eqb (kind x) t); auto. destruct t; auto; destruct (has_stash K); auto.
    - contradiction.
    - unfold setupParallelRun. now destruct (n <? 1)%nat.
  Qed.
  Lemma full_run close ops : Forall no_mode_change ops -> forall x, fullsum (run K close ops x) = fullsum x.
  Proof. induction 1 as [|o ops Ho _ IH]; intros x; [reflexivity|]. unfold run in *. cbn [fold_left]. rewrite IH. now apply full_step. Qed.
End Mode.

Section History.
  Context {cfg V : Type} (Q : quantity cfg V) (opp : V -> V) (HQ : quantity_ok Q opp).
  Context (objs : adp -> Prop) (sortf : list (catom * Z) -> list (catom * Z)) (HO : program objs) (HSort : sorts sortf).
  Notation K := (pair_calc objs sortf Q).
  Lemma total_half c s : reversible Q -> (forall x, objs x -> ~ has_symmetry (env_of x)) -> half_total K (wpairs objs Q) c s = full_total K (wpairs objs Q) c s.
  Proof.
    intros HR NS. exact (half_is_full K opp (wpairs objs Q) (watoms objs) (wenv objs) (ww2 Q) (world_calc_ok2 objs sortf HO HSort Q opp HQ HR NS) c s (two_way_w Q HR) (doubling_w objs sortf Q HR)).
  Qed.
  Definition sums_ok (full : bool) (ops : list (op (wstru objs) cfg)) : Prop :=
    (full = true /\ Forall no_mode_change ops) \/ (reversible Q /\ forall x, objs x -> ~ has_symmetry (env_of x)).
  Theorem world_history close fixed c e t full ops s P : fixed = true \/ mask_by_type Q -> Forall safe_op ops -> sums_ok full ops ->
    let x := run K close (ops ++ [OpEval s]) (init K c e t full fixed 0 1) in
    neighbours Q (cf x) (wadp objs s) P -> val x = sum_all Q (cf x) (wadp objs s) P.
  Proof.
    intros HF Hs HM x HN. rewrite <- (full_is_sum_all Q objs sortf HO opp HQ (cf x) s P HN). destruct HM as [[-> HM]|[HR NS]].
    - pose proof (serial_history K opp (wpairs objs Q) (watoms objs) (wenv objs) (ww Q) (world_calc_ok objs sortf HO HSort Q opp HQ) close fixed c e t true ops s) as H.
      cbv zeta in H. fold x in H. rewrite H; auto.
      + unfold x. rewrite full_run; [reflexivity|]. apply Forall_app. split; auto. repeat constructor.
      + destruct HF as [HF|HF]; [now left|right]. now apply index_free_w.
      + split; auto.
    - pose proof (serial_history K opp (wpairs objs Q) (watoms objs) (wenv objs) (ww2 Q) (world_calc_ok2 objs sortf HO HSort Q opp HQ HR NS) close fixed c e t full ops s) as H.
      cbv zeta in H. fold x in H. rewrite H; auto.
      + unfold total. destruct (fullsum x); [reflexivity|]. now apply total_half.
      + destruct HF as [HF|HF]; [now left|right]. now apply index_free_w2.
      + split; [right; now apply two_way_w|right]. split; [now apply two_way_w|now apply doubling_w].
  Qed.
  Theorem world_merged close fixed N order c e t full ops s P : (1 <= N)%nat -> Permutation order (seq 0 N) -> fixed = true \/ mask_by_type Q -> Forall safe_op ops -> sums_ok full ops ->
    let x k := run K close (ops ++ [OpEval s]) (init K c e t full fixed k N) in
    neighbours Q (cf (x O)) (wadp objs s) P -> fold_left (fun v k => q_add Q v (val (x k))) order (q_zero Q) = sum_all Q (cf (x O)) (wadp objs s) P.
  Proof.
    intros H1 Ho HF Hs HM x HN. rewrite <- (full_is_sum_all Q objs sortf HO opp HQ (cf (x O)) s P HN). destruct HM as [[-> HM]|[HR NS]].
    - pose proof (merged_history K opp (wpairs objs Q) (watoms objs) (wenv objs) (ww Q) (world_calc_ok objs sortf HO HSort Q opp HQ) close N fixed c e t true ops s order H1) as H.
      cbv zeta in H. etransitivity; [apply H; auto|].
      + destruct HF as [HF|HF]; [now left|right]. now apply index_free_w.
      + split; auto.
      + unfold x. rewrite full_run; [reflexivity|]. apply Forall_app. split; auto. repeat constructor.
    - pose proof (merged_history K opp (wpairs objs Q) (watoms objs) (wenv objs) (ww2 Q) (world_calc_ok2 objs sortf HO HSort Q opp HQ HR NS) close N fixed c e t full ops s order H1) as H.
      cbv zeta in H. etransitivity; [apply H; auto|].
      + destruct HF as [HF|HF]; [now left|right]. now apply index_free_w2.
      + split; [right; now apply two_way_w|right]. split; [now apply two_way_w|now apply doubling_w].
      + change (run K close (ops ++ [OpEval s]) (init K c e t full fixed 0 N)) with (x O). unfold total. destruct (fullsum (x O)); [reflexivity|]. now apply total_half.
  Qed.
End History.
