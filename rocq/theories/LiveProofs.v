(** Proofs for C103: what the evaluators do with pointers is what Evaluator.v does with contents. *)
From Verif Require Import RBase StructDiff Evaluator EvaluatorSpec Live.
Open Scope nat_scope.

Section Sim.
  Context {stru cfg bond V wrap : Type} (K : calc stru cfg bond V) (close : V -> V -> bool) (seen : wrap -> stru -> stru).
  Notation live := (live stru cfg V wrap). Notation ptr := (ptr wrap). Notation memory := (memory stru).
  Notation read := (read seen).

  Fixpoint root (p : ptr) : nat := match p with PObj a => a | PWrap _ q => root q end.
  (** the same state with contents instead of pointers *)
  Definition abs (x : live) : st stru cfg V :=
    let y := core x in
    {| cf := cf y; ptick := ptick y; ms := cached x; val := val y; clock := clock y; kind := kind y; fullsum := fullsum y;
       fixedidx := fixedidx y; cpu := cpu y; ncpu := ncpu y; vtick := vtick y; last := option_map (read (mem x)) (last y); used := used y |}.
  (** 0 is the empty structure *)
  Definition theirs (m : memory) (a : nat) : Prop := a = 0 \/ In a (objs m).
  Record wf (x : live) : Prop := {
    wf_pos : 0 < next (mem x);
    wf_objs : forall a, In a (objs (mem x)) -> 0 < a < next (mem x);
    wf_ms : theirs (mem x) (root (ms (core x)));
    wf_last : forall q, last (core x) = Some q -> root q < next (mem x) /\ ~ theirs (mem x) (root q)
  }.

  Lemma read_ext (m m' : memory) p : cell m' (root p) = cell m (root p) -> read m' p = read m p.
  Proof. induction p as [a|w p IH]; cbn; auto. intros H. now rewrite IH. Qed.
  Lemma clone_ok p (m : memory) : let '(m', q) := clone p m in
    root q = next m /\ read m' q = read m p /\ next m' = S (next m) /\ objs m' = objs m /\ forall b, b <> next m -> cell m' b = cell m b.
  Proof.
    induction p as [a|w p IH]; cbn.
    - rewrite Nat.eqb_refl. repeat split; auto. intros b Hb. apply Nat.eqb_neq in Hb. now rewrite Hb.
    - destruct (clone p m) as [m' q]. destruct IH as (H1 & H2 & H3 & H4 & H5). cbn. rewrite H2. auto.
  Qed.
  Lemma same_root (p q : ptr) : same_ptr p q = true -> root p = root q.
  Proof. revert q. induction p as [a|w p IH]; intros [b|w' q]; cbn; try discriminate; [apply Nat.eqb_eq|apply IH]. Qed.

  Lemma abs_set p x : abs (lsetStructure K seen p x) = setStructure K (read (mem x) p) (abs x).
  Proof. unfold lsetStructure, setStructure. cbn [abs cf core]. unfold abs at 1 2. cbn [cf]. destruct (custom K (read (mem x) p) (cf (core x))) as [c b]. reflexivity. Qed.
  Lemma mem_set p x : mem (lsetStructure K seen p x) = mem x /\ cached (lsetStructure K seen p x) = read (mem x) p /\
    ms (core (lsetStructure K seen p x)) = p /\ last (core (lsetStructure K seen p x)) = last (core x).
  Proof. unfold lsetStructure. destruct (custom K _ _) as [c b]. repeat split. Qed.

  Lemma wf_set p x : wf x -> theirs (mem x) (root p) -> wf (lsetStructure K seen p x).
  Proof.
    intros [H1 H2 H3 H4] HP. destruct (mem_set p x) as (E1 & E2 & E3 & E4).
    split; rewrite ?E1, ?E3, ?E4; auto.
  Qed.

  Lemma wf_with (f : st ptr cfg V -> st ptr cfg V) x : wf x -> ms (f (core x)) = ms (core x) -> last (f (core x)) = last (core x) -> wf (with_core f x).
  Proof. intros [H1 H2 H3 H4] E1 E2. split; cbn; rewrite ?E1, ?E2; auto. Qed.

  Lemma basic_sim p x : wf x -> theirs (mem x) (root p) ->
    let y := lbasic K seen p x in
    abs y = basic_update K (read (mem x) p) (abs x) /\ mem y = mem x /\ cached y = read (mem x) p /\ ms (core y) = p /\ wf y.
  Proof.
    intros HW HP. cbv zeta.
    pose proof (wf_with (set_used EvBasic) x HW eq_refl eq_refl) as HW1.
    pose proof (wf_set p _ HW1 HP) as HW2. pose proof (abs_set p (with_core (set_used EvBasic) x)) as HA.
    destruct (mem_set p (with_core (set_used EvBasic) x)) as (E1 & E2 & E3 & E4).
    unfold lbasic. set (x1 := lsetStructure K seen p (with_core (set_used EvBasic) x)) in *. cbv zeta.
    split; [|split; [exact E1|split; [exact E2|split; [exact E3|]]]].
    - unfold basic_update. cbv zeta. change (abs (with_core (set_used EvBasic) x)) with (set_used EvBasic (abs x)) in HA.
      change (mem (with_core (set_used EvBasic) x)) with (mem x) in *.
      rewrite <- HA. unfold abs, with_core, click_value, set_val. cbn [mem cached core cf ptick ms val clock kind fullsum fixedidx cpu ncpu vtick last used].
      rewrite E3, E1, E2. reflexivity.
    - apply wf_with; auto.
  Qed.

  Lemma remember_sim x : wf x -> abs (remember x) = set_last (Some (read (mem x) (ms (core x)))) (abs x) /\ wf (remember x)
    /\ cached (remember x) = cached x /\ ms (core (remember x)) = ms (core x) /\ objs (mem (remember x)) = objs (mem x)
    /\ (forall p, theirs (mem x) (root p) -> read (mem (remember x)) p = read (mem x) p).
  Proof.
    intros [H1 H2 H3 H4]. unfold remember. pose proof (clone_ok (ms (core x)) (mem x)) as HC.
    destruct (clone (ms (core x)) (mem x)) as [m q]. destruct HC as (C1 & C2 & C3 & C4 & C5).
    split; [unfold abs, set_last; cbn; now rewrite C2|]. split; [|split; [reflexivity|split; [reflexivity|split; [exact C4|]]]].
    - split; cbn; rewrite ?C3, ?C4; auto.
      + intros a Ha. apply H2 in Ha. lia.
      + unfold theirs in *. now rewrite C4.
      + intros q' E. injection E as <-. rewrite C1. split; [lia|]. unfold theirs. rewrite C4. intros [E|E]; [lia|]. apply H2 in E. lia.
    - cbn. intros p HP. apply read_ext. apply C5. destruct HP as [HP|HP]; [lia|]. apply H2 in HP. lia.
  Qed.

  (** what an evaluation leaves of the memory *)
  Definition kept (x y : live) : Prop := wf y /\ objs (mem y) = objs (mem x) /\ forall p, theirs (mem x) (root p) -> read (mem y) p = read (mem x) p.
  Lemma kept_theirs x y p : kept x y -> theirs (mem x) p -> theirs (mem y) p.
  Proof. intros (_ & E & _). unfold theirs. now rewrite E. Qed.
  Lemma kept_trans x y z : kept x y -> kept y z -> kept x z.
  Proof.
    intros HXY (W & E & R). split; [exact W|]. split; [rewrite E; apply HXY|]. intros p HP. rewrite R by (apply (kept_theirs x y); auto).
    destruct HXY as (_ & _ & RX). auto.
  Qed.

  Lemma complete_sim p x : wf x -> theirs (mem x) (root p) ->
    abs (lcomplete K seen p x) = complete_update K (read (mem x) p) (abs x) /\ kept x (lcomplete K seen p x) /\
    cached (lcomplete K seen p x) = read (mem x) p /\ ms (core (lcomplete K seen p x)) = p.
  Proof.
    intros HW HP. destruct (basic_sim p x HW HP) as (B1 & B2 & B3 & B4 & B5).
    destruct (remember_sim _ B5) as (R1 & R2 & R3 & R4 & R5 & R6). unfold lcomplete. rewrite R1, R3, R4, B2, B3, B4, B1.
    split; [|split; [|auto]].
    - unfold complete_update. cbv zeta. f_equal. f_equal. unfold basic_update. cbv zeta.
      unfold setStructure. destruct (custom K _ _) as [c b]. reflexivity.
    - split; [exact R2|]. split; [now rewrite R5, B2|]. intros p' HP'. rewrite R6 by now rewrite B2. now rewrite B2.
  Qed.

  Lemma fast_sim p0 p d x : wf x -> theirs (mem x) (root p) -> last (core x) = Some p0 ->
    abs (lfast K seen p0 p d x) = fast_update K (read (mem x) p0) (read (mem x) p) d (abs x) /\ kept x (lfast K seen p0 p d x) /\
    cached (lfast K seen p0 p d x) = read (mem x) p /\ ms (core (lfast K seen p0 p d x)) = p.
  Proof.
    intros HW HP HL. unfold lfast, fast_update.
    change (cf (abs x)) with (cf (core x)). change (ms (abs x)) with (cached x). change (fullsum (abs x)) with (fullsum (core x)).
    change (cpu (abs x)) with (cpu (core x)). change (ncpu (abs x)) with (ncpu (core x)). change (val (abs x)) with (val (core x)).
    destruct (rm_trace K (cf (core x)) (cached x) (read (mem x) p0) (fullsum (core x)) (cpu (core x)) (ncpu (core x)) (pop0 d)) as [t0 n1].
    set (left := apply_trace K (cf (core x)) (cached x) t0 (val (core x))). cbv zeta.
    pose proof (wf_with (set_val left) x HW eq_refl eq_refl) as HW1.
    pose proof (wf_set p _ HW1 HP) as HW2. pose proof (abs_set p (with_core (set_val left) x)) as HA.
    destruct (mem_set p (with_core (set_val left) x)) as (E1 & E2 & E3 & E4).
    change (abs (with_core (set_val left) x)) with (set_val left (abs x)) in HA. change (mem (with_core (set_val left) x)) with (mem x) in *.
    set (x1 := lsetStructure K seen p (with_core (set_val left) x)) in *. rewrite <- HA.
    change (vtick (abs x1)) with (vtick (core x1)). change (ptick (abs x1)) with (ptick (core x1)).
    assert (K1 : kept x x1).
    { split; [exact HW2|]. rewrite E1. auto. }
    destruct (vtick (core x1) <=? ptick (core x1))%Z.
    - assert (HP1 : theirs (mem x1) (root p)) by now rewrite E1.
      destruct (complete_sim p x1 HW2 HP1) as (C1 & C2 & C3 & C4). rewrite C1, C3, C4, E1.
      split; [reflexivity|]. split; [|auto]. eapply kept_trans; eauto.
    - change (cf (abs x1)) with (cf (core x1)). change (ms (abs x1)) with (cached x1). change (fullsum (abs x1)) with (fullsum (core x1)).
      change (ncpu (abs x1)) with (ncpu (core x1)). rewrite E1, E2.
      set (v := apply_trace K (cf (core x1)) (read (mem x) p) (add_trace K (cf (core x1)) (read (mem x) p) (fullsum (core x1)) (ncpu (core x1)) (add1 d) n1) (restash K left)).
      pose proof (wf_with (set_val v) x1 HW2 eq_refl eq_refl) as HW3.
      destruct (remember_sim _ HW3) as (R1 & R2 & R3 & R4 & R5 & R6).
      split; [|split; [|split]].
      + change (abs (with_core click_value (remember (with_core (set_val v) x1)))) with (click_value (abs (remember (with_core (set_val v) x1)))).
        rewrite R1. change (mem (with_core (set_val v) x1)) with (mem x1). change (ms (core (with_core (set_val v) x1))) with (ms (core x1)).
        rewrite E3, E1. change (abs (with_core (set_val v) x1)) with (set_val v (abs x1)).
        change (ms (set_val v (abs x1))) with (cached x1). rewrite E2. reflexivity.
      + split; [apply wf_with; auto|]. cbn [with_core mem] in *. rewrite R5, E1. split; [reflexivity|]. intros p' HP'. rewrite R6 by now rewrite E1. now rewrite E1.
      + cbn [with_core cached] in *. rewrite R3. exact E2.
      + cbn [with_core core click_value ms] in *. rewrite R4. cbn. exact E3.
  Qed.

  Lemma optimized_sim p x : wf x -> theirs (mem x) (root p) ->
    abs (loptimized K seen p x) = optimized_update K (read (mem x) p) (abs x) /\ kept x (loptimized K seen p x) /\
    cached (loptimized K seen p x) = read (mem x) p /\ ms (core (loptimized K seen p x)) = p.
  Proof.
    intros HW HP. unfold loptimized, optimized_update. cbv zeta.
    pose proof (wf_with (set_used EvOptimized) x HW eq_refl eq_refl) as HW1.
    change (set_used EvOptimized (abs x)) with (abs (with_core (set_used EvOptimized) x)).
    assert (KK : forall z, kept (with_core (set_used EvOptimized) x) z -> kept x z) by (intros z H; exact H).
    change (mem x) with (mem (with_core (set_used EvOptimized) x)) in HP |- *.
    set (y := with_core (set_used EvOptimized) x) in *. clearbody y.
    change (last (abs y)) with (option_map (read (mem y)) (last (core y))).
    destruct (last (core y)) as [p0|] eqn:EL; cbn [option_map].
    2:{ destruct (complete_sim p y HW1 HP) as (A & B & C); auto. }
    change (vtick (abs y)) with (vtick (core y)). change (ptick (abs y)) with (ptick (core y)).
    change (fixedidx (abs y)) with (fixedidx (core y)). change (cf (abs y)) with (cf (core y)).
    destruct (vtick (core y) <=? ptick (core y))%Z; [destruct (complete_sim p y HW1 HP) as (A & B & C); auto|].
    assert (ED : pdiff K seen (mem y) p0 p = sdif K (read (mem y) p0) (read (mem y) p)).
    { unfold pdiff. destruct (same_ptr p0 p) eqn:ES; [|reflexivity]. apply same_root in ES. destruct (wf_last y HW1 p0 EL) as [_ HN]. rewrite ES in HN. contradiction. }
    rewrite ED. destruct (negb (allowsfast _ _)); [destruct (complete_sim p y HW1 HP) as (A & B & C); auto|].
    destruct (_ && _); [destruct (complete_sim p y HW1 HP) as (A & B & C); auto|].
    destruct (fast_sim p0 p (sdif K (read (mem y) p0) (read (mem y) p)) y HW1 HP EL) as (A & B & C); auto.
  Qed.

  Lemma kept_with f x y : kept x y -> ms (f (core y)) = ms (core y) -> last (f (core y)) = last (core y) -> kept x (with_core f y).
  Proof. intros (W & E & R) H1 H2. split; [apply wf_with; auto|]. auto. Qed.

  Lemma eval_sim p x : wf x -> theirs (mem x) (root p) ->
    abs (leval K close seen p x) = step K close (OpEval (read (mem x) p)) (abs x) /\ kept x (leval K close seen p x) /\
    cached (leval K close seen p x) = read (mem x) p /\ ms (core (leval K close seen p x)) = p.
  Proof.
    intros HW HP. unfold leval. cbn [step]. unfold eval, update. change (kind (abs x)) with (kind (core x)).
    assert (B : forall y, abs (with_core (lfinish K) y) = finished K (abs y)) by reflexivity.
    destruct (basic_sim p x HW HP) as (B1 & B2 & B3 & B4 & B5).
    assert (BK : kept x (lbasic K seen p x)) by (split; [exact B5|]; rewrite B2; auto).
    destruct (optimized_sim p x HW HP) as (O1 & O2 & O3 & O4).
    destruct (kind (core x)).
    - cbn [state_of]. rewrite B, B1. split; [reflexivity|]. split; [apply kept_with; auto|auto].
    - cbn [state_of]. rewrite B, B1. split; [reflexivity|]. split; [apply kept_with; auto|auto].
    - cbn [state_of]. rewrite B, O1. split; [reflexivity|]. split; [apply kept_with; auto|auto].
    - unfold lcheck, check_update. cbv zeta. rewrite <- O1. set (x1 := loptimized K seen p x) in *.
      change (used (abs x1)) with (used (core x1)). destruct (evtype_eqb (used (core x1)) EvBasic).
      + cbn [state_of]. rewrite B. split; [reflexivity|]. split; [apply kept_with; auto|auto].
      + assert (HP1 : theirs (mem x1) (root p)) by (apply (kept_theirs x x1); auto).
        assert (ER : read (mem x1) p = read (mem x) p) by (apply O2; exact HP).
        destruct (basic_sim p x1 (proj1 O2) HP1) as (D1 & D2 & D3 & D4 & D5). rewrite ER in D1, D3.
        change (abs x1) with (abs x1) in *. rewrite <- D1. set (x2 := lbasic K seen p x1) in *.
        change (val (abs x1)) with (val (core x1)). change (val (set_used EvCheck (abs x2))) with (val (core x2)).
        change (val (core (with_core (set_used EvCheck) x2))) with (val (core x2)).
        assert (K2 : kept x (with_core (set_used EvCheck) x2)).
        { apply kept_with; auto. apply (kept_trans x x1); auto. split; [exact D5|]. rewrite D2. auto. }
        destruct (close (val (core x1)) (val (core x2))); cbn [state_of].
        * rewrite B. split; [reflexivity|]. split; [apply kept_with; auto|auto].
        * split; [reflexivity|]. auto.
  Qed.
End Sim.
