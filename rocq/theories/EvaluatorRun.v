(** History invariant of the evaluators on all CPUs of a parallel run (C10, C13, C52). *)
From Verif Require Import Base StructDiff StructDiffSpec StructDiffProofs Evaluator EvaluatorSpec EvaluatorProofs EvaluatorHist.
Open Scope nat_scope.

Section Run.
  Context {stru cfg bond V : Type} (K : calc stru cfg bond V).
  Context (opp : V -> V) (pairs : cfg -> stru -> nat -> nat -> list bond).
  Context {A E : Type} (atoms : stru -> list A) (env : stru -> E)
          (w : cfg -> E -> Z -> nat -> A -> nat -> A -> V).
  Hypothesis OK : calc_ok K opp pairs atoms env w.
  Context (close : V -> V -> bool).
  Context (N : nat) (HN : 1 <= N).
  Context (fixed : bool) (HF : fixed = true \/ index_free K w).

  Notation tot := (total K pairs).
  Notation ts := (tsum K).
  Notation gs := (sum K).

  (** everything but the value and the CPU index *)
  Definition erase (x : st stru cfg V) : st stru cfg V :=
    {| cf := cf x; ptick := ptick x; ms := ms x; val := zero K; clock := clock x;
       kind := kind x; fullsum := fullsum x; fixedidx := fixedidx x; cpu := 0; ncpu := ncpu x;
       vtick := vtick x; last := last x; used := used x |}.

  Lemma erase_setStructure s x : erase (setStructure K s x) = erase (setStructure K s (erase x)).
  Proof. unfold setStructure. cbn. destruct (custom K s (cf x)); reflexivity. Qed.
  Lemma erase_basic s x : erase (basic_update K s x) = erase (basic_update K s (erase x)).
  Proof. unfold basic_update, setStructure. cbn. destruct (custom K s (cf x)); reflexivity. Qed.
  Lemma erase_complete s x : erase (complete_update K s x) = erase (complete_update K s (erase x)).
  Proof. unfold complete_update, basic_update, setStructure. cbn. destruct (custom K s (cf x)); reflexivity. Qed.
  Lemma erase_congr (f : st stru cfg V -> st stru cfg V) :
    (forall x, erase (f x) = erase (f (erase x))) -> forall x y, erase x = erase y -> erase (f x) = erase (f y).
  Proof. intros H x y Hxy. rewrite (H x), (H y), Hxy. reflexivity. Qed.

  Lemma erase_fast s0 s d x : erase (fast_update K s0 s d x) = erase (fast_update K s0 s d (erase x)).
  Proof.
    unfold fast_update.
    destruct (rm_trace K (cf x) (ms x) s0 (fullsum x) (cpu x) (ncpu x) (pop0 d)) as [t0 n1].
    destruct (rm_trace K (cf (erase x)) (ms (erase x)) s0 (fullsum (erase x)) (cpu (erase x)) (ncpu (erase x)) (pop0 d)) as [t0' n1'].
    set (v := apply_trace K (cf x) (ms x) t0 (val x)).
    set (v' := apply_trace K (cf (erase x)) (ms (erase x)) t0' (val (erase x))).
    assert (Hs : erase (setStructure K s (set_val v x)) = erase (setStructure K s (set_val v' (erase x)))).
    { rewrite erase_setStructure. rewrite (erase_setStructure s (set_val v' (erase x))). reflexivity. }
    set (x1 := setStructure K s (set_val v x)) in *.
    set (x1' := setStructure K s (set_val v' (erase x))) in *.
    replace (vtick x1') with (vtick x1) by exact (f_equal vtick Hs).
    replace (ptick x1') with (ptick x1) by exact (f_equal ptick Hs).
    destruct (vtick x1 <=? ptick x1)%Z.
    - apply (erase_congr (complete_update K s)); auto. intros y. apply erase_complete.
    - change (erase (click_value (set_last (Some (ms x1)) (erase x1))) =
              erase (click_value (set_last (Some (ms x1')) (erase x1')))).
      rewrite Hs. do 4 f_equal. exact (f_equal ms Hs).
  Qed.

  Lemma erase_optimized s x : erase (optimized_update K s x) = erase (optimized_update K s (erase x)).
  Proof.
    unfold optimized_update. cbn [last set_used erase vtick ptick fixedidx cf].
    assert (Hc : erase (complete_update K s (set_used EvOptimized x)) = erase (complete_update K s (set_used EvOptimized (erase x)))).
    { apply (erase_congr (complete_update K s)); [intros y; apply erase_complete|reflexivity]. }
    destruct (last x) as [s0|]; auto.
    destruct (vtick x <=? ptick x)%Z; auto.
    destruct (negb _); auto. destruct (_ && _); auto.
    apply (erase_congr (fast_update K s0 s (sdif K s0 s))); [intros y; apply erase_fast|reflexivity].
  Qed.

  Lemma erase_check s x dx :
    erase (state_of (check_update K close s x) dx) = erase (state_of (check_update K close s (erase x)) dx).
  Proof.
    unfold check_update. pose proof (erase_optimized s x) as H.
    set (y := optimized_update K s x) in *. set (y' := optimized_update K s (erase x)) in *.
    replace (used y') with (used y) by exact (f_equal used H).
    destruct (evtype_eqb (used y) EvBasic); [exact H|].
    assert (Hb : erase (set_used EvCheck (basic_update K s y)) = erase (set_used EvCheck (basic_update K s y'))).
    { apply (erase_congr (set_used EvCheck)); [reflexivity|].
      apply (erase_congr (basic_update K s)); auto. intros z. apply erase_basic. }
    destruct (close (val y) _), (close (val y') _); exact Hb.
  Qed.

  Lemma eval_update s x : eval K close s x = update K close s x.
  Proof.
    unfold eval. destruct (update K close s x) as [y|e y|]; auto. f_equal. unfold finished.
    rewrite (finish_ok _ _ _ _ _ _ OK). now destruct y.
  Qed.
  Lemma erase_eval s x dx dx' :
    erase (state_of (eval K close s x) dx) = erase (state_of (eval K close s (erase x)) dx').
  Proof.
    rewrite ?eval_update. unfold update. cbn [kind erase]. destruct (kind x); cbn [state_of].
    - apply erase_basic.
    - apply erase_basic.
    - apply erase_optimized.
    - rewrite erase_check. unfold check_update. destruct (evtype_eqb _ _); auto. destruct (close _ _); auto.
  Qed.

  Lemma erase_step o x : erase (step K close o x) = erase (step K close o (erase x)).
  Proof.
    destruct o; cbn [step].
    - apply erase_eval.
    - unfold eval_current. apply erase_eval.
    - reflexivity.
    - apply erase_setStructure.
    - unfold setEvaluatorType. cbn [kind erase]. destruct (evtype_eqb (kind x) t); auto.
      destruct t; auto; destruct (has_stash K); reflexivity.
    - reflexivity.
    - unfold setupParallelRun. destruct (n <? 1); reflexivity.
  Qed.

  (** *** families of states, one per CPU *)
  Notation fam := (nat -> st stru cfg V).
  Definition vsum (X : fam) : V := gs (map (fun k => val (X k)) (seq 0 N)).

  Record Inv0 (X : fam) : Prop := {
    i_cpu : forall k, cpu (X k) = k;
    i_sync : forall k, erase (X k) = erase (X 0);
    i_ncpu : ncpu (X 0) = N;
    i_pt : (ptick (X O) <= clock (X O))%Z;
    i_vt : (vtick (X O) <= clock (X O))%Z;
    i_fix : fixedidx (X 0) = fixed;
    i_mode : fullsum (X 0) = true \/ two_way w
  }.
  (** the value is right for structure [s] *)
  Record Good (X : fam) (s : stru) : Prop := {
    g_ms : ms (X 0) = s;
    g_val : vsum X = tot (fullsum (X 0)) (cf (X 0)) s
  }.
  Record Inv (X : fam) : Prop := {
    inv0 : Inv0 X;
    inv_basic : match kind (X 0) with EvNone | EvBasic => last (X 0) = None | _ => True end;
    inv_last : forall s, last (X 0) = Some s -> (ptick (X O) < vtick (X O))%Z -> Good X s
  }.

  Lemma tsum_vals c s t v : val (set_val (apply_trace K c s t v) (erase (init K c s EvNone false false 0 0))) = add K v (ts c s t).
  Proof. cbn. apply (apply_trace_sum K opp pairs atoms env w OK). Qed.

  Lemma field {B} (g : st stru cfg V -> B) X k (H : Inv0 X) :
    (forall x, g (erase x) = g x) -> g (X k) = g (X 0).
  Proof. intros Hg. rewrite <- (Hg (X k)), <- (Hg (X 0)). f_equal. now apply i_sync. Qed.

  Lemma fold_sync (f : st stru cfg V -> st stru cfg V) X :
    (forall x, erase (f x) = erase (f (erase x))) -> (forall k, erase (X k) = erase (X 0)) ->
    forall k, erase (f (X k)) = erase (f (X 0)).
  Proof. intros Hf Hs k. now apply erase_congr. Qed.

  Lemma cpu_setStructure s x : cpu (setStructure K s x) = cpu x.
  Proof. unfold setStructure. now destruct (custom K s (cf x)). Qed.
  Lemma cpu_basic s x : cpu (basic_update K s x) = cpu x.
  Proof. unfold basic_update, setStructure. cbn. now destruct (custom K s (cf x)). Qed.

  Lemma basic_good X s : Inv0 X ->
    let Y := fun k => basic_update K s (X k) in
    Inv0 Y /\ Good Y s /\ (ptick (Y O) < vtick (Y O))%Z /\ kind (Y 0) = kind (X 0) /\ last (Y 0) = last (X 0) /\ used (Y 0) = EvBasic.
  Proof.
    intros H Y.
    assert (HY : forall k, erase (Y k) = erase (Y 0)).
    { intros k. unfold Y. apply (fold_sync (basic_update K s)); [intros x; apply erase_basic|apply (i_sync X H)]. }
    assert (Hv : forall k, val (Y k) = add K (zero K) (ts (cf (Y 0)) s (basic_trace K (cf (Y 0)) s (fullsum (Y 0)) k N))).
    { intros k. replace (cf (Y 0)) with (cf (Y k)) by exact (f_equal cf (HY k)).
      replace (fullsum (Y 0)) with (fullsum (Y k)) by exact (f_equal fullsum (HY k)).
      assert (En : ncpu (X k) = N) by (rewrite (field ncpu X k H) by auto; apply (i_ncpu X H)).
      unfold Y, basic_update, setStructure. cbn. rewrite (i_cpu X H k), En.
      destruct (custom K s (cf (X k))) as [c' b]. cbn. rewrite (apply_trace_sum K opp pairs atoms env w OK). reflexivity. }
    unfold Y in *. clear Y. split; [|split; [|]].
    - destruct H as [H1 H2 H3 H4 H5 H6 H7]. split; [| exact HY | | | | |].
      + intros k. rewrite cpu_basic. apply H1.
      + unfold basic_update, setStructure. cbn. now destruct (custom K s (cf (X 0))).
      + unfold basic_update, setStructure. cbn. destruct (custom K s (cf (X 0))) as [c' []]; cbn; lia.
      + unfold basic_update, setStructure. cbn. destruct (custom K s (cf (X 0))) as [c' []]; cbn; lia.
      + unfold basic_update, setStructure. cbn. now destruct (custom K s (cf (X 0))).
      + unfold basic_update, setStructure. cbn. now destruct (custom K s (cf (X 0))).
    - split.
      + unfold basic_update, setStructure. cbn. now destruct (custom K s (cf (X 0))).
      + unfold vsum. erewrite map_ext; [|exact Hv].
        set (c := cf _). set (full := fullsum _).
        rewrite <- (gs_cpus_basic K opp pairs atoms env w OK c s full N HN).
        apply (gs_map_ext K). intros k _. apply (add_zero _ _ _ _ _ _ OK).
    - destruct H as [H1 H2 H3 H4 H5 H6 H7]. unfold basic_update, setStructure. cbn.
      destruct (custom K s (cf (X 0))) as [c' []]; cbn; repeat split; lia.
  Qed.

  Lemma complete_good X s : Inv0 X -> (match kind (X 0) with EvNone | EvBasic => False | _ => True end) ->
    let Y := fun k => complete_update K s (X k) in
    Inv Y /\ Good Y s /\ used (Y 0) = EvBasic /\ last (Y 0) = Some s.
  Proof.
    intros H Hk Y. destruct (basic_good X s H) as (H0 & [G1 G2] & Ht & Ekind & _ & Eu).
    assert (HG : Good Y s).
    { split; [exact G1|]. exact G2. }
    assert (ELs : last (Y 0) = Some s).
    { change (Some (ms (basic_update K s (X 0))) = Some s). cbv beta in G1. now rewrite G1. }
    split; [|split; [exact HG|split; [exact Eu|exact ELs]]].
    split.
    - destruct H0 as [A1 A2 A3 A4 A5 A6 A7]. split; auto.
      intros k. unfold Y, complete_update. specialize (A2 k).
      change (erase (set_last (Some (ms (basic_update K s (X k)))) (erase (basic_update K s (X k)))) =
              erase (set_last (Some (ms (basic_update K s (X 0)))) (erase (basic_update K s (X 0))))).
      rewrite A2. do 3 f_equal. exact (f_equal ms A2).
    - change (kind (Y 0)) with (kind (basic_update K s (X 0))). rewrite Ekind. destruct (kind (X 0)); tauto.
    - intros s' Hs' _. change (Some (ms (basic_update K s (X 0))) = Some s') in Hs'.
      cbv beta in G1. rewrite G1 in Hs'. injection Hs' as <-. exact HG.
  Qed.

  Lemma fast_good X s0 s : Inv X -> last (X 0) = Some s0 -> (ptick (X O) < vtick (X O))%Z ->
    (match kind (X 0) with EvNone | EvBasic => False | _ => True end) ->
    allowsfast (nsites K s0) (length (pop0 (sdif K s0 s))) = true ->
    (fixedidx (X 0) || haspairmask K (cf (X 0))) && negb match diffmethod (sdif K s0 s) with SIDEBYSIDE => true | _ => false end = false ->
    let Y := fun k => fast_update K s0 s (sdif K s0 s) (X k) in
    Inv Y /\ Good Y s /\ (used (Y 0) = used (X 0) \/ used (Y 0) = EvBasic) /\ last (Y 0) = Some s.
  Proof.
    intros [H _ HL] El Ht Hk Hfast Hm Y.
    destruct (HL s0 El Ht) as [Gm Gv].
    set (d := sdif K s0 s) in *.
    pose proof (diff_ok _ _ _ _ _ _ OK s0 s) as Hd. fold d in Hd.
    (* the state after setStructure on each CPU *)
    set (T := fun k => rm_trace K (cf (X k)) (ms (X k)) s0 (fullsum (X k)) (cpu (X k)) (ncpu (X k)) (pop0 d)).
    set (v := fun k => apply_trace K (cf (X k)) (ms (X k)) (fst (T k)) (val (X k))).
    set (Z := fun k => setStructure K s (set_val (v k) (X k))).
    assert (HZ : forall k, erase (Z k) = erase (Z 0)).
    { intros k. unfold Z. rewrite erase_setStructure, (erase_setStructure s (set_val (v 0) (X 0))).
      change (erase (setStructure K s (erase (X k))) = erase (setStructure K s (erase (X 0)))).
      now rewrite (i_sync X H k). }
    assert (EZ : Z 0 = let '(c', clicked) := custom K s (cf (X 0)) in
                 {| cf := c'; ptick := if clicked then (clock (X O) + 1)%Z else ptick (X 0); ms := s; val := zero K;
                    clock := if clicked then (clock (X O) + 1)%Z else clock (X 0);
                    kind := kind (X 0); fullsum := fullsum (X 0); fixedidx := fixedidx (X 0); cpu := cpu (X 0); ncpu := ncpu (X 0);
                    vtick := vtick (X 0); last := last (X 0); used := used (X 0) |}).
    { unfold Z, setStructure. cbn. destruct (custom K s (cf (X 0))) as [c' []]; reflexivity. }
    assert (IZ : Inv0 Z).
    { destruct H as [A1 A2 A3 A4 A5 A6 A7]. split.
      - intros k. unfold Z. rewrite cpu_setStructure. apply A1.
      - exact HZ.
      - rewrite EZ. destruct (custom K s (cf (X 0))) as [c' []]; cbn; auto.
      - rewrite EZ. destruct (custom K s (cf (X 0))) as [c' []]; cbn; lia.
      - rewrite EZ. destruct (custom K s (cf (X 0))) as [c' []]; cbn; lia.
      - rewrite EZ. destruct (custom K s (cf (X 0))) as [c' []]; cbn; auto.
      - rewrite EZ. destruct (custom K s (cf (X 0))) as [c' []]; cbn; auto. }
    assert (EY : forall k, Y k = if (vtick (Z k) <=? ptick (Z k))%Z then complete_update K s (Z k)
       else click_value (set_last (Some (ms (Z k))) (set_val (apply_trace K (cf (Z k)) (ms (Z k))
              (add_trace K (cf (Z k)) (ms (Z k)) (fullsum (Z k)) (ncpu (Z k)) (add1 d) (snd (T k))) (v k)) (Z k)))).
    { intros k. unfold Y, fast_update, Z, v. fold (T k). destruct (T k) as [t0 n1] eqn:ET. cbn [fst snd].
      rewrite (restash_ok _ _ _ _ _ _ OK). destruct (_ <=? _)%Z; reflexivity. }
    destruct (vtick (Z O) <=? ptick (Z O))%Z eqn:Etick.
    - (* configuration changed by the structure *)
      assert (EY' : forall k, Y k = complete_update K s (Z k)).
      { intros k. rewrite EY. replace (vtick (Z k)) with (vtick (Z 0)) by exact (eq_sym (f_equal vtick (HZ k))).
        replace (ptick (Z k)) with (ptick (Z 0)) by exact (eq_sym (f_equal ptick (HZ k))). now rewrite Etick. }
      assert (Hkz : match kind (Z 0) with EvNone | EvBasic => False | _ => True end).
      { rewrite EZ. destruct (custom K s (cf (X 0))) as [c' []]; exact Hk. }
      destruct (complete_good Z s IZ Hkz) as ([B1 B2 B3] & B4 & B5 & B6).
      assert (EqI : forall P : fam -> Prop, (forall F G : fam, (forall k, F k = G k) -> P F -> P G) ->
                    P (fun k => complete_update K s (Z k)) -> P Y).
      { intros P HP. apply HP. intros k. now rewrite EY'. }
      assert (EQ0 : Y 0 = complete_update K s (Z 0)) by apply EY'.
      assert (EV : vsum Y = vsum (fun k => complete_update K s (Z k))).
      { unfold vsum. f_equal. apply map_ext. intros k. now rewrite EY'. }
      assert (GY : Good Y s).
      { destruct B4 as [C1 C2]. split; [now rewrite EQ0|]. rewrite EV, C2, EQ0. reflexivity. }
      split; [|split; [exact GY|split; [right; rewrite EQ0; exact B5|rewrite EQ0; exact B6]]].
      split.
      + destruct B1 as [A1 A2 A3 A4 A5 A6 A7]. split; rewrite ?EQ0; auto.
        * intros k. rewrite EY'. apply A1.
        * intros k. rewrite EY'. apply A2.
      + rewrite EQ0. exact B2.
      + intros s' Hs' Ht'. rewrite EQ0 in Hs', Ht'. destruct (B3 s' Hs' Ht') as [C1 C2].
        split; [now rewrite EQ0|]. rewrite EV, C2, EQ0. reflexivity.
    - (* configuration not changed *)
      assert (Hcl : custom K s (cf (X 0)) = (cf (X 0), false)).
      { pose proof (custom_ok _ _ _ _ _ _ OK s (cf (X 0))) as Hc. rewrite EZ in Etick.
        destruct (custom K s (cf (X 0))) as [c' []]; cbn in *.
        - apply Z.leb_gt in Etick. pose proof (i_vt X H). lia.
        - now rewrite Hc. }
      rewrite Hcl in EZ.
      set (c := cf (X 0)) in *. set (full := fullsum (X 0)) in *.
      assert (HM : full = true \/ two_way w) by exact (i_mode X H).
      assert (FZ : forall k, cf (Z k) = c /\ ms (Z k) = s /\ fullsum (Z k) = full /\ ncpu (Z k) = N).
      { intros k. repeat split.
        - transitivity (cf (Z 0)); [exact (f_equal cf (HZ k))|]. rewrite EZ. reflexivity.
        - transitivity (ms (Z 0)); [exact (f_equal ms (HZ k))|]. rewrite EZ. reflexivity.
        - transitivity (fullsum (Z 0)); [exact (f_equal fullsum (HZ k))|]. rewrite EZ. reflexivity.
        - transitivity (ncpu (Z 0)); [exact (f_equal ncpu (HZ k))|]. rewrite EZ. apply (i_ncpu X H). }
      assert (FX : forall k, cf (X k) = c /\ ms (X k) = s0 /\ fullsum (X k) = full /\ ncpu (X k) = N /\ cpu (X k) = k).
      { intros k. repeat split.
        - apply (field cf X k H); auto.
        - rewrite (field ms X k H); auto.
        - apply (field fullsum X k H); auto.
        - rewrite (field ncpu X k H); auto. apply (i_ncpu X H).
        - apply (i_cpu X H). }
      assert (EY' : forall k, Y k = click_value (set_last (Some s) (set_val
                (apply_trace K c s (add_trace K c s full N (add1 d) (snd (T k))) (v k)) (Z k)))).
      { intros k. rewrite EY. destruct (FZ k) as (-> & -> & -> & ->).
        replace (vtick (Z k)) with (vtick (Z 0)) by exact (eq_sym (f_equal vtick (HZ k))).
        replace (ptick (Z k)) with (ptick (Z 0)) by exact (eq_sym (f_equal ptick (HZ k))). now rewrite Etick. }
      assert (EQ0 : erase (Y 0) = erase (click_value (set_last (Some s) (Z 0)))).
      { rewrite EY'. reflexivity. }
      (* values *)
      assert (Hval : forall k, val (Y k) =
        add K (add K (val (X k)) (ts c s0 (flat_map (rm_item K c s0 s0 full (pop0 d) (rm_anchors K s0 (pop0 d))) (pick N (k + 0) (rm_keys K s0 full (pop0 d))))))
              (ts c s (flat_map (add_item K c s full (add1 d) (add_anchors K s (add1 d))) (pick N (k + length (rm_keys K s0 full (pop0 d))) (add_keys K s full (add1 d)))))).
      { intros k. rewrite EY'. cbn [val click_value set_last set_val].
        rewrite (apply_trace_sum K opp pairs atoms env w OK). unfold v, T.
        destruct (FX k) as (-> & -> & -> & -> & ->). rewrite rm_trace_pick. cbn [fst snd].
        rewrite (apply_trace_sum K opp pairs atoms env w OK), add_trace_pick, Nat.add_0_r. reflexivity. }
      assert (HV : vsum Y = tot full c s).
      { unfold vsum. erewrite map_ext; [|exact Hval].
        rewrite !(gs_map_add K opp pairs atoms env w OK).
        rewrite !(gs_cpus K opp pairs atoms env w OK) by exact HN.
        change (gs (map (fun k => val (X k)) (seq 0 N))) with (vsum X). rewrite Gv.
        rewrite !(total_ttot K opp pairs atoms env w OK) by exact HM.
        pose proof Hd as (I0 & I1 & Hd').
        rewrite <- (sites_ok _ _ _ _ _ _ OK) in I0, I1.
        rewrite (rm_sum K opp pairs atoms env w OK full c s0 (pop0 d) HM I0).
        rewrite (unchanged_equal K opp pairs atoms env w OK full c s0 s d HM Hd).
        - apply (add_sum K opp pairs atoms env w OK full c s (add1 d) HM I1).
        - apply (diff_env _ _ _ _ _ _ OK). fold d. intros Hn. destruct Hd' as [[Hd' _]|[[Hd' _]|(_ & Hp & _)]]; [congruence|congruence|].
          rewrite Hp, seq_length, (sites_ok _ _ _ _ _ _ OK) in Hfast. unfold allowsfast in Hfast.
          rewrite Nat.sub_diag in Hfast. cbn in Hfast. rewrite andb_false_r in Hfast. discriminate.
        - destruct (diffmethod d) eqn:Em; auto.
          + destruct Hd' as [[Hd' _]|[[Hd' _]|(_ & Hp & _)]]; [congruence|congruence|].
            rewrite Hp, seq_length, (sites_ok _ _ _ _ _ _ OK) in Hfast. unfold allowsfast in Hfast.
            rewrite Nat.sub_diag in Hfast. cbn in Hfast. rewrite andb_false_r in Hfast. discriminate.
          + right. split; auto. cbn in Hm. rewrite andb_true_r in Hm. apply orb_false_iff in Hm.
            destruct Hm as [Hm1 Hm2]. split; auto. rewrite (i_fix X H) in Hm1. destruct HF; [congruence|auto]. }
      assert (GY : Good Y s).
      { split; [rewrite EY'; cbn; apply FZ|]. rewrite HV.
        transitivity (tot (fullsum (Z 0)) (cf (Z 0)) s); [rewrite EZ; reflexivity|].
        f_equal; [exact (eq_sym (f_equal fullsum EQ0))|exact (eq_sym (f_equal cf EQ0))]. }
      split; [|split; [exact GY|split; [left|]]].
      + split.
        * destruct IZ as [A1 A2 A3 A4 A5 A6 A7]. split.
          -- intros k. rewrite EY'. cbn. apply A1.
          -- intros k. rewrite EY', EQ0. specialize (A2 k).
             change (erase (click_value (set_last (Some s) (erase (Z k)))) = erase (click_value (set_last (Some s) (erase (Z 0))))).
             now rewrite A2.
          -- rewrite EY'. cbn. exact A3.
          -- rewrite EY'. cbn. lia.
          -- rewrite EY'. cbn. lia.
          -- rewrite EY'. cbn. exact A6.
          -- rewrite EY'. cbn. exact A7.
        * rewrite EY'. cbn. rewrite EZ. cbn. destruct (kind (X 0)); tauto.
        * intros s' Hs' _. rewrite EY' in Hs'. cbn in Hs'. injection Hs' as <-. exact GY.
      + rewrite EY'. cbn. rewrite EZ. reflexivity.
      + rewrite EY'. reflexivity.
  Qed.

  Lemma used_inv X u : Inv X -> Inv (fun k => set_used u (X k)).
  Proof.
    intros [[A1 A2 A3 A4 A5 A6 A7] B C]. split; [split; auto| |]; auto.
    - intros k. change (erase (set_used u (erase (X k))) = erase (set_used u (erase (X 0)))). now rewrite A2.
    - intros s' Hs' Ht'. destruct (C s' Hs' Ht') as [D1 D2]. split; auto.
  Qed.

  Lemma Good_ext (Y Z : fam) s : (forall k, Y k = Z k) -> Good Z s -> Good Y s.
  Proof.
    intros Hg [D1 D2]. assert (EV : vsum Y = vsum Z) by (unfold vsum; f_equal; apply map_ext; intros k; now rewrite Hg).
    split; rewrite ?EV, Hg; auto.
  Qed.
  Lemma Inv_ext (Y Z : fam) : (forall k, Y k = Z k) -> Inv Z -> Inv Y.
  Proof.
    intros Hg [[A1 A2 A3 A4 A5 A6 A7] B C].
    split; [split|rewrite Hg; exact B|].
    - intros k. rewrite Hg. apply A1.
    - intros k. rewrite !Hg. apply A2.
    - rewrite Hg. exact A3.
    - rewrite Hg. exact A4.
    - rewrite Hg. exact A5.
    - rewrite Hg. exact A6.
    - rewrite Hg. exact A7.
    - intros s' Hs' Ht'. rewrite Hg in Hs', Ht'. apply (Good_ext Y Z); auto.
  Qed.

  Lemma optimized_good X s : Inv X -> (match kind (X 0) with EvNone | EvBasic => False | _ => True end) ->
    let Y := fun k => optimized_update K s (X k) in
    Inv Y /\ Good Y s /\ (used (Y 0) = EvOptimized \/ used (Y 0) = EvBasic) /\ last (Y 0) = Some s.
  Proof.
    intros HI Hk Y. set (X' := fun k => set_used EvOptimized (X k)).
    assert (HI' : Inv X') by now apply used_inv.
    assert (Hk' : match kind (X' 0) with EvNone | EvBasic => False | _ => True end) by exact Hk.
    pose proof HI' as [H0 _ _].
    assert (Same : forall g : stru -> st stru cfg V -> st stru cfg V, (forall k, Y k = g s (X' k)) ->
      (let Z := fun k => g s (X' k) in
       Inv Z /\ Good Z s /\ (used (Z 0) = EvOptimized \/ used (Z 0) = EvBasic) /\ last (Z 0) = Some s) ->
      Inv Y /\ Good Y s /\ (used (Y 0) = EvOptimized \/ used (Y 0) = EvBasic) /\ last (Y 0) = Some s).
    { intros g Hg (I1 & G1 & F1 & F2). rewrite (Hg 0). split; [|split; [|split; [exact F1|exact F2]]].
      - exact (Inv_ext Y _ Hg I1).
      - exact (Good_ext Y _ s Hg G1). }
    assert (FS : forall k, last (X' k) = last (X' 0) /\ vtick (X' k) = vtick (X' 0) /\ ptick (X' k) = ptick (X' 0) /\
                 fixedidx (X' k) = fixedidx (X' 0) /\ cf (X' k) = cf (X' 0)).
    { intros k. repeat split; apply field; auto. }
    assert (HC : let Z := fun k => complete_update K s (X' k) in
       Inv Z /\ Good Z s /\ (used (Z 0) = EvOptimized \/ used (Z 0) = EvBasic) /\ last (Z 0) = Some s).
    { destruct (complete_good X' s H0 Hk') as (P1 & P2 & P3 & P4). cbv zeta. auto. }
    destruct (last (X' 0)) as [s0|] eqn:EL.
    2:{ apply (Same (complete_update K)); auto. intros k. unfold Y, optimized_update. fold (X' k).
        destruct (FS k) as (-> & _). reflexivity. }
    destruct (vtick (X' O) <=? ptick (X' O))%Z eqn:ET.
    { apply (Same (complete_update K)); auto. intros k. unfold Y, optimized_update. fold (X' k).
      destruct (FS k) as (-> & -> & -> & _). now rewrite ET. }
    destruct (allowsfast (nsites K s0) (length (pop0 (sdif K s0 s)))) eqn:EA.
    2:{ apply (Same (complete_update K)); auto. intros k. unfold Y, optimized_update. fold (X' k).
        destruct (FS k) as (-> & -> & -> & _). now rewrite ET, EA. }
    destruct ((fixedidx (X' 0) || haspairmask K (cf (X' 0))) &&
              negb match diffmethod (sdif K s0 s) with SIDEBYSIDE => true | _ => false end) eqn:EM.
    { apply (Same (complete_update K)); auto. intros k. unfold Y, optimized_update. fold (X' k).
      destruct (FS k) as (-> & -> & -> & -> & ->). now rewrite ET, EA, EM. }
    apply (Same (fun s => fast_update K s0 s (sdif K s0 s))).
    { intros k. unfold Y, optimized_update. fold (X' k).
      destruct (FS k) as (-> & -> & -> & -> & ->). now rewrite ET, EA, EM. }
    apply Z.leb_gt in ET.
    destruct (fast_good X' s0 s HI' EL ET Hk' EA EM) as (P1 & P2 & P3 & P4). cbv zeta. auto.
  Qed.

  Lemma kind_complete s x : kind (complete_update K s x) = kind x.
  Proof. unfold complete_update, basic_update, setStructure. cbn. now destruct (custom K s (cf x)). Qed.
  Lemma kind_optimized s x : kind (optimized_update K s x) = kind x.
  Proof.
    assert (KC : kind (complete_update K s (set_used EvOptimized x)) = kind x) by apply (kind_complete s (set_used EvOptimized x)).
    unfold optimized_update. destruct (last _); auto.
    destruct (_ <=? _)%Z; auto. destruct (negb _); auto.
    destruct (_ && _); auto. unfold fast_update. destruct (rm_trace _ _ _ _ _ _ _ _) as [t0 n1].
    destruct (_ <=? _)%Z.
    - rewrite kind_complete. unfold setStructure. cbn. now destruct (custom K s (cf x)).
    - unfold setStructure. cbn. now destruct (custom K s (cf x)).
  Qed.

  Lemma eval_good X s dx : Inv X ->
    let Y := fun k => state_of (eval K close s (X k)) (dx k) in Inv Y /\ Good Y s.
  Proof.
    intros HI Y.
    assert (Ek : forall k, kind (X k) = kind (X 0)) by (intros k; apply field; [apply HI|auto]).
    assert (Same : forall Z : fam, (forall k, Y k = Z k) -> Inv Z /\ Good Z s -> Inv Y /\ Good Y s).
    { intros Z Hg (I1 & G1). split; [exact (Inv_ext Y _ Hg I1)|exact (Good_ext Y _ s Hg G1)]. }
    assert (HB : match kind (X 0) with EvNone | EvBasic => True | _ => False end ->
       let Z := fun k => basic_update K s (X k) in Inv Z /\ Good Z s).
    { intros Hk. destruct HI as [H0 HBL HLS]. destruct (basic_good X s H0) as (P1 & P2 & P3 & P4 & P5 & _).
      split; auto. split; auto.
      - cbv beta in *. rewrite P4, P5. destruct (kind (X 0)); tauto.
      - intros s' Hs' _. cbv beta in *. rewrite P5 in Hs'. destruct (kind (X 0)); tauto || congruence. }
    destruct (kind (X 0)) eqn:EK.
    - apply (Same (fun k => basic_update K s (X k))); auto. intros k. unfold Y. rewrite eval_update. unfold update. rewrite Ek. reflexivity.
    - apply (Same (fun k => basic_update K s (X k))); auto. intros k. unfold Y. rewrite eval_update. unfold update. rewrite Ek. reflexivity.
    - apply (Same (fun k => optimized_update K s (X k))).
      + intros k. unfold Y. rewrite eval_update. unfold update. rewrite Ek. reflexivity.
      + destruct (optimized_good X s HI) as (P1 & P2 & _); [now rewrite EK|]. auto.
    - destruct (optimized_good X s HI) as (P1 & P2 & P3 & P4); [now rewrite EK|].
      set (Z := fun k => optimized_update K s (X k)) in *.
      assert (EU : forall k, used (Z k) = used (Z 0)) by (intros k; apply field; [apply P1|auto]).
      assert (P3' : used (Z 0) = EvOptimized \/ used (Z 0) = EvBasic) by exact P3. clear P3; rename P3' into P3.
      destruct P3 as [P3|P3].
      + apply (Same (fun k => set_used EvCheck (basic_update K s (Z k)))).
        { intros k. unfold Y. rewrite eval_update. unfold update. rewrite Ek. unfold check_update. fold (Z k). rewrite EU, P3. cbn [evtype_eqb].
          destruct (close _ _); reflexivity. }
        pose proof P1 as [Q0 _ _]. destruct (basic_good Z s Q0) as (R1 & [R2a R2b] & R3 & R4 & R5 & _).
        assert (G : Good (fun k => set_used EvCheck (basic_update K s (Z k))) s) by (split; [exact R2a|exact R2b]).
        split; auto. split.
        * destruct R1 as [A1 A2 A3 A4 A5 A6 A7]. split; auto.
          intros k. change (erase (set_used EvCheck (erase (basic_update K s (Z k)))) = erase (set_used EvCheck (erase (basic_update K s (Z 0))))).
          now rewrite A2.
        * cbn [kind set_used last]. cbv beta in *. rewrite R4.
          assert (kind (Z 0) = EvCheck) as ->; [|exact I].
          transitivity (kind (X 0)); auto. unfold Z. apply kind_optimized.
        * intros s' Hs' _. cbn [last set_used] in Hs'. assert (P4' : last (Z 0) = Some s) by exact P4. cbv beta in *.
          rewrite R5, P4' in Hs'. injection Hs' as <-. exact G.
      + apply (Same Z); auto. intros k. unfold Y. rewrite eval_update. unfold update. rewrite Ek. unfold check_update. fold (Z k).
        rewrite EU, P3. reflexivity.
  Qed.

  Lemma step_inv X o : Inv X -> safe_op o -> (no_mode_change o \/ (two_way w /\ doubling K)) ->
    Inv (fun k => step K close o (X k)).
  Proof.
    intros HI Hs Hm. destruct o; cbn in Hs; try contradiction; cbn [step].
    - exact (proj1 (eval_good X s (fun k => X k) HI)).
    - assert (HE : forall k, eval_current K close (X k) = eval K close (ms (X 0)) (X k)).
      { intros k. unfold eval_current. f_equal. apply field; [apply HI|auto]. }
      apply (Inv_ext _ (fun k => state_of (eval K close (ms (X 0)) (X k)) (X k))).
      + intros k. now rewrite HE.
      + exact (proj1 (eval_good X (ms (X 0)) (fun k => X k) HI)).
    - destruct HI as [[A1 A2 A3 A4 A5 A6 A7] B C]. split; [split; auto| |].
      + intros k. change (erase (configure f (erase (X k))) = erase (configure f (erase (X 0)))). now rewrite A2.
      + cbn. lia.
      + cbn. lia.
      + exact B.
      + intros s' Hs' Ht'. cbn in Ht'. lia.
    - (* setEvaluatorType *)
      assert (HK : forall k, kind (X k) = kind (X 0)) by (intros k; apply field; [apply HI|auto]).
      destruct (evtype_eqb (kind (X 0)) t) eqn:ET.
      { assert (HE : forall k, state_of (setEvaluatorType K t (X k)) (X k) = X k).
        { intros k. unfold setEvaluatorType. now rewrite HK, ET. }
        now apply (Inv_ext _ X). }
      pose proof HI as [[A1 A2 A3 A4 A5 A6 A7] B C].
      assert (HE : (forall k, state_of (setEvaluatorType K t (X k)) (X k) = X k) \/
                   (forall k, state_of (setEvaluatorType K t (X k)) (X k) =
                     {| cf := cf (X k); ptick := ptick (X k); ms := ms (X k); val := zero K; clock := clock (X k);
                       kind := t; fullsum := fullsum (X k); fixedidx := fixedidx (X k); cpu := cpu (X k); ncpu := ncpu (X k);
                       vtick := vtick (X k); last := None; used := used (X k) |})).
      { destruct t.
        - left. intros k. unfold setEvaluatorType. now rewrite HK, ET.
        - right. intros k. unfold setEvaluatorType. now rewrite HK, ET.
        - destruct (has_stash K) eqn:ES; [right|left]; intros k; unfold setEvaluatorType; now rewrite HK, ET, ES.
        - destruct (has_stash K) eqn:ES; [right|left]; intros k; unfold setEvaluatorType; now rewrite HK, ET, ES. }
      destruct HE as [HE|HE].
      { now apply (Inv_ext _ X). }
      apply (Inv_ext _ (fun k => {| cf := cf (X k); ptick := ptick (X k); ms := ms (X k); val := zero K; clock := clock (X k);
                       kind := t; fullsum := fullsum (X k); fixedidx := fixedidx (X k); cpu := cpu (X k); ncpu := ncpu (X k);
                       vtick := vtick (X k); last := None; used := used (X k) |})); [exact HE|].
      split; [split; cbn; auto| |]; cbn.
      + intros k. specialize (A2 k). unfold erase; cbn. f_equal;
          [exact (f_equal cf A2)|exact (f_equal ptick A2)|exact (f_equal ms A2)|exact (f_equal clock A2)
          |exact (f_equal fullsum A2)|exact (f_equal fixedidx A2)|exact (f_equal ncpu A2)|exact (f_equal vtick A2)
          |exact (f_equal used A2)].
      + destruct t; auto.
      + discriminate.
    - (* setFlag *)
      destruct HI as [[A1 A2 A3 A4 A5 A6 A7] B C]. split; [split; auto| |]; auto.
      + intros k. change (erase (setFullSum b (erase (X k))) = erase (setFullSum b (erase (X 0)))). now rewrite A2.
      + cbn. destruct Hm as [[]|[Hw _]]; auto.
      + intros s' Hs' Ht'. destruct (C s' Hs' Ht') as [D1 D2]. split; auto.
        change (vsum X = tot b (cf (X 0)) s'). rewrite D2.
        destruct Hm as [[]|[Hw Hm]]. destruct b, (fullsum (X 0)); cbn; auto; [|symmetry];
          apply (half_is_full K opp pairs atoms env w OK); auto.
  Qed.

  Lemma init_inv c e t full : full = true \/ two_way w -> Inv (fun k => init K c e t full fixed k N).
  Proof.
    split; [split; cbn; auto; lia| |]; cbn; auto.
    - destruct t; auto.
    - discriminate.
  Qed.

  Lemma run_inv ops : forall X, Inv X -> Forall safe_op ops -> (Forall no_mode_change ops \/ (two_way w /\ doubling K)) ->
    Inv (fun k => run K close ops (X k)).
  Proof.
    induction ops as [|o ops IH]; intros X HI Hs Hm; cbn [run fold_left]; auto.
    inversion Hs; subst. apply (IH (fun k => step K close o (X k))); auto.
    - apply step_inv; auto. destruct Hm as [Hm|Hm]; auto. inversion Hm; auto.
    - destruct Hm as [Hm|Hm]; auto. inversion Hm; auto.
  Qed.

  Theorem history_value c e t full ops s :
    Forall safe_op ops -> mode_ok K w full ops ->
    let x k := run K close (ops ++ [OpEval s]) (init K c e t full fixed k N) in
    sum K (map (fun k => val (x k)) (seq 0 N)) = total K pairs (fullsum (x 0)) (cf (x 0)) s.
  Proof.
    intros Hs Hm x.
    pose proof (run_inv ops _ (init_inv c e t full (proj1 Hm)) Hs (proj2 Hm)) as HI.
    destruct (eval_good _ s (fun k => run K close ops (init K c e t full fixed k N)) HI) as [_ [_ G]].
    assert (Hx : forall k, x k = state_of (eval K close s (run K close ops (init K c e t full fixed k N))) (run K close ops (init K c e t full fixed k N))).
    { intros k. unfold x, run. rewrite fold_left_app. reflexivity. }
    rewrite Hx, <- G. unfold vsum. f_equal. apply map_ext. intros k. now rewrite Hx.
  Qed.

  Theorem history_value_current c e t full ops :
    Forall safe_op ops -> mode_ok K w full ops ->
    let x k := run K close (ops ++ [OpEvalCurrent]) (init K c e t full fixed k N) in
    sum K (map (fun k => val (x k)) (seq 0 N)) =
    total K pairs (fullsum (x 0)) (cf (x 0)) (ms (run K close ops (init K c e t full fixed 0 N))).
  Proof.
    intros Hs Hm x.
    pose proof (run_inv ops _ (init_inv c e t full (proj1 Hm)) Hs (proj2 Hm)) as HI.
    set (X := fun k => run K close ops (init K c e t full fixed k N)) in *.
    change (run K close ops (init K c e t full fixed 0 N)) with (X 0).
    destruct (eval_good X (ms (X 0)) X HI) as [_ [_ G]].
    assert (Hx : forall k, x k = state_of (eval K close (ms (X 0)) (X k)) (X k)).
    { intros k. unfold x, run. rewrite fold_left_app. cbn [fold_left step]. unfold eval_current.
      change (fold_left (fun y o => step K close o y) ops (init K c e t full fixed k N)) with (X k).
      assert (Em : ms (X k) = ms (X 0)) by (apply field; [apply HI|auto]). now rewrite Em. }
    rewrite Hx, <- G. unfold vsum. f_equal. apply map_ext. intros k. now rewrite Hx.
  Qed.

  (** the check of PQEvaluatorCheck *)
  Lemma cf_basic s x : cf (basic_update K s x) = fst (custom K s (cf x)).
  Proof. unfold basic_update, setStructure. cbn. now destruct (custom K s (cf x)). Qed.
  Lemma cf_setStructure s x : cf (setStructure K s x) = fst (custom K s (cf x)).
  Proof. unfold setStructure. now destruct (custom K s (cf x)). Qed.
  Lemma cf_optimized s x : exists c', cf (optimized_update K s x) = fst (custom K s c').
  Proof.
    assert (HC : forall y, exists c', cf (complete_update K s y) = fst (custom K s c')).
    { intros y. exists (cf y). exact (cf_basic s y). }
    unfold optimized_update. destruct (last _); auto.
    destruct (_ <=? _)%Z; auto. destruct (negb _); auto. destruct (_ && _); auto.
    unfold fast_update. destruct (rm_trace _ _ _ _ _ _ _ _) as [t0 n1].
    destruct (_ <=? _)%Z; auto. cbn [cf click_value set_last set_val].
    rewrite cf_setStructure. eauto.
  Qed.
  Lemma fullsum_basic s x : fullsum (basic_update K s x) = fullsum x.
  Proof. unfold basic_update, setStructure. cbn. now destruct (custom K s (cf x)). Qed.

  Theorem check_passes c e t full ops s : N = 1 ->
    (forall v, close v v = true) ->
    (forall s c, fst (custom K s (fst (custom K s c))) = fst (custom K s c)) ->
    Forall safe_op ops -> mode_ok K w full ops ->
    exists y, eval K close s (run K close ops (init K c e t full fixed 0 N)) = Ok y.
  Proof.
    intros H1 Hc Hi Hs Hm.
    pose proof (run_inv ops _ (init_inv c e t full (proj1 Hm)) Hs (proj2 Hm)) as HI.
    set (X := fun k => run K close ops (init K c e t full fixed k N)) in *.
    change (run K close ops (init K c e t full fixed 0 N)) with (X 0).
    rewrite ?eval_update. unfold update. destruct (kind (X 0)) eqn:EK; eauto.
    unfold check_update.
    destruct (optimized_good X s HI) as (P1 & P2 & P3 & P4); [now rewrite EK|].
    set (Z := fun k => optimized_update K s (X k)) in *.
    change (optimized_update K s (X 0)) with (Z 0).
    destruct (evtype_eqb (used (Z 0)) EvBasic); eauto.
    pose proof P1 as [Q0 _ _]. destruct (basic_good Z s Q0) as (R1 & [R2a R2b] & _).
    destruct P2 as [P2a P2b].
    assert (Ev : val (Z 0) = val (set_used EvCheck (basic_update K s (Z 0)))).
    { cbn [val set_used]. unfold vsum in *. rewrite H1 in *. cbn [seq map] in *. cbn [sum fold_right] in *.
      rewrite <- (add_zero _ _ _ _ _ _ OK (val (Z 0))), <- (add_zero _ _ _ _ _ _ OK (val (basic_update K s (Z 0)))).
      rewrite (add_comm _ _ _ _ _ _ OK (zero K) (val (Z 0))), (add_comm _ _ _ _ _ _ OK (zero K) (val (basic_update K s (Z 0)))).
      etransitivity; [exact P2b|]. etransitivity; [|symmetry; exact R2b].
      rewrite fullsum_basic, cf_basic. destruct (cf_optimized s (X 0)) as [c' Hc'].
      change (cf (Z 0) = fst (custom K s c')) in Hc'. rewrite Hc', Hi. reflexivity. }
    rewrite <- Ev, Hc. eauto.
  Qed.
End Run.
