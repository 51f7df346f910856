(** Proofs for C83. *)
From Verif Require Import Base Ticker TickerSpec TickerProofs StructDiff StructDiffSpec Evaluator EvaluatorSpec EvaluatorProofs EvaluatorHist EvaluatorRun Persist PersistSpec.
Open Scope Z_scope.

(** *** the times *)
Lemma code_order a b : in_long (snd a) = true -> in_long (snd b) = true -> (tick_leb a b = true <-> code a <= code b).
Proof.
  unfold in_long, LONG_MIN, LONG_MAX, tick_leb, tick_ltb, code. rewrite !andb_true_iff, !Z.leb_le. intros A B.
  rewrite negb_true_iff, orb_false_iff, andb_false_iff, negb_false_iff, Z.ltb_ge, Z.ltb_lt, Z.ltb_ge.
  destruct a as [a1 a2], b as [b1 b2]. cbn [fst snd] in *. split; [intros [H1 [H2|H2]]|intros H; split]; nia || (try nia).
Qed.
Lemma epoch_code g : clock_ok g -> epoch (code g) = fst g.
Proof.
  intros [H1 H2]. unfold epoch, code, LONG_MAX in *. rewrite Z.div_add_l by lia. rewrite Z.div_small by lia. lia.
Qed.
Lemma load_code g a ga t : clock_ok g -> clock_ok ga -> load_tick Strict g a ga = Some t -> load_time (code g) (code a) (code ga) = code t.
Proof.
  intros Hg Ha. unfold load_tick, load_time. rewrite (epoch_code g Hg), (epoch_code ga Ha).
  assert (E : tick_gtb ga g = (code g <? code ga)).
  { unfold tick_gtb, tick_ltb, code, clock_ok, LONG_MAX in *. destruct g as [g1 g2], ga as [a1 a2]. cbn [fst snd] in *.
    destruct (Z.ltb_spec g1 a1), (Z.ltb_spec a1 g1), (Z.ltb_spec g2 a2), (Z.ltb_spec (g1 * 2 ^ 64 + g2) (a1 * 2 ^ 64 + a2)); cbn; auto; nia. }
  rewrite E. destruct (code g <? code ga); [|now intros [= ->]].
  destruct (fst ga =? fst g) eqn:EE; cbn [negb]; [|now intros [= <-]].
  unfold long_of. destruct (in_long _); [|discriminate]. destruct (in_long _); [|discriminate]. intros [= <-].
  apply Z.eqb_eq in EE. unfold code. cbn. lia.
Qed.

Lemma load_time_le g t ga : t <= ga -> 0 <= g -> load_time g t ga <= g.
Proof. unfold load_time. intros H H0. destruct (Z.ltb_spec g ga); [destruct (_ =? _); lia|lia]. Qed.
Lemma load_time_order g a b ga : a <= b -> load_time g a ga <= load_time g b ga.
Proof. unfold load_time. intros H. destruct (_ <? _); [destruct (_ =? _); lia|lia]. Qed.
Lemma load_time_cmp g a b ga : same_age ga g -> (load_time g a ga <=? load_time g b ga) = (a <=? b).
Proof.
  unfold load_time, same_age. intros H. destruct (Z.ltb_spec g ga) as [H1|H1]; auto. destruct H as [H|H]; [lia|].
  rewrite H, Z.eqb_refl. destruct (Z.leb_spec (a + (g - ga)) (b + (g - ga))), (Z.leb_spec a b); auto; lia.
Qed.

Section Sim.
  Context {stru cfg bond V : Type} (K : calc stru cfg bond V) (close : V -> V -> bool) (keep : V -> V).
  Notation st := (st stru cfg V).

  (** two calculators that cannot be told apart *)
  Record sim (x y : st) : Prop := {
    m_cf : cf x = cf y; m_ms : ms x = ms y; m_val : val x = val y; m_kind : kind x = kind y; m_full : fullsum x = fullsum y;
    m_fixed : fixedidx x = fixedidx y; m_cpu : cpu x = cpu y; m_ncpu : ncpu x = ncpu y; m_last : last x = last y;
    m_fresh : (vtick x <=? ptick x) = (vtick y <=? ptick y);
    m_tx : in_time x; m_ty : in_time y
  }.
  Ltac simtac := unfold in_time in *; constructor; cbn in *; try congruence; try lia.

  Lemma sim_used u v x y : sim x y -> sim (set_used u x) (set_used v y).
  Proof. intros []. constructor; auto. Qed.
  Lemma sim_val u x y : sim x y -> sim (set_val u x) (set_val u y).
  Proof. intros []. constructor; auto. Qed.
  Lemma sim_last l x y : sim x y -> sim (set_last l x) (set_last l y).
  Proof. intros []. constructor; auto. Qed.
  Lemma sim_click x y : sim x y -> sim (click_value x) (click_value y).
  Proof.
    intros []. unfold in_time in *. constructor; unfold in_time; cbn; auto; try lia.
  Qed.
  Lemma sim_setStructure s x y : sim x y -> sim (setStructure K s x) (setStructure K s y).
  Proof.
    intros []. unfold setStructure. rewrite <- m_cf0. destruct (custom K s (cf x)) as [c []].
    - unfold in_time in *. constructor; unfold in_time; cbn; auto; try lia.
    - constructor; cbn; auto.
  Qed.
  Lemma sim_basic s x y : sim x y -> sim (basic_update K s x) (basic_update K s y).
  Proof.
    intros S. unfold basic_update. pose proof (sim_setStructure s _ _ (sim_used EvBasic EvBasic x y S)) as S1.
    set (x1 := setStructure K s (set_used EvBasic x)) in *. set (y1 := setStructure K s (set_used EvBasic y)) in *.
    rewrite <- (m_cf _ _ S1), <- (m_ms _ _ S1), <- (m_full _ _ S1), <- (m_cpu _ _ S1), <- (m_ncpu _ _ S1), <- (m_val _ _ S1).
    now apply sim_click, sim_val.
  Qed.
  Lemma sim_complete s x y : sim x y -> sim (complete_update K s x) (complete_update K s y).
  Proof.
    intros S. unfold complete_update. pose proof (sim_basic s x y S) as S1. rewrite <- (m_ms _ _ S1). now apply sim_last.
  Qed.
  Lemma sim_fast s0 s d x y : sim x y -> sim (fast_update K s0 s d x) (fast_update K s0 s d y) /\
    used (complete_update K s x) = used (complete_update K s y).
  Proof.
    intros S. split; [|unfold complete_update, basic_update, setStructure; cbn; now rewrite (m_cf _ _ S); destruct (custom K s _)].
    unfold fast_update.
    rewrite <- (m_cf _ _ S), <- (m_ms _ _ S), <- (m_full _ _ S), <- (m_cpu _ _ S), <- (m_ncpu _ _ S), <- (m_val _ _ S).
    destruct (rm_trace K _ _ _ _ _ _ _) as [t0 n1].
    set (l := apply_trace K (cf x) (ms x) t0 (val x)).
    pose proof (sim_setStructure s _ _ (sim_val l x y S)) as S1.
    set (x1 := setStructure K s (set_val l x)) in *. set (y1 := setStructure K s (set_val l y)) in *.
    rewrite <- (m_fresh _ _ S1). destruct (vtick x1 <=? ptick x1); [now apply sim_complete|].
    rewrite <- (m_cf _ _ S1), <- (m_ms _ _ S1), <- (m_full _ _ S1), <- (m_ncpu _ _ S1).
    cbn [ms set_val]. rewrite <- (m_ms _ _ S1). now apply sim_click, sim_last, sim_val.
  Qed.
  Lemma used_basic s x : used (basic_update K s x) = EvBasic.
  Proof. unfold basic_update, setStructure. cbn. now destruct (custom K s (cf x)). Qed.
  Lemma used_setStructure s x : used (setStructure K s x) = used x.
  Proof. unfold setStructure. now destruct (custom K s (cf x)). Qed.
  Lemma sim_optimized s x y : sim x y -> sim (optimized_update K s x) (optimized_update K s y) /\
    used (optimized_update K s x) = used (optimized_update K s y).
  Proof.
    intros S0. unfold optimized_update. pose proof (sim_used EvOptimized EvOptimized x y S0) as S.
    set (x0 := set_used EvOptimized x) in *. set (y0 := set_used EvOptimized y) in *.
    assert (C : sim (complete_update K s x0) (complete_update K s y0) /\ used (complete_update K s x0) = used (complete_update K s y0)).
    { split; [now apply sim_complete|]. unfold complete_update. cbn [used set_last]. now rewrite !used_basic. }
    rewrite <- (m_last _ _ S). destruct (last x0) as [s0|]; auto.
    rewrite <- (m_fresh _ _ S). destruct (vtick x0 <=? ptick x0); auto.
    destruct (negb _); auto. rewrite <- (m_fixed _ _ S), <- (m_cf _ _ S). destruct (_ && _); auto.
    split; [now apply sim_fast|]. unfold fast_update.
    rewrite <- (m_cf _ _ S), <- (m_ms _ _ S), <- (m_full _ _ S), <- (m_cpu _ _ S), <- (m_ncpu _ _ S), <- (m_val _ _ S).
    destruct (rm_trace K _ _ _ _ _ _ _) as [t0 n1].
    set (l := apply_trace K (cf x0) (ms x0) t0 (val x0)).
    pose proof (sim_setStructure s _ _ (sim_val l x0 y0 S)) as S1.
    set (x1 := setStructure K s (set_val l x0)) in *. set (y1 := setStructure K s (set_val l y0)) in *.
    rewrite <- (m_fresh _ _ S1). destruct (vtick x1 <=? ptick x1).
    - unfold complete_update. cbn [used set_last]. now rewrite !used_basic.
    - cbn [used click_value set_last set_val]. subst x1 y1. now rewrite !used_setStructure.
  Qed.

  Definition osim (a b : outcome st) : Prop :=
    match a, b with Ok x, Ok y => sim x y | Throw e x, Throw f y => e = f /\ sim x y | UB, UB => True | _, _ => False end.
  Lemma sim_eval s x y : sim x y -> osim (eval K close s x) (eval K close s y).
  Proof.
    intros S. assert (U : osim (update K close s x) (update K close s y)).
    { unfold update. rewrite <- (m_kind _ _ S). destruct (kind x); cbn [osim]; try now apply sim_basic.
      - now apply sim_optimized.
      - unfold check_update. destruct (sim_optimized s x y S) as [S1 HU]. rewrite <- HU. destruct (evtype_eqb _ _); [exact S1|].
        pose proof (sim_used EvCheck EvCheck _ _ (sim_basic s _ _ S1)) as S2. rewrite <- (m_val _ _ S1), <- (m_val _ _ S2).
        destruct (close _ _); cbn [osim]; auto. }
    unfold eval. destruct (update K close s x), (update K close s y); cbn [osim] in *; try contradiction; auto.
    unfold finished. rewrite <- (m_ncpu _ _ U), <- (m_val _ _ U). now apply sim_val.
  Qed.
  Lemma osim_state a b x y : osim a b -> sim x y -> sim (state_of a x) (state_of b y).
  Proof. destruct a, b; cbn; intuition. Qed.
  Lemma osim_thrown a b : osim a b -> thrown a = thrown b.
  Proof. destruct a, b; cbn; intuition congruence. Qed.
  Lemma sim_type t x y : sim x y -> osim (setEvaluatorType K t x) (setEvaluatorType K t y).
  Proof.
    intros S. unfold setEvaluatorType. rewrite <- (m_kind _ _ S). destruct (evtype_eqb _ _); [exact S|].
    destruct t; cbn [osim]; auto; try destruct (has_stash K); cbn [osim]; auto; destruct S; constructor; cbn; auto.
  Qed.
  Lemma sim_parallel i n x y : sim x y -> osim (setupParallelRun i n x) (setupParallelRun i n y).
  Proof. intros S. unfold setupParallelRun. destruct (_ <? _)%nat; cbn [osim]; auto; destruct S; constructor; cbn; auto. Qed.
  Lemma sim_step o x y : sim x y -> sim (step K close o x) (step K close o y) /\ call_throws K close o x = call_throws K close o y.
  Proof.
    intros S. destruct o; cbn [step call_throws].
    - split; [apply osim_state; auto|apply osim_thrown]; now apply sim_eval.
    - unfold eval_current. rewrite <- (m_ms _ _ S). split; [apply osim_state; auto|apply osim_thrown]; now apply sim_eval.
    - split; auto. destruct S. unfold in_time in *. constructor; unfold in_time; cbn; auto; try lia; try congruence.
    - split; auto. now apply sim_setStructure.
    - split; [apply osim_state; auto|apply osim_thrown]; now apply sim_type.
    - split; auto. destruct S; constructor; cbn; auto.
    - split; [apply osim_state; auto|apply osim_thrown]; now apply sim_parallel.
  Qed.
  Lemma sim_run ops : forall x y, sim x y -> sim (run K close ops x) (run K close ops y).
  Proof. induction ops as [|o ops IH]; intros x y S; cbn; auto. apply IH. now apply sim_step. Qed.

  Lemma restore_sim x g a : save keep x = Some a -> in_time x -> keep (val x) = val x -> 0 <= g -> same_age (clock x) g ->
    sim x (restore g a).
  Proof.
    intros HS [H1 H2] HK Hg HA. unfold save in HS. assert (E : a = {| a_cf := cf x; a_tick := ptick x; a_ms := ms x; a_val := keep (val x); a_kind := kind x; a_full := fullsum x;
                   a_fixed := fixedidx x; a_cpu := cpu x; a_ncpu := ncpu x; a_vtick := vtick x; a_last := last x; a_clock := clock x |}).
    { destruct (kind x); try discriminate; now injection HS as <-. }
    subst a. unfold restore. constructor; cbn; auto; try (split; auto).
    - now rewrite load_time_cmp.
    - now apply load_time_le.
    - now apply load_time_le.
  Qed.

  Theorem restored_behaves x g a ops o : save keep x = Some a -> in_time x -> keep (val x) = val x -> 0 <= g -> same_age (clock x) g ->
    looks_same (run K close ops x) (run K close ops (restore g a)) /\
    call_throws K close o (run K close ops x) = call_throws K close o (run K close ops (restore g a)).
  Proof.
    intros HS HT HK Hg HA. pose proof (sim_run ops _ _ (restore_sim x g a HS HT HK Hg HA)) as S. split.
    - destruct S. unfold looks_same. auto 10.
    - now apply sim_step.
  Qed.

  (** reachable calculators satisfy [in_time] *)
  Lemma sim_refl x : in_time x -> sim x x.
  Proof. intros H. constructor; auto. Qed.
  Lemma run_in_time ops x : in_time x -> in_time (run K close ops x).
  Proof. intros H. exact (m_tx _ _ (sim_run ops x x (sim_refl x H))). Qed.
  Lemma step_in_time o x : in_time x -> in_time (step K close o x).
  Proof. intros H. exact (m_tx _ _ (proj1 (sim_step o x x (sim_refl x H)))). Qed.
End Sim.

(** *** any life with saves and loads *)
Section Life.
  Context {stru cfg bond V : Type} (K : calc stru cfg bond V).
  Context (opp : V -> V) (pairs : cfg -> stru -> nat -> nat -> list bond).
  Context {A E : Type} (atoms : stru -> list A) (env : stru -> E) (w : cfg -> E -> Z -> nat -> A -> nat -> A -> V).
  Hypothesis OK : calc_ok K opp pairs atoms env w.
  Context (close : V -> V -> bool) (N : nat) (HN : (1 <= N)%nat) (fixed : bool) (HF : fixed = true \/ index_free K w).
  Notation Inv := (Inv K pairs w N fixed).

  Lemma move_inv X g : 0 <= g -> Inv X -> Inv (fun k => act_step K close (fun v => v) (X k) (Move g)).
  Proof.
    intros Hg HI. pose proof HI as [[A1 A2 A3 A4 A5 A6 A7] B C].
    assert (HK : forall k, kind (X k) = kind (X O)) by (intros k; exact (f_equal kind (A2 k))).
    destruct (kind (X O)) eqn:EK.
    4: { apply (Inv_ext K pairs w N fixed _ X); auto. intros k. unfold act_step, save. now rewrite HK. }
    all: set (Y := fun k => restore g {| a_cf := cf (X k); a_tick := ptick (X k); a_ms := ms (X k); a_val := val (X k); a_kind := kind (X k);
           a_full := fullsum (X k); a_fixed := fixedidx (X k); a_cpu := cpu (X k); a_ncpu := ncpu (X k); a_vtick := vtick (X k); a_last := last (X k);
           a_clock := clock (X k) |}).
    all: apply (Inv_ext K pairs w N fixed _ Y); [intros k; unfold act_step, save, Y; now rewrite HK|].
    all: split; [split|..]; unfold Y; cbn; auto using load_time_le.
    all: try (intros k; unfold erase, restore; cbn; specialize (A2 k); f_equal;
         [exact (f_equal cf A2)|f_equal; [exact (f_equal ptick A2)|exact (f_equal clock A2)]|exact (f_equal ms A2)|exact (f_equal kind A2)
         |exact (f_equal fullsum A2)|exact (f_equal fixedidx A2)|exact (f_equal ncpu A2)|f_equal; [exact (f_equal vtick A2)|exact (f_equal clock A2)]
         |exact (f_equal last A2)]).
    all: try (rewrite EK; exact B).
    all: intros s Hs Ht; assert (T : ptick (X O) < vtick (X O))
        by (destruct (Z.lt_ge_cases (ptick (X O)) (vtick (X O))) as [Q|Q]; auto; pose proof (load_time_order g _ _ (clock (X O)) Q); lia).
    all: destruct (C s Hs T) as [D1 D2]; split; auto.
  Qed.
End Life.

Section Serial.
  Context {stru cfg bond V : Type} (K : calc stru cfg bond V).
  Context (opp : V -> V) (pairs : cfg -> stru -> nat -> nat -> list bond).
  Context {A E : Type} (atoms : stru -> list A) (env : stru -> E) (w : cfg -> E -> Z -> nat -> A -> nat -> A -> V).
  Hypothesis OK : calc_ok K opp pairs atoms env w.
  Context (close : V -> V -> bool) (fixed : bool) (HF : fixed = true \/ index_free K w).

  Lemma live_inv l : forall X, Inv K pairs w 1 fixed X -> Forall act_ok l ->
    (Forall no_mode_change (calls l) \/ (two_way w /\ doubling K)) ->
    Inv K pairs w 1 fixed (fun k => live K close (fun v => v) l (X k)).
  Proof.
    induction l as [|a l IH]; intros X HI Hl Hm; cbn [live fold_left]; auto.
    inversion Hl as [|? ? Ha Hl']; subst.
    assert (Hm' : Forall no_mode_change (calls l) \/ (two_way w /\ doubling K)).
    { destruct Hm as [Hm|Hm]; auto. left. destruct a; cbn in Hm; auto. now inversion Hm. }
    apply (IH (fun k => act_step K close (fun v => v) (X k) a)); auto. destruct a as [o|g].
    - apply (step_inv K opp pairs atoms env w OK close 1 (le_n 1) fixed HF X o); auto.
      destruct Hm as [Hm|Hm]; auto. left. cbn in Hm. now inversion Hm.
    - now apply (move_inv K pairs w close 1 (le_n 1) fixed).
  Qed.

  Theorem live_value c e t full l s : Forall act_ok l -> mode_ok K w full (calls l) ->
    let x := live K close (fun v => v) (l ++ [Do (OpEval s)]) (init K c e t full fixed 0 1) in
    val x = total K pairs (fullsum x) (cf x) s.
  Proof.
    intros Hl [Hm1 Hm2] x.
    pose proof (live_inv l _ (init_inv K pairs w 1 (le_n 1) fixed c e t full Hm1) Hl Hm2) as HI.
    set (X := fun k => live K close (fun v => v) l (init K c e t full fixed k 1)) in *.
    destruct (eval_good K opp pairs atoms env w OK close 1 (le_n 1) fixed HF X s X HI) as [_ [_ G]].
    assert (EX : x = state_of (eval K close s (X O)) (X O)) by (unfold x, live; rewrite fold_left_app; reflexivity).
    cbv beta in G. rewrite <- EX in G. rewrite <- G. unfold vsum. cbn [seq map sum fold_right].
    rewrite (add_comm _ _ _ _ _ _ OK), (add_zero _ _ _ _ _ _ OK). now rewrite EX.
  Qed.
End Serial.

(** the shape of what eval leaves behind *)
Lemma eval_shape {stru cfg bond V} (K : calc stru cfg bond V) close s x :
  let z := state_of (eval K close s x) x in
  ncpu z = ncpu x /\ kind z = kind x /\ (kind x <> EvCheck -> exists v, val z = finish K (1 <? ncpu x)%nat v).
Proof.
  assert (SS : forall s y, ncpu (setStructure K s y) = ncpu y /\ kind (setStructure K s y) = kind y)
    by (intros s' y; unfold setStructure; destruct (custom K s' (cf y)); auto).
  assert (BU : forall s y, ncpu (basic_update K s y) = ncpu y /\ kind (basic_update K s y) = kind y).
  { intros s' y. unfold basic_update. cbn. apply (SS s' (set_used EvBasic y)). }
  assert (OU : forall y, ncpu (optimized_update K s y) = ncpu y /\ kind (optimized_update K s y) = kind y).
  { intros y. unfold optimized_update. assert (CU : forall z, ncpu (complete_update K s z) = ncpu z /\ kind (complete_update K s z) = kind z) by (intros z; apply (BU s z)).
    destruct (last _); [|apply (CU (set_used EvOptimized y))]. destruct (_ <=? _); [apply (CU (set_used EvOptimized y))|].
    destruct (negb _); [apply (CU (set_used EvOptimized y))|]. destruct (_ && _); [apply (CU (set_used EvOptimized y))|].
    unfold fast_update. destruct (rm_trace _ _ _ _ _ _ _ _) as [t0 n1].
    match goal with |- context [setStructure K s ?a] => pose proof (SS s a) as S1 end. cbn [ncpu kind set_val set_used] in S1.
    destruct (_ <=? _); [match goal with |- context [complete_update K s ?a] => pose proof (CU a) as S2 end; intuition congruence|].
    cbn [ncpu kind click_value set_last set_val]. exact S1. }
  cbv zeta. unfold eval, update. destruct (kind x) eqn:EK; cbn [state_of finished set_val ncpu kind val].
  - rewrite (proj1 (BU s x)), (proj2 (BU s x)). split; auto. split; auto. eauto.
  - rewrite (proj1 (BU s x)), (proj2 (BU s x)). split; auto. split; auto. eauto.
  - rewrite (proj1 (OU x)), (proj2 (OU x)). split; auto. split; auto. eauto.
  - unfold check_update. destruct (evtype_eqb _ _); cbn [state_of finished set_val ncpu kind val].
    + rewrite (proj1 (OU x)), (proj2 (OU x)). split; auto. split; [auto|congruence].
    + destruct (close _ _); cbn [state_of finished set_val set_used ncpu kind val];
        rewrite (proj1 (BU s _)), (proj2 (BU s _)), (proj1 (OU x)), (proj2 (OU x)); (split; [|split; [|congruence]]); auto.
Qed.
