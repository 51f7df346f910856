(** C24-C27 and the check of BondCalculator results: proofs. *)
From Coq Require Import Sorting.Sorted.
From Verif Require Import RBase R3 Trig TrigProofs Lattice BondGen StructDiff StructDiffSpec Evaluator EvaluatorSpec EvaluatorProofs
  EvaluatorHist EvaluatorRun EvaluatorMore BondCalc BondCalcSpec BondCalcProofs BondCalcSim.
Open Scope nat_scope.

Lemma Permutation_filter' {B} (f : B -> bool) l l' : Permutation l l' -> Permutation (filter f l) (filter f l').
Proof.
  induction 1; cbn; auto.
  - destruct (f x); auto.
  - destruct (f x), (f y); auto using perm_swap.
  - etransitivity; eauto.
Qed.

(** *** order *)
Lemma leb_entry x y : leb_e x y <-> entry_le x y.
Proof.
  unfold leb_e, entry_le. split.
  - intros H. destruct (lex_total x y) as [L|[L|L]]; [left; exact L|now right|].
    apply compare_lex in L. congruence.
  - intros [H | ->]; [|apply compare_irrefl]. apply compare_asym. now apply compare_lex.
Qed.
Lemma sorted_order l : Sorted' l <-> in_order l.
Proof.
  unfold in_order. split; induction 1 as [|x l H IH F]; constructor; auto;
    eapply Forall_impl; try exact F; intros y; apply leb_entry.
Qed.
Lemma in_order_unique l l' : in_order l -> in_order l' -> Permutation l l' -> l = l'.
Proof. rewrite <- !sorted_order. apply sorted_unique. Qed.
Lemma in_order_dist l : in_order l -> StronglySorted Rle (map e_dist l).
Proof.
  unfold in_order. induction 1 as [|x l H IH F]; cbn [map]; constructor; auto.
  apply Forall_map. eapply Forall_impl; [|exact F]. intros y [L | ->]; [|apply Rle_refl].
  unfold entry_lt in L. destruct L as [L|[L _]]; lra.
Qed.

Section Main.
  Context {stru cfg V0 : Type} (W : calc stru cfg bond V0) (cone : cfg -> cones).
  Context (pairs : cfg -> stru -> nat -> nat -> list bond).
  Context {A E : Type} (atoms : stru -> list A) (env : stru -> E)
    (we : cfg -> E -> nat -> A -> nat -> A -> list bentry).
  Hypothesis WO : world_ok W cone pairs atoms env we.
  Notation K1 := (bond_calc W cone).

  Theorem bonds_of_history close c e t ops s : t <> EvCheck -> Forall bond_op ops ->
    let x := run K1 close (ops ++ [OpEval s]) (init K1 c e t true true 0 1) in
    exists l, in_order l /\ Permutation l (all_bonds W cone pairs (cf x) s) /\
      bvalue (val x) = map e_dist l /\ distances (val x) = map e_dist l /\ StronglySorted Rle (distances (val x)) /\
      directions (val x) = map (fun b => V3 (e_d0 b) (e_d1 b) (e_d2 b)) l /\
      sites0 (val x) = map e_s0 l /\ sites1 (val x) = map e_s1 l.
  Proof.
    intros Ht H x.
    destruct (bonds_history W cone pairs atoms env we WO close (fun _ _ => true) c e t ops s Ht H) as ((S & _ & _ & B) & P & _).
    fold x in S, B, P. exists (bonds (val x)). apply sorted_order in S.
    split; [exact S|]. split; [exact P|]. split; [exact B|]. split; [reflexivity|]. split; [now apply in_order_dist|].
    split; [reflexivity|]. split; reflexivity.
  Qed.

  Theorem same_bonds close close' c e t ops c' e' t' ops' s :
    t <> EvCheck -> Forall bond_op ops -> t' <> EvCheck -> Forall bond_op ops' ->
    let x := run K1 close (ops ++ [OpEval s]) (init K1 c e t true true 0 1) in
    let x' := run K1 close' (ops' ++ [OpEval s]) (init K1 c' e' t' true true 0 1) in
    cf x = cf x' -> val x = val x'.
  Proof.
    intros Ht H Ht' H' x x' Hc.
    destruct (bonds_history W cone pairs atoms env we WO close (fun _ _ => true) c e t ops s Ht H) as ((S & P1 & A1 & B1) & P & _).
    destruct (bonds_history W cone pairs atoms env we WO close' (fun _ _ => true) c' e' t' ops' s Ht' H') as ((S' & P1' & A1' & B1') & P' & _).
    fold x in S, P1, A1, B1, P. fold x' in S', P1', A1', B1', P'.
    assert (EB : bonds (val x) = bonds (val x')).
    { apply sorted_unique; auto. rewrite P, P', Hc. auto. }
    destruct (val x) as [b p a v], (val x') as [b' p' a' v']. cbn in *. subst. reflexivity.
  Qed.
End Main.

(** *** parallel *)
Section Par.
  Context {stru cfg V0 : Type} (W : calc stru cfg bond V0) (cone : cfg -> cones).
  Notation K1 := (bond_calc W cone).
  Context (close : bval -> bval -> bool).

  Definition all_ents (c : cfg) (s : stru) (k n : nat) : list bentry := ents cone c true (basic_trace K1 c s true k n).

  Lemma bt_pos c s full k n : Forall (fun e => (0 < snd e)%Z) (basic_trace K1 c s full k n).
  Proof. exact (basic_sign W cone c s full k n). Qed.

  (** a complete evaluation *)
  Lemma complete_val s x : fullsum x = true ->
    let y := basic_update K1 s x in
    cf y = fst (custom W s (cf x)) /\ fullsum y = true /\ kind y = kind x /\ last y = last x /\ cpu y = cpu x /\ ncpu y = ncpu x /\
    used y = EvBasic /\
    val y = {| bonds := []; pops := []; adds := all_ents (cf y) s (cpu x) (ncpu x); bvalue := [] |}.
  Proof.
    intros HF. unfold basic_update, setStructure. cbn [cf set_used custom bond_calc].
    destruct (custom W s (cf x)) as [c' b]. cbn [cf fullsum kind last cpu ncpu used val ms click_value set_val set_used fst].
    rewrite HF. split_conj; auto. rewrite (apply1 W cone). cbn [zero bond_calc bzero bonds pops adds bvalue app].
    rewrite (ents_pos cone) by apply bt_pos. reflexivity.
  Qed.

  Definition fresh (x : st stru cfg bval) : Prop :=
    fullsum x = true /\ last x = None.
  Lemma fresh_eval s x d : fresh x ->
    let y := state_of (eval K1 close s x) d in
    cf y = fst (custom W s (cf x)) /\
    val y = finishValue (1 <? ncpu x) {| bonds := []; pops := []; adds := all_ents (cf y) s (cpu x) (ncpu x); bvalue := [] |}.
  Proof.
    intros [HF HL].
    assert (HU : exists y, update K1 close s x = Ok y /\ ncpu y = ncpu x /\ cf y = fst (custom W s (cf x)) /\
      val y = {| bonds := []; pops := []; adds := all_ents (cf y) s (cpu x) (ncpu x); bvalue := [] |}).
    { destruct (complete_val s x HF) as (B1 & B2 & B3 & B4 & B5 & B6 & B7 & B8).
      set (x' := set_used EvOptimized x).
      assert (HO : optimized_update K1 s x = complete_update K1 s x') by (unfold optimized_update; cbn [last set_used]; now rewrite HL).
      destruct (complete_val s x' HF) as (C1 & C2 & C3 & C4 & C5 & C6 & C7 & C8).
      unfold update. destruct (kind x).
      - eexists. split; [reflexivity|auto].
      - eexists. split; [reflexivity|auto].
      - eexists. split; [reflexivity|]. rewrite HO. auto.
      - unfold check_update. rewrite HO. change (used (complete_update K1 s x')) with (used (basic_update K1 s x')). rewrite C7.
        eexists. split; [reflexivity|auto]. }
    destruct HU as (y & HU & Hn & Hc & Hv). unfold eval. rewrite HU. cbn [state_of finished cf val set_val finish bond_calc].
    rewrite Hn, Hv. auto.
  Qed.

  Lemma finish_adds par a : finishValue par {| bonds := []; pops := []; adds := a; bvalue := [] |} =
    if par then {| bonds := []; pops := []; adds := sort a; bvalue := [] |}
    else {| bonds := sort a; pops := []; adds := []; bvalue := map e_dist (sort a) |}.
  Proof. destruct par; reflexivity. Qed.

  (** merging *)
  Lemma bmerge_nil : bmerge [] [] = []. Proof. reflexivity. Qed.
  Lemma bmerge_sort a b : Sorted' a -> Sorted' b -> bmerge a b = sort (a ++ b).
  Proof.
    intros Ha Hb. destruct (bmerge_spec a b) as [P S]. apply sorted_unique; auto using sort_sorted.
    rewrite P. apply sort_perm.
  Qed.
  Lemma merge_all_spec ds : forall a k n, ds <> [] -> k + length ds = n -> Sorted' a ->
    Forall (fun d => fst d = [] /\ Sorted' (snd d)) ds ->
    merge_all ds n ({| bonds := []; pops := []; adds := a; bvalue := [] |}, k) =
    Ok (let l := sort (a ++ flat_map snd ds) in {| bonds := l; pops := []; adds := []; bvalue := map e_dist l |}, n).
  Proof.
    induction ds as [|[p b] ds IH]; intros a k n Hne Hk Ha F; [congruence|].
    inversion F as [|? ? [Hp Hb] F']; subst. cbn [fst snd] in Hp, Hb. subst p.
    cbn [merge_all]. unfold mergeParallelData. cbn [length].
    destruct (Nat.leb_spec (k + S (length ds)) k); [lia|].
    unfold executeParallelMerge. cbn [bonds pops adds bvalue fst snd]. rewrite bmerge_nil, bmerge_sort by auto.
    destruct ds as [|d ds].
    - cbn [length]. replace (S k =? k + 1) with true by (symmetry; apply Nat.eqb_eq; lia).
      cbn [merge_all flat_map]. rewrite app_nil_r, finish_adds, (sort_id (sort _)) by apply sort_sorted.
      replace (k + 1) with (S k) by lia. reflexivity.
    - destruct (Nat.eqb_spec (S k) (k + S (length (d :: ds)))); [cbn in *; lia|].
      rewrite IH; auto using sort_sorted; [|congruence|cbn; lia].
      cbn [flat_map snd]. do 2 f_equal. 
      assert (ES : sort (sort (a ++ b) ++ flat_map snd (d :: ds)) = sort (a ++ b ++ flat_map snd (d :: ds))).
      { apply sort_perm_eq. rewrite <- sort_perm, app_assoc. auto. }
      cbn [flat_map] in ES. now rewrite ES.
  Qed.

  Lemma merged_workers (order : list nat) N (X : nat -> st stru cfg bval) (x1 : st stru cfg bval) s :
    2 <= N -> Permutation order (seq 0 N) ->
    (forall k, fresh (X k) /\ cpu (X k) = k /\ ncpu (X k) = N /\ cf (X k) = cf x1) -> fresh x1 -> ncpu x1 = 1 ->
    merge_all (map (fun k => getParallelData (val (state_of (eval K1 close s (X k)) (X k)))) order) N (bzero, 0) =
    Ok (val (state_of (eval K1 close s x1) x1), N).
  Proof.
    intros HN HP HX H1 Hn1.
    destruct (fresh_eval s x1 x1 H1) as [Ec Ev].
    assert (EX : forall k, getParallelData (val (state_of (eval K1 close s (X k)) (X k))) = ([], sort (all_ents (fst (custom W s (cf x1))) s k N))).
    { intros k. destruct (HX k) as (F & C1 & C2 & C3). destruct (fresh_eval s (X k) (X k) F) as [E1 E2].
      rewrite E2, E1, C1, C2, C3, finish_adds. destruct (Nat.ltb_spec 1 N); [|lia]. reflexivity. }
    erewrite map_ext by exact EX.
    unfold bzero. rewrite merge_all_spec.
    - rewrite Ev, Ec, Hn1. cbn [Nat.ltb Nat.leb]. rewrite finish_adds. set (c := fst (custom W s (cf x1))).
      cbn [app]. do 2 f_equal.
      assert (ES : sort (flat_map snd (map (fun k : nat => (@nil bentry, sort (all_ents c s k N))) order)) = sort (all_ents c s (cpu x1) 1)).
      { apply sort_perm_eq. rewrite flat_map_concat_map, map_map, <- flat_map_concat_map. cbn [snd].
        rewrite (Permutation_flat_map _ _ _ HP).
        assert (P1 : forall l, Permutation (flat_map (fun k => sort (all_ents c s k N)) l) (flat_map (fun k => all_ents c s k N) l)).
        { induction l as [|k l IH]; cbn [flat_map]; auto. apply Permutation_app; auto. symmetry. apply sort_perm. }
        rewrite P1. unfold all_ents.
        assert (P2 : forall l, flat_map (fun k => ents cone c true (basic_trace K1 c s true k N)) l = ents cone c true (flat_map (fun k => basic_trace K1 c s true k N) l)).
        { induction l as [|k l IH]; cbn [flat_map]; auto. rewrite IH. unfold ents. now rewrite !filter_app, !map_app, filter_app, map_app. }
        rewrite P2. rewrite basic_trace_serial. unfold ents.
        apply Permutation_map, Permutation_filter', Permutation_map, Permutation_filter'.
        apply basic_trace_partition. lia. }
      now rewrite ES.
    - intros EM. apply map_eq_nil in EM. subst order. apply Permutation_length in HP. rewrite seq_length in HP. cbn in HP. lia.
    - rewrite map_length, (Permutation_length HP), seq_length. reflexivity.
    - constructor.
    - apply Forall_map, Forall_forall. intros k _. split; [reflexivity|apply sort_sorted].
  Qed.

  (** histories without evaluation *)
  Lemma setup_run ops : Forall setup_op ops -> forall x x', fresh x -> fresh x' -> kind x = kind x' -> cf x = cf x' ->
    let y := run K1 close ops x in let y' := run K1 close ops x' in
    fresh y /\ fresh y' /\ kind y = kind y' /\ cf y = cf y' /\ cpu y = cpu x /\ ncpu y = ncpu x /\ ncpu y' = ncpu x'.
  Proof.
    induction 1 as [|o ops Ho _ IH]; intros x x' F F' HK HC; cbn [run fold_left]; [tauto|].
    assert (G : let y := step K1 close o x in let y' := step K1 close o x' in
      fresh y /\ fresh y' /\ kind y = kind y' /\ cf y = cf y' /\ cpu y = cpu x /\ ncpu y = ncpu x /\ ncpu y' = ncpu x').
    { destruct o; cbn in Ho; try contradiction; cbn [step].
      - cbn. rewrite HC. tauto.
      - unfold setStructure, fresh in *. cbn [custom bond_calc]. rewrite HC.
        destruct (custom W s (cf x')); cbn. tauto.
      - unfold setEvaluatorType. rewrite HK. cbn [has_stash bond_calc]. unfold fresh in *. destruct (evtype_eqb _ t); cbn; [tauto|].
        destruct t; cbn; tauto. }
    destruct G as (G1 & G2 & G3 & G4 & G5 & G6 & G7).
    destruct (IH _ _ G1 G2 G3 G4) as (I1 & I2 & I3 & I4 & I5 & I6 & I7).
    rewrite <- G5, <- G6, <- G7. unfold run in *. tauto.
  Qed.

  Theorem parallel_bonds c e t ops s N order : 2 <= N -> Forall setup_op ops -> Permutation order (seq 0 N) ->
    let x k n := run K1 close (ops ++ [OpEval s]) (init K1 c e t true true k n) in
    merge_all (map (fun k => getParallelData (val (x k N))) order) N (bzero, 0) = Ok (val (x 0 1), N).
  Proof.
    intros HN H HP x.
    assert (Hx : forall k n, x k n = let y := run K1 close ops (init K1 c e t true true k n) in state_of (eval K1 close s y) y).
    { intros k n. unfold x, run. now rewrite fold_left_app. }
    rewrite Hx. erewrite map_ext; [|intros k; rewrite Hx; reflexivity]. cbv zeta.
    assert (F0 : forall k n, fresh (init K1 c e t true true k n)) by (intros; split; reflexivity).
    apply merged_workers; auto.
    - intros k. destruct (setup_run ops H _ _ (F0 k N) (F0 0 1) eq_refl eq_refl) as (I1 & I2 & I3 & I4 & I5 & I6 & I7). auto.
    - apply (setup_run ops H _ _ (F0 0 1) (F0 0 1) eq_refl eq_refl).
    - apply (setup_run ops H _ _ (F0 0 1) (F0 0 1) eq_refl eq_refl).
  Qed.

  (** N = 1: the worker is not parallel, its lists are empty after finishValue *)
  Lemma finish_false_empty v : pops (finishValue false v) = [] /\ adds (finishValue false v) = [].
  Proof. split; reflexivity. Qed.
  Theorem one_worker c e t ops s : Forall setup_op ops ->
    let x := run K1 close (ops ++ [OpEval s]) (init K1 c e t true true 0 1) in
    exists v, merge_all [getParallelData (val x)] 1 (bzero, 0) = Ok (v, 1) /\ bonds v = [].
  Proof.
    intros H x.
    assert (F0 : fresh (init K1 c e t true true 0 1)) by (split; reflexivity).
    destruct (setup_run ops H _ _ F0 F0 eq_refl eq_refl) as (I1 & _ & _ & _ & _ & I6 & _).
    assert (Ex : x = let y := run K1 close ops (init K1 c e t true true 0 1) in state_of (eval K1 close s y) y).
    { unfold x, run. now rewrite fold_left_app. }
    cbv zeta in Ex. destruct (fresh_eval s _ (run K1 close ops (init K1 c e t true true 0 1)) I1) as [_ Ev].
    rewrite <- Ex, I6 in Ev. rewrite Ev. cbn [ncpu init Nat.ltb Nat.leb]. eexists. split; reflexivity.
  Qed.

  (** the check of results *)
  Theorem check_throws s x : kind x = EvCheck -> bonds (val x) <> [] ->
    used (optimized_update K1 s x) <> EvBasic ->
    exists y, eval K1 bclose s x = Throw LogicError y.
  Proof.
    intros HK HB HU. unfold eval, update. rewrite HK. unfold check_update.
    destruct (evtype_eqb (used (optimized_update K1 s x)) EvBasic) eqn:EU; [destruct (used (optimized_update K1 s x)); discriminate || congruence|].
    assert (E1 : bonds (val (optimized_update K1 s x)) = bonds (val x)).
    { revert HU. unfold optimized_update.
      assert (HC : forall y, used (complete_update K1 s y) = EvBasic) by (intros y; unfold complete_update, basic_update, setStructure; cbn; now destruct (custom _ _ _)).
      destruct (last _); [|rewrite HC; congruence]. destruct (_ <=? _)%Z; [rewrite HC; congruence|].
      destruct (negb _); [rewrite HC; congruence|]. destruct (_ && _); [rewrite HC; congruence|].
      unfold fast_update. destruct (rm_trace _ _ _ _ _ _ _ _) as [t0 n1].
      destruct (_ <=? _)%Z; [rewrite HC; congruence|]. intros _. cbn [val click_value set_last set_val restash bond_calc].
      rewrite !(apply1 W cone). reflexivity. }
    assert (E2 : bonds (val (set_used EvCheck (basic_update K1 s (optimized_update K1 s x)))) = []).
    { cbn [val set_used]. unfold basic_update, setStructure. cbn [custom bond_calc cf set_used]. destruct (custom W s _).
      cbn [val click_value set_val]. rewrite (apply1 W cone). reflexivity. }
    set (y := set_used EvCheck _) in *. assert (EC : bclose (val (optimized_update K1 s x)) (val y) = false).
    { unfold bclose, sites0 at 1 2. rewrite E1, E2. unfold natlist_eqb at 1. rewrite map_length.
      destruct (bonds (val x)); [congruence|]. cbn [length map Nat.eqb andb]. now rewrite andb_false_r. }
    rewrite EC. eauto.
  Qed.
End Par.

(** *** cones *)
Open Scope R_scope.
Definition cone_ok (x : cones) (l : list (vec * R)) : Prop :=
  c_dirs x = map (fun f => vscale (/ vnorm (fst f)) (fst f)) l /\ c_degs x = map snd l /\
  Forall (fun f => / 67108864 < vnorm (fst f)) l.
Lemma filter_guard n : eps_gt n 0 SQRT_DOUBLE_EPS = true <-> / 67108864 < n.
Proof.
  unfold eps_gt. rewrite Rltb_true. unfold SQRT_DOUBLE_EPS. split; intros; lra.
Qed.
Lemma cone_step_ok x l o : cone_ok x l -> cone_ok (cone_step x o) (active_step l o).
Proof.
  intros (H1 & H2 & H3). destruct o as [ax deg|]; cbn [cone_step active_step].
  - unfold filterCone. destruct (Rlt_dec _ _) as [Hn|Hn].
    + pose proof (proj2 (filter_guard _) Hn) as ->. cbn [negb].
      split; [|split]; cbn [c_dirs c_degs].
      * rewrite H1, map_app. reflexivity.
      * rewrite H2, map_app. reflexivity.
      * apply Forall_app. split; auto.
    + destruct (eps_gt (vnorm ax) 0 SQRT_DOUBLE_EPS) eqn:EG; [apply filter_guard in EG; contradiction|].
      cbn [negb]. split; auto.
  - split; [|split]; cbn; auto.
Qed.
Lemma cone_run_ok ops : cone_ok (cone_run ops) (active ops).
Proof.
  unfold cone_run, active.
  assert (G : forall x l, cone_ok x l -> cone_ok (fold_left cone_step ops x) (fold_left active_step ops l)).
  { induction ops as [|o ops IH]; intros x l H; cbn [fold_left]; auto. apply IH. now apply cone_step_ok. }
  apply G. repeat split; constructor.
Qed.

Lemma cosine_range u v : 0 < vnorm u -> 0 < vnorm v -> -1 <= vdot u v / (vnorm u * vnorm v) <= 1.
Proof.
  intros Hu Hv. pose proof (cauchy u v) as C.
  rewrite <- !vnorm_sq in C. set (a := vnorm u) in *. set (b := vnorm v) in *. set (d := vdot u v) in *.
  assert (P : 0 < a * b) by nra. assert (D : d * d <= (a * b) * (a * b)) by nra.
  assert (H : - (a * b) <= d <= a * b) by (split; nra).
  assert (Q : d / (a * b) * (a * b) = d) by (field; split; lra).
  set (q := d / (a * b)) in *. split; nra.
Qed.
Lemma dot_units u v : 0 < vnorm u -> 0 < vnorm v ->
  vdot (vscale (/ vnorm u) u) (vscale (/ vnorm v) v) = vdot u v / (vnorm u * vnorm v).
Proof.
  intros Hu Hv. unfold vdot, vscale. cbn [vx vy vz]. field. split; lra.
Qed.
Lemma angle_cone u v deg : 0 < vnorm u -> 0 < vnorm v ->
  (180 / PI * acos (vdot (vscale (/ vnorm u) u) (vscale (/ vnorm v) v)) <= deg <-> in_cone u v deg).
Proof.
  intros Hu Hv. rewrite dot_units by auto. pose proof (cosine_range u v Hu Hv) as R.
  set (q := vdot u v / (vnorm u * vnorm v)) in *. pose proof PI_RGT_0 as HP.
  assert (EQ : vdot u v = vnorm u * vnorm v * q) by (unfold q; field; split; lra).
  split.
  - intros H. exists (acos q). split; [apply acos_bound|]. split; [rewrite cos_acos by auto; exact EQ|].
    replace (acos q * 180 / PI) with (180 / PI * acos q) by (field; lra). exact H.
  - intros (t & Ht & Hc & Hd). rewrite EQ in Hc.
    assert (cos t = q) as HQ.
    { apply Rmult_eq_reg_l in Hc; [auto|]. apply Rgt_not_eq. nra. }
    rewrite (acos_cos' q t Ht HQ). replace (180 / PI * t) with (t * 180 / PI) by (field; lra). exact Hd.
Qed.

Theorem cone_filters ops b : b_distance b = vnorm (b_r01 b) -> 0 < b_distance b ->
  (passes (cone_run ops) b = true <-> accepted (active ops) (b_r01 b)).
Proof.
  intros Hd Hp. destruct (cone_run_ok ops) as (H1 & H2 & H3). unfold passes, checkConeFilters, accepted.
  rewrite H1, H2. rewrite Hd in *. set (r := b_r01 b) in *. clearbody r. clear Hd H1 H2. generalize dependent (active ops). intros l H3.
  assert (G : cone_loop (vscale (/ vnorm r) r) (map (fun f => vscale (/ vnorm (fst f)) (fst f)) l) (map snd l) = true <->
    exists axis deg, In (axis, deg) l /\ (180 <= deg \/ in_cone r axis deg)).
  { induction H3 as [|[ax deg] l Hn _ IH]; cbn [map cone_loop fst snd].
    - split; [discriminate|]. intros (? & ? & [] & _).
    - cbn [fst] in Hn. assert (Hv : 0 < vnorm ax) by lra. pose proof (angle_cone r ax deg Hp Hv) as AC.
      destruct (Rleb 180 deg) eqn:E1.
      { apply Rleb_true in E1. split; auto. intros _. exists ax, deg. split; [now left|now left]. }
      apply Rleb_false in E1.
      destruct (Rleb (180 / PI * acos _) deg) eqn:E2.
      { apply Rleb_true in E2. apply AC in E2. split; auto. intros _. exists ax, deg. split; [now left|now right]. }
      apply Rleb_false in E2. rewrite IH. split.
      + intros (a & d & Hi & H). exists a, d. split; [now right|auto].
      + intros (a & d & [Hi|Hi] & H); [|eauto]. injection Hi as -> ->. destruct H as [H|H]; [lra|].
        apply AC in H. lra. }
  destruct l as [|f l]; cbn [map].
  - split; auto.
  - cbn [map] in G. rewrite G. split; auto. intros [H|H]; [discriminate|exact H].
Qed.

Theorem cone_clicks ops o :
  (active (ops ++ [o]) = active ops /\ cone_run (ops ++ [o]) = cone_run ops) \/
  (active (ops ++ [o]) <> active ops /\ c_clicks (cone_run (ops ++ [o])) = S (c_clicks (cone_run ops))).
Proof.
  pose proof (cone_run_ok ops) as (H1 & H2 & _). unfold cone_run, active in *. rewrite !fold_left_app. cbn [fold_left].
  set (x := fold_left cone_step ops cones0) in *. set (l := fold_left active_step ops []) in *.
  destruct o as [ax deg|]; cbn [cone_step active_step].
  - unfold filterCone. destruct (Rlt_dec _ _) as [Hn|Hn].
    + right. pose proof (proj2 (filter_guard _) Hn) as ->. cbn [negb c_clicks]. split; auto.
      intros E. apply (f_equal (@length _)) in E. rewrite app_length in E. cbn in E. lia.
    + left. destruct (eps_gt (vnorm ax) 0 SQRT_DOUBLE_EPS) eqn:EG; [apply filter_guard in EG; contradiction|]. auto.
  - destruct l as [|f l']; [left|right]; cbn [map] in H1, H2.
    + split; auto. unfold filterOff. rewrite H1. destruct x; cbn in *. now subst.
    + split; [discriminate|]. unfold filterOff. cbn [c_clicks]. now rewrite H1.
Qed.
Theorem cone_error ax deg x : vnorm ax <= / 67108864 -> filterCone ax deg x = Throw InvalidArgument x.
Proof.
  intros H. unfold filterCone. destruct (eps_gt (vnorm ax) 0 SQRT_DOUBLE_EPS) eqn:E; auto. apply filter_guard in E. lra.
Qed.
