(** BondCalculator simulates the calculator that counts bonds with sign. *)
From Coq Require Import Sorting.Sorted FunctionalExtensionality.
From Verif Require Import RBase R3 Trig Lattice BondGen StructDiff StructDiffSpec Evaluator EvaluatorSpec EvaluatorProofs
  EvaluatorHist EvaluatorRun EvaluatorMore BondCalc BondCalcSpec BondCalcProofs.
Open Scope nat_scope.
Notation Sorted' := (StronglySorted leb_e).
Notation cnt := (count_occ bentry_eq_dec).

Ltac split_conj := lazymatch goal with |- _ /\ _ => split; [|split_conj] | _ => idtac end.
Section Sim.
  Context {stru cfg V0 : Type} (W : calc stru cfg bond V0) (cone : cfg -> cones).
  Context (pairs : cfg -> stru -> nat -> nat -> list bond).
  Context {A E : Type} (atoms : stru -> list A) (env : stru -> E)
    (we : cfg -> E -> nat -> A -> nat -> A -> list bentry).
  Hypothesis WO : world_ok W cone pairs atoms env we.
  Open Scope Z_scope.

  Definition cV := bentry -> Z.
  Definition ccontrib (c : cfg) (s : stru) (b : bond) (z : Z) : cV :=
    fun e => if passes (cone c) b then (if bentry_eq_dec (entryFrom b) e then Z.sgn z else 0) else 0.
  Definition count_calc : calc stru cfg bond cV :=
    {| zero := fun _ => 0; add := fun f g e => f e + g e; Evaluator.nsites := Evaluator.nsites W; Evaluator.gen := Evaluator.gen W;
       Evaluator.site1 := Evaluator.site1 W; hasmask := hasmask W; haspairmask := haspairmask W;
       mask := mask W; contrib := ccontrib; custom := custom W; sdif := sdif W; outer_ok := outer_ok W;
       has_stash := true; restash := fun v => v; finish := fun _ v => v |}.
  Definition copp (f : cV) : cV := fun e => - f e.
  Definition cw (c : cfg) (e : E) (z : Z) (i : nat) (a : A) (j : nat) (b : A) : cV :=
    fun x => Z.sgn z * Z.of_nat (cnt (we c e i a j b) x).

  Lemma sum_at (l : list cV) e : sum count_calc l e = fold_right Z.add 0 (map (fun f => f e) l).
  Proof. induction l as [|f l IH]; [reflexivity|]. unfold sum in *. cbn in *. now rewrite IH. Qed.
  Lemma pairs_count c s z bs e :
    fold_right Z.add 0 (map (fun b => ccontrib c s b z e) bs) =
    Z.sgn z * Z.of_nat (cnt (map entryFrom (filter (passes (cone c)) bs)) e).
  Proof.
    induction bs as [|b bs IH]; cbn [map filter fold_right]; [cbn; lia|].
    rewrite IH. unfold ccontrib. destruct (passes (cone c) b); [|lia].
    cbn [map count_occ]. destruct (bentry_eq_dec (entryFrom b) e); lia.
  Qed.
  Lemma pair_value_count c s z i j e :
    pair_value count_calc pairs c s z i j e = Z.sgn z * Z.of_nat (cnt (pair_entries W cone pairs c s i j) e).
  Proof.
    unfold pair_value, pair_entries. change line_of with entryFrom. cbn [mask count_calc]. destruct (mask W c s i j); [|cbn; lia].
    rewrite sum_at, map_map. apply pairs_count.
  Qed.

  Lemma count_ok : calc_ok count_calc copp pairs atoms env cw.
  Proof.
    destruct WO as [w1 w2 w3 w4 w5 w6 w7 w8].
    split; cbn [zero add Evaluator.nsites Evaluator.gen Evaluator.site1 hasmask haspairmask mask contrib custom sdif restash finish count_calc]; auto;
      try (intros; apply functional_extensionality; intros x; unfold copp; lia).
    - intros c s b z. apply functional_extensionality. intros x. unfold copp, ccontrib.
      destruct (passes _ _); [|lia]. destruct (bentry_eq_dec _ _); [|lia]. now rewrite Z.sgn_opp.
    - intros c s z i j a b Ha Hb. apply functional_extensionality. intros x. rewrite pair_value_count. unfold cw.
      do 2 f_equal. now apply perm_cnt, w5.
  Qed.

  Notation K1 := (bond_calc W cone).
  Notation K2 := count_calc.

  (** the total is the count over all bonds *)
  Lemma fold_flat {B} (f : B -> list bentry) l e :
    fold_right Z.add 0 (map (fun x => Z.of_nat (cnt (f x) e)) l) = Z.of_nat (cnt (flat_map f l) e).
  Proof. induction l as [|x l IH]; cbn [map fold_right flat_map]; auto. rewrite IH, count_occ_app. lia. Qed.
  Lemma total_count c s e : total K2 pairs true c s e = Z.of_nat (cnt (all_bonds W cone pairs c s) e).
  Proof.
    unfold total, full_total, all_bonds. rewrite sum_at, map_map, <- fold_flat.
    cbn [Evaluator.nsites count_calc]. f_equal. apply map_ext. intros i. rewrite sum_at, map_map, <- fold_flat.
    f_equal. apply map_ext. intros j. rewrite pair_value_count. cbn [Z.sgn]. lia.
  Qed.

  (** traces *)
  Definition ents (c : cfg) (pos : bool) (t : list (bond * Z)) : list bentry :=
    map entryFrom (filter (passes (cone c)) (map fst (filter (fun e => Bool.eqb (0 <? snd e) pos) t))).
  Lemma apply1 c s t : forall v, apply_trace K1 c s t v =
    {| bonds := bonds v; pops := pops v ++ ents c false t; adds := adds v ++ ents c true t; bvalue := bvalue v |}.
  Proof.
    unfold apply_trace. induction t as [|[b z] t IH]; intros v; cbn [fold_left].
    - unfold ents. cbn. rewrite !app_nil_r. now destruct v.
    - rewrite IH. cbn [add contrib bond_calc fst snd]. unfold ents, bcontrib. cbn [filter map snd fst].
      destruct (passes (cone c) b) eqn:EP; cbn [negb]; destruct (0 <? z) eqn:EZ; cbn [Bool.eqb];
        cbn [badd bonds pops adds bvalue bzero map filter fst]; rewrite ?EP; cbn [map];
        rewrite ?app_nil_r, <- ?app_assoc; reflexivity.
  Qed.
  Lemma apply2 c s t : Forall (fun e => snd e <> 0) t -> forall v e,
    apply_trace K2 c s t v e = v e + Z.of_nat (cnt (ents c true t) e) * 1 - Z.of_nat (cnt (ents c false t) e) +
      fold_right Z.add 0 (map (fun p => if passes (cone c) (fst p) then if bentry_eq_dec (entryFrom (fst p)) e then Z.sgn (snd p) else 0 else 0) t)
      - Z.of_nat (cnt (ents c true t) e) + Z.of_nat (cnt (ents c false t) e).
  Proof.
    intros _. unfold apply_trace. induction t as [|[b z] t IH]; intros v e; cbn [fold_left].
    - cbn. lia.
    - rewrite IH. cbn [add contrib count_calc fst snd map fold_right]. unfold ccontrib. lia.
  Qed.
  Lemma apply2' c s t : Forall (fun e => snd e <> 0) t -> forall v e,
    apply_trace K2 c s t v e = v e + Z.of_nat (cnt (ents c true t) e) - Z.of_nat (cnt (ents c false t) e).
  Proof.
    intros H v e. rewrite apply2 by auto.
    enough (HE : fold_right Z.add 0 (map (fun p => if passes (cone c) (fst p) then if bentry_eq_dec (entryFrom (fst p)) e then Z.sgn (snd p) else 0 else 0) t)
      = Z.of_nat (cnt (ents c true t) e) - Z.of_nat (cnt (ents c false t) e)) by (rewrite HE; lia).
    induction H as [|[b z] t Hz _ IH]; [reflexivity|]. cbn [map fold_right]. rewrite IH. cbn [fst snd] in *.
    unfold ents. cbn [filter snd].
    destruct (Z.ltb_spec 0 z); cbn [Bool.eqb map filter fst]; destruct (passes (cone c) b); cbn [map filter];
      rewrite ?count_occ_cons'; try lia; destruct (bentry_eq_dec (entryFrom b) e); lia.
  Qed.

  (** counts *)
  Definition vsim (v1 : bval) (v2 : cV) : Prop :=
    forall e, v2 e = Z.of_nat (cnt (bonds v1) e) + Z.of_nat (cnt (adds v1) e) - Z.of_nat (cnt (pops v1) e).
  Lemma apply_sim c s t v1 v2 : Forall (fun e => snd e <> 0) t -> vsim v1 v2 -> vsim (apply_trace K1 c s t v1) (apply_trace K2 c s t v2).
  Proof.
    intros H S e. rewrite apply1, apply2' by auto. cbn [bonds pops adds]. rewrite !count_occ_app, S. lia.
  Qed.

  (** signs of the traces *)
  Lemma visit_sign c s full sign i bs : sign <> 0 -> Forall (fun e => 0 < snd e * sign) (visit K2 c s full sign i bs).
  Proof.
    intros Hs. apply Forall_forall. intros [b z] H. unfold visit in H. apply in_flat_map in H. destruct H as (b' & _ & H).
    destruct (_ && _); [contradiction|]. destruct H as [H|[]]. injection H as -> <-. cbn. destruct (_ || _); nia.
  Qed.
  Lemma basic_sign c s full k n : Forall (fun e => 0 < snd e) (basic_trace K2 c s full k n).
  Proof.
    unfold basic_trace. generalize (seq 0 (Evaluator.nsites K2 s)) as l. intros l. generalize k as m.
    induction l as [|i l IH]; intros m; cbn [basic_loop]; [constructor|].
    destruct (_ && negb _); auto. destruct (inner _ _ _ _) as [bs n2]. apply Forall_app. split; auto.
    eapply Forall_impl; [|apply (visit_sign c s full 1 i bs); lia]. intros [b z]; cbn; lia.
  Qed.
  Lemma rm_sign c m s0 full k n pop : Forall (fun e => snd e < 0) (fst (rm_trace K2 c m s0 full k n pop)).
  Proof.
    rewrite rm_trace_pick. cbn [fst]. apply Forall_flat_map, Forall_forall. intros i _. unfold rm_item.
    eapply Forall_impl; [|apply visit_sign; lia]. intros [b z]; cbn; lia.
  Qed.
  Lemma add_sign c s1 full n ads m : Forall (fun e => 0 < snd e) (add_trace K2 c s1 full n ads m).
  Proof.
    rewrite add_trace_pick. apply Forall_flat_map, Forall_forall. intros i _. unfold add_item.
    eapply Forall_impl; [|apply (visit_sign c s1 full 1); lia]. intros [b z]; cbn; lia.
  Qed.
  Lemma ents_pos c t : Forall (fun e => 0 < snd e) t -> ents c false t = [].
  Proof.
    unfold ents. induction 1 as [|[b z] t H _ IH]; auto. cbn [filter snd]. cbn in H.
    destruct (Z.ltb_spec 0 z); [|lia]. exact IH.
  Qed.
  Lemma ents_neg c t : Forall (fun e => snd e < 0) t -> ents c true t = [].
  Proof.
    unfold ents. induction 1 as [|[b z] t H _ IH]; auto. cbn [filter snd]. cbn in H.
    destruct (Z.ltb_spec 0 z); [lia|]. exact IH.
  Qed.
  Lemma nz_pos (t : list (bond * Z)) : Forall (fun e => 0 < snd e) t -> Forall (fun e => snd e <> 0) t.
  Proof. apply Forall_impl. intros; lia. Qed.
  Lemma nz_neg (t : list (bond * Z)) : Forall (fun e => snd e < 0) t -> Forall (fun e => snd e <> 0) t.
  Proof. apply Forall_impl. intros; lia. Qed.

  (** states that differ in the value only *)
  Definition lift (v : bval) (x : st stru cfg cV) : st stru cfg bval :=
    {| cf := cf x; ptick := ptick x; ms := ms x; val := v; clock := clock x;
       kind := kind x; fullsum := fullsum x; fixedidx := fixedidx x; cpu := cpu x; ncpu := ncpu x;
       vtick := vtick x; last := last x; used := used x |}.
  Definition okv (v : bval) : Prop := Sorted' (bonds v) /\ (forall z, (cnt (pops v) z <= cnt (bonds v) z)%nat).
  Definition clean (v : bval) : Prop :=
    Sorted' (bonds v) /\ pops v = [] /\ adds v = [] /\ bvalue v = map e_dist (bonds v).
  Lemma clean_zero : clean bzero. Proof. repeat split; constructor. Qed.
  Lemma vsim_zero : vsim bzero (zero K2). Proof. intros e. reflexivity. Qed.
  Lemma finish_clean v v2 : okv v -> vsim v v2 -> clean (finishValue false v) /\ vsim (finishValue false v) v2.
  Proof.
    intros [S P] V. destruct (finish_spec v S P) as (F1 & F2 & F3 & F4 & F5). split; [now repeat split|].
    intros e. rewrite V, F2, F3, F5. specialize (P e). cbn [count_occ]. lia.
  Qed.

  Lemma setStructure_lift s v x : setStructure K1 s (lift v x) = lift bzero (setStructure K2 s x).
  Proof. unfold setStructure. cbn [cf lift custom bond_calc count_calc]. destruct (custom W s (cf x)); reflexivity. Qed.
  Lemma basic_trace_K c s full k n : basic_trace K1 c s full k n = basic_trace K2 c s full k n.
  Proof. reflexivity. Qed.

  Lemma basic_sim s v x : exists u, basic_update K1 s (lift v x) = lift u (basic_update K2 s x) /\
    okv u /\ vsim u (val (basic_update K2 s x)).
  Proof.
    unfold basic_update.
    change (set_used EvBasic (lift v x)) with (lift v (set_used EvBasic x)). rewrite setStructure_lift.
    set (y := setStructure K2 s (set_used EvBasic x)).
    cbn [cf ms fullsum cpu ncpu val lift].
    change (basic_trace K1) with (basic_trace K2).
    set (t := basic_trace K2 _ _ _ _ _).
    assert (T : Forall (fun e => 0 < snd e) t) by apply basic_sign.
    exists (apply_trace K1 (cf y) (ms y) t bzero). split; [reflexivity|].
    assert (EE : val y = zero K2) by (unfold y, setStructure; destruct (custom _ _ _); reflexivity).
    split.
    - rewrite apply1, ents_pos by auto. split; [constructor|]. cbn. lia.
    - cbn [val click_value set_val]. rewrite EE. apply apply_sim; [now apply nz_pos|]. apply vsim_zero.
  Qed.
  Lemma complete_sim s v x : exists u, complete_update K1 s (lift v x) = lift u (complete_update K2 s x) /\
    okv u /\ vsim u (val (complete_update K2 s x)).
  Proof.
    destruct (basic_sim s v x) as (u & EE & O & S). exists u. unfold complete_update. rewrite EE. auto.
  Qed.

  (** counts are not negative *)
  Lemma pvt_nonneg c s z i j e : 0 <= z -> 0 <= pvt K2 pairs c s z i j e.
  Proof.
    intros H. unfold pvt. destruct (_ && _); [|cbn; lia]. rewrite pair_value_count.
    destruct (Z.sgn_spec z) as [[? ->]|[[? ->]|[? ->]]]; lia.
  Qed.
  Lemma sum_nonneg (l : list cV) e : (forall f, In f l -> 0 <= f e) -> 0 <= sum K2 l e.
  Proof.
    rewrite sum_at. induction l as [|f l IH]; cbn [map fold_right In]; intros H; [lia|].
    specialize (IH (fun g G => H g (or_intror G))). specialize (H f (or_introl eq_refl)). lia.
  Qed.
  Lemma ttot_nonneg c s l e : 0 <= ttot K2 pairs true c s l e.
  Proof.
    unfold ttot, tot, tfull. apply sum_nonneg. intros f Hf. apply in_map_iff in Hf. destruct Hf as (a & <- & _).
    apply sum_nonneg. intros f Hf. apply in_map_iff in Hf. destruct Hf as (b & <- & _). apply pvt_nonneg. lia.
  Qed.

  Context (close1 : bval -> bval -> bool) (close2 : cV -> cV -> bool).
  Notation INV := (Inv K2 pairs cw 1 true).

  Lemma fast_sim X s0 s v : INV X -> fullsum (X O) = true -> last (X O) = Some s0 -> (ptick (X O) < vtick (X O))%Z ->
    clean v -> vsim v (val (X O)) ->
    exists u, fast_update K1 s0 s (sdif W s0 s) (lift v (X O)) = lift u (fast_update K2 s0 s (sdif W s0 s) (X O)) /\
      okv u /\ vsim u (val (fast_update K2 s0 s (sdif W s0 s) (X O))).
  Proof.
    intros I HF HL HT C S. destruct I as [I0 _ IL]. destruct (IL s0 HL HT) as [Gm Gv].
    unfold fast_update. set (d := sdif W s0 s).
    cbn [cf ms fullsum cpu ncpu val lift].
    change (rm_trace K1) with (rm_trace K2). change (add_trace K1) with (add_trace K2).
    rewrite rm_trace_pick. pose proof (rm_sign (cf (X O)) (ms (X O)) s0 (fullsum (X O)) (cpu (X O)) (ncpu (X O)) (pop0 d)) as T0.
    rewrite rm_trace_pick in T0. cbn [fst] in T0.
    set (t0 := flat_map _ _) in *. set (n1 := (cpu (X O) + _)%nat).
    set (l1 := apply_trace K1 _ _ t0 v). set (l2 := apply_trace K2 _ _ t0 (val (X O))).
    assert (L : vsim l1 l2) by (apply apply_sim; auto using nz_neg).
    assert (E1 : l1 = {| bonds := bonds v; pops := ents (cf (X O)) false t0; adds := []; bvalue := bvalue v |}).
    { unfold l1. rewrite apply1, ents_neg by auto. destruct C as (_ & -> & -> & _). reflexivity. }
    assert (P : forall z, (cnt (pops l1) z <= cnt (bonds l1) z)%nat).
    { intros z. assert (H : 0 <= l2 z).
      { assert (EE : l2 = ttot K2 pairs true (cf (X O)) s0 (U K2 s0 (pop0 d))).
        2:{ rewrite EE. apply ttot_nonneg. }
        pose proof count_ok as OK.
        destruct (diff_ok _ _ _ _ _ _ OK s0 s) as (D0 & _ & _). rewrite <- (sites_ok _ _ _ _ _ _ OK) in D0.
        rewrite <- (rm_sum K2 copp pairs atoms env cw OK true (cf (X O)) s0 (pop0 d) (or_introl eq_refl) D0).
        rewrite <- (total_ttot K2 copp pairs atoms env cw OK) by auto.
        unfold l2. rewrite (apply_trace_sum K2 copp pairs atoms env cw OK). unfold vsum in Gv. cbn [seq map] in Gv.
        rewrite HF in Gv. rewrite <- Gv. rewrite (sum1 K2 copp pairs atoms env cw OK). f_equal.
        rewrite Gm. f_equal. unfold t0. rewrite HF, Gm, (i_ncpu _ _ _ _ _ I0), pick_one. reflexivity. }
      specialize (L z). rewrite E1 in L |- *. cbn [bonds pops adds count_occ] in L |- *. lia. }
    change (set_val l1 (lift v (X O))) with (lift l1 (set_val l2 (X O))). rewrite setStructure_lift.
    set (y := setStructure K2 s (set_val l2 (X O))). cbn [vtick ptick lift].
    destruct (vtick y <=? ptick y)%Z.
    - apply complete_sim.
    - cbn [cf ms fullsum ncpu lift]. set (t1 := add_trace K2 _ _ _ _ _ _).
      assert (T1 : Forall (fun e => 0 < snd e) t1) by apply add_sign.
      exists (apply_trace K1 (cf y) (ms y) t1 (restashValue l1)). split; [reflexivity|]. split.
      + rewrite apply1, ents_pos by auto. split; cbn [bonds pops restashValue].
        * rewrite E1. apply C.
        * rewrite app_nil_r. exact P.
      + cbn [val click_value set_last set_val restash count_calc]. apply apply_sim; [now apply nz_pos|].
        intros e. rewrite (L e), E1. reflexivity.
  Qed.

  Lemma optimized_sim X s v : INV X -> fullsum (X O) = true -> clean v -> vsim v (val (X O)) ->
    exists u, optimized_update K1 s (lift v (X O)) = lift u (optimized_update K2 s (X O)) /\
      okv u /\ vsim u (val (optimized_update K2 s (X O))).
  Proof.
    intros I HF C S. unfold optimized_update.
    change (set_used EvOptimized (lift v (X O))) with (lift v (set_used EvOptimized (X O))).
    cbn [last lift set_used vtick ptick fixedidx cf sdif bond_calc count_calc haspairmask Evaluator.nsites].
    destruct (last (X O)) as [s0|] eqn:EL; [|apply complete_sim].
    destruct (Z.leb_spec (vtick (X O)) (ptick (X O))); [apply complete_sim|].
    destruct (negb _); [apply complete_sim|]. destruct (_ && _); [apply complete_sim|].
    apply (fast_sim (fun k => set_used EvOptimized (X k)) s0 s v); auto.
    destruct I as [[A1 A2 A3 A4 A5 A6 A7] B D]. split; [split; auto| |]; auto.
    - intros k. change (erase K2 (set_used EvOptimized (erase K2 (X k))) = erase K2 (set_used EvOptimized (erase K2 (X O)))).
      now rewrite A2.
    - intros s' Hs' Ht'. destruct (D s' Hs' Ht') as [D1 D2]. split; auto.
  Qed.

  Lemma kind_mode_basic s (x : st stru cfg cV) : kind (basic_update K2 s x) = kind x /\ ncpu (basic_update K2 s x) = ncpu x.
  Proof. unfold basic_update, setStructure. cbn. now destruct (custom W s (cf x)). Qed.

  Lemma eval_sim X s v dx dx2 : INV X -> fullsum (X O) = true -> kind (X O) <> EvCheck -> clean v -> vsim v (val (X O)) ->
    exists u, state_of (eval K1 close1 s (lift v (X O))) dx = lift u (state_of (eval K2 close2 s (X O)) dx2) /\
      clean u /\ vsim u (val (state_of (eval K2 close2 s (X O)) dx2)) /\
      (exists y, eval K1 close1 s (lift v (X O)) = Ok y).
  Proof.
    intros I HF HK C S.
    pose proof (eval_good K2 copp pairs atoms env cw count_ok close2 1 (le_n 1) true (or_introl eq_refl) X s (fun _ => dx2) I) as [I' _].
    pose proof (i_ncpu _ _ _ _ _ (inv0 _ _ _ _ _ _ I')) as EN. cbv beta in EN.
    assert (G : exists u, update K1 close1 s (lift v (X O)) = Ok (lift u (state_of (eval K2 close2 s (X O)) dx2)) /\
      okv u /\ vsim u (val (state_of (eval K2 close2 s (X O)) dx2))).
    { rewrite (eval_update K2 copp pairs atoms env cw count_ok).
      unfold update. cbn [kind lift]. destruct (kind (X O)); try congruence; cbn [state_of].
      - destruct (basic_sim s v (X O)) as (u & -> & H1 & H2). eauto.
      - destruct (basic_sim s v (X O)) as (u & -> & H1 & H2). eauto.
      - destruct (optimized_sim X s v I HF C S) as (u & -> & H1 & H2). eauto. }
    destruct G as (u & EE & O' & S'). unfold eval at 1 4. rewrite EE. cbn [state_of].
    set (x2 := state_of (eval K2 close2 s (X O)) dx2) in *.
    destruct (finish_clean u (val x2) O' S') as [F1 F2].
    exists (finishValue false u). split; [|split; [exact F1|split; [exact F2|eauto]]].
    unfold finished. cbn [ncpu val lift finish bond_calc]. rewrite EN. reflexivity.
  Qed.

  Lemma fullsum_eval s (x dx : st stru cfg cV) : fullsum x = true -> fullsum dx = true -> fullsum (state_of (eval K2 close2 s x) dx) = true.
  Proof.
    intros H Hd. rewrite (eval_update K2 copp pairs atoms env cw count_ok). unfold update.
    assert (B : forall x, fullsum x = true -> fullsum (basic_update K2 s x) = true).
    { intros y Hy. now rewrite fullsum_basic. }
    assert (O' : fullsum (optimized_update K2 s x) = true).
    { unfold optimized_update.
      assert (B' : forall y, fullsum y = true -> fullsum (complete_update K2 s y) = true) by (intros y Hy; apply B; auto).
      destruct (last _); auto. destruct (_ <=? _)%Z; auto. destruct (negb _); auto. destruct (_ && _); auto.
      unfold fast_update. destruct (rm_trace _ _ _ _ _ _ _) as [t0 n1]. 
      assert (Q : forall l y, fullsum y = true -> fullsum (setStructure K2 s (set_val l y)) = true).
      { intros l y Hy. unfold setStructure. destruct (custom _ _ _); exact Hy. }
      destruct (_ <=? _)%Z; [apply B'|]; cbn; apply Q; auto. }
    destruct (kind x); cbn [state_of]; auto. unfold check_update.
    destruct (evtype_eqb (used (optimized_update K2 s x)) EvBasic); [exact O'|].
    destruct (close2 (val (optimized_update K2 s x)) (val (set_used EvCheck (basic_update K2 s (optimized_update K2 s x)))));
      cbn [state_of]; exact (B _ O').
  Qed.

  Lemma step_sim X o v : INV X -> fullsum (X O) = true -> kind (X O) <> EvCheck -> clean v -> vsim v (val (X O)) ->
    bond_op o ->
    exists u, step K1 close1 o (lift v (X O)) = lift u (step K2 close2 o (X O)) /\ clean u /\
      vsim u (val (step K2 close2 o (X O))) /\ fullsum (step K2 close2 o (X O)) = true /\ kind (step K2 close2 o (X O)) <> EvCheck.
  Proof.
    intros I HF HK C S Ho.
    assert (KE : forall s d, kind d <> EvCheck -> kind (state_of (eval K2 close2 s (X O)) d) <> EvCheck).
    { intros s d Hd. rewrite (eval_update K2 copp pairs atoms env cw count_ok). unfold update.
      destruct (kind (X O)) eqn:EK; cbn [state_of]; try congruence.
      - rewrite (proj1 (kind_mode_basic s (X O))). congruence.
      - rewrite (proj1 (kind_mode_basic s (X O))). congruence.
      - rewrite kind_optimized. congruence. }
    destruct o; cbn in Ho; try contradiction; cbn [step].
    - destruct (eval_sim X s v (lift v (X O)) (X O) I HF HK C S) as (u & EE & C' & S' & _).
      exists u. split_conj; auto using fullsum_eval.
    - unfold eval_current. cbn [ms lift].
      destruct (eval_sim X (ms (X O)) v (lift v (X O)) (X O) I HF HK C S) as (u & EE & C' & S' & _).
      exists u. split_conj; auto using fullsum_eval.
    - exists v. split_conj; auto.
    - unfold setEvaluatorType. cbn [kind lift has_stash bond_calc count_calc].
      destruct (evtype_eqb (kind (X O)) t); [exists v; auto|].
      destruct t; cbn [state_of]; try congruence; try (exists v; now auto).
      + exists bzero. split_conj; auto using vsim_zero; apply clean_zero || (cbn; congruence).
      + exists bzero. split_conj; auto using vsim_zero; apply clean_zero || (cbn; congruence).
  Qed.

  Lemma bond_safe o : @bond_op stru cfg o -> safe_op o /\ no_mode_change o.
  Proof. destruct o; cbn; tauto. Qed.
  Lemma run_sim ops : forall X v, INV X -> fullsum (X O) = true -> kind (X O) <> EvCheck -> clean v -> vsim v (val (X O)) ->
    Forall bond_op ops ->
    exists u, run K1 close1 ops (lift v (X O)) = lift u (run K2 close2 ops (X O)) /\ clean u /\
      vsim u (val (run K2 close2 ops (X O))) /\ fullsum (run K2 close2 ops (X O)) = true /\ kind (run K2 close2 ops (X O)) <> EvCheck.
  Proof.
    induction ops as [|o ops IH]; intros X v I HF HK C S H; cbn [run fold_left].
    - exists v. auto.
    - inversion H as [|? ? Ho H']; subst.
      destruct (step_sim X o v I HF HK C S Ho) as (u & EE & C' & S' & HF' & HK').
      rewrite EE. apply (IH (fun k => step K2 close2 o (X k))); auto.
      destruct (bond_safe o Ho). apply (step_inv K2 copp pairs atoms env cw count_ok); auto.
  Qed.

  Lemma bonds_history c e t ops s : t <> EvCheck -> Forall bond_op ops ->
    let x := run K1 close1 (ops ++ [OpEval s]) (init K1 c e t true true 0 1) in
    clean (val x) /\ Permutation (bonds (val x)) (all_bonds W cone pairs (cf x) s) /\
    exists y, eval K1 close1 s (run K1 close1 ops (init K1 c e t true true 0 1)) = Ok y.
  Proof.
    intros Ht H x.
    set (X := fun k => init K2 c e t true true k 1).
    assert (I : INV X) by (apply init_inv; auto).
    assert (Hs : Forall safe_op ops /\ Forall no_mode_change ops).
    { split; eapply Forall_impl; try exact H; intros o Ho; now apply bond_safe. }
    destruct (run_sim ops X bzero I eq_refl Ht clean_zero vsim_zero H) as (v & EE & C & S & HF & HK).
    change (lift bzero (X O)) with (init K1 c e t true true 0 1) in EE.
    assert (I' : INV (fun k => run K2 close2 ops (X k))).
    { apply (run_inv K2 copp pairs atoms env cw count_ok); tauto || auto. }
    destruct (eval_sim (fun k => run K2 close2 ops (X k)) s v (lift v (run K2 close2 ops (X O))) (run K2 close2 ops (X O)) I' HF HK C S) as (u & EE' & C' & S' & Y).
    assert (Ex : x = lift u (run K2 close2 (ops ++ [OpEval s]) (X O))).
    { unfold x. unfold run at 1 2. rewrite !fold_left_app. cbn [fold_left].
      change (fold_left (fun y o => step K1 close1 o y) ops (init K1 c e t true true 0 1)) with (run K1 close1 ops (init K1 c e t true true 0 1)).
      rewrite EE. exact EE'. }
    rewrite Ex. cbn [val cf lift]. split_conj; auto.
    - apply cnt_perm. intros z.
      pose proof (history_value K2 copp pairs atoms env cw count_ok close2 1 (le_n 1) true (or_introl eq_refl) c e t true ops s
        (proj1 Hs) (conj (or_introl eq_refl) (or_introl (proj2 Hs)))) as HV. cbv zeta in HV.
      cbn [seq map] in HV. rewrite (sum1 K2 copp pairs atoms env cw count_ok) in HV.
      set (y := run K2 close2 (ops ++ [OpEval s]) (init K2 c e t true true 0 1)) in *.
      assert (FY : fullsum y = true).
      { unfold y, run. rewrite fold_left_app. cbn [fold_left step]. now apply fullsum_eval. }
      rewrite FY in HV. apply (f_equal (fun f => f z)) in HV. rewrite total_count in HV.
      assert (S'' : vsim u (val y)).
      { unfold y, run. rewrite fold_left_app. exact S'. }
      specialize (S'' z). destruct C' as (_ & Ep & Ea & _). rewrite Ep, Ea in S''. cbn [count_occ] in S''.
      change (run K2 close2 (ops ++ [OpEval s]) (X O)) with y. lia.
    - rewrite EE. exact Y.
  Qed.
End Sim.
