(** Sums behind the evaluators and the history invariant (C10, C12, C13). *)
From Verif Require Import Base StructDiff StructDiffSpec StructDiffProofs Evaluator EvaluatorSpec EvaluatorProofs.
From Coq Require Import Sorting.Sorted.
Open Scope nat_scope.

Section Hist.
  Context {stru cfg bond V : Type} (K : calc stru cfg bond V).
  Context (opp : V -> V) (pairs : cfg -> stru -> nat -> nat -> list bond).
  Context {A E : Type} (atoms : stru -> list A) (env : stru -> E)
          (w : cfg -> E -> Z -> nat -> A -> nat -> A -> V).
  Hypothesis OK : calc_ok K opp pairs atoms env w.

  Notation "0" := (zero K).
  Notation "a + b" := (add K a b).
  Notation gs := (sum K).
  Notation pv := (pair_value K pairs).

  Let comm := add_comm _ _ _ _ _ _ OK.
  Let assoc := add_assoc _ _ _ _ _ _ OK.
  Let addz := add_zero _ _ _ _ _ _ OK.
  Let addo := add_opp _ _ _ _ _ _ OK.

  Lemma zadd a : a + 0 = a. Proof. rewrite comm. apply addz. Qed.
  Lemma swap4 a b c d : (a + b) + (c + d) = (a + c) + (b + d).
  Proof. rewrite !assoc. f_equal. rewrite <- !assoc. f_equal. apply comm. Qed.
  Lemma cancel a b c : a + c = b + c -> a = b.
  Proof.
    intros H. assert ((a + c) + opp c = (b + c) + opp c) as H1 by now rewrite H.
    rewrite <- !assoc, addo, !zadd in H1. exact H1.
  Qed.
  Lemma opp_add a b : opp (a + b) = opp a + opp b.
  Proof.
    apply (cancel _ _ (a + b)). rewrite (comm (opp (a + b))), addo, swap4, (comm (opp a)), (comm (opp b)), !addo.
    symmetry. apply zadd.
  Qed.
  Lemma opp_zero : opp 0 = 0.
  Proof. rewrite <- (addz (opp 0)). apply addo. Qed.

  Lemma gs_cons x l : gs (x :: l) = x + gs l. Proof. reflexivity. Qed.
  Lemma gs_nil : gs [] = 0. Proof. reflexivity. Qed.
  Lemma gs_app l l' : gs (l ++ l') = gs l + gs l'.
  Proof. induction l as [|x l IH]; cbn [app]; rewrite ?gs_nil, ?gs_cons, ?addz, ?IH, ?assoc; auto. Qed.
  Lemma gs_perm l l' : Permutation l l' -> gs l = gs l'.
  Proof.
    induction 1; rewrite ?gs_cons; auto.
    - now rewrite IHPermutation.
    - now rewrite !assoc, (comm y).
    - congruence.
  Qed.
  Lemma gs_map_add {B} (f g : B -> V) l : gs (map (fun x => f x + g x) l) = gs (map f l) + gs (map g l).
  Proof. induction l as [|x l IH]; cbn [map]; rewrite ?gs_cons, ?gs_nil; [now rewrite addz|]. now rewrite IH, swap4. Qed.
  Lemma gs_map_opp {B} (f : B -> V) l : gs (map (fun x => opp (f x)) l) = opp (gs (map f l)).
  Proof. induction l as [|x l IH]; cbn [map]; rewrite ?gs_cons, ?gs_nil; [now rewrite opp_zero|]. now rewrite IH, opp_add. Qed.
  Lemma gs_map_ext {B} (f g : B -> V) l : (forall x, In x l -> f x = g x) -> gs (map f l) = gs (map g l).
  Proof. intros H. f_equal. now apply map_ext_in. Qed.
  Lemma gs_map_zero {B} (l : list B) : gs (map (fun _ => 0) l) = 0.
  Proof. induction l as [|x l IH]; cbn [map]; rewrite ?gs_cons, ?gs_nil; auto. now rewrite IH, addz. Qed.

  (** a small normaliser for sums *)
  Inductive ex := EZ | EV (n : nat) | EA (a b : ex).
  Fixpoint den (l : list V) (e : ex) : V :=
    match e with EZ => 0 | EV n => nth n l 0 | EA a b => den l a + den l b end.
  Fixpoint flat (e : ex) : list nat :=
    match e with EZ => [] | EV n => [n] | EA a b => flat a ++ flat b end.
  Lemma den_flat l e : den l e = gs (map (fun n => nth n l 0) (flat e)).
  Proof.
    induction e; cbn [den flat map]; rewrite ?gs_nil, ?gs_cons, ?zadd; auto.
    now rewrite IHe1, IHe2, map_app, gs_app.
  Qed.
  Lemma den_eq l e1 e2 : sort_nat (flat e1) = sort_nat (flat e2) -> den l e1 = den l e2.
  Proof.
    intros H. rewrite !den_flat. apply gs_perm, Permutation_map.
    rewrite (sort_nat_perm (flat e1)), H. symmetry. apply sort_nat_perm.
  Qed.
  Lemma gs_swap {B C} (f : B -> C -> V) l l' :
    gs (map (fun x => gs (map (f x) l')) l) = gs (map (fun y => gs (map (fun x => f x y) l)) l').
  Proof.
    induction l as [|x l IH]; cbn [map].
    - rewrite gs_nil. symmetry. apply gs_map_zero.
    - rewrite gs_cons, IH. rewrite <- gs_map_add. apply gs_map_ext. intros y _. now rewrite gs_cons.
  Qed.

  Ltac idx x l :=
    match l with
    | x :: _ => constr:(O)
    | _ :: ?r => let n := idx x r in constr:(S n)
    end.
  Ltac atoms_in t l :=
    match t with
    | zero K => l
    | add K ?a ?b => let l1 := atoms_in a l in atoms_in b l1
    | _ => match l with
           | context [t :: _] => l
           | _ => constr:(t :: l)
           end
    end.
  Ltac reif t l :=
    match t with
    | zero K => constr:(EZ)
    | add K ?a ?b => let x := reif a l in let y := reif b l in constr:(EA x y)
    | _ => let n := idx t l in constr:(EV n)
    end.
  Ltac acsum :=
    match goal with
    | |- ?x = ?y =>
        let l0 := constr:(@nil V) in
        let l1 := atoms_in x l0 in let l2 := atoms_in y l1 in
        let e1 := reif x l2 in let e2 := reif y l2 in
        change (den l2 e1 = den l2 e2); apply den_eq; reflexivity
    end.

  (** *** traces *)
  Definition tsum c s (t : list (bond * Z)) : V := gs (map (fun e => contrib K c s (fst e) (snd e)) t).

  Lemma apply_trace_sum c s t : forall v, apply_trace K c s t v = v + tsum c s t.
  Proof.
    unfold apply_trace, tsum. induction t as [|e t IH]; intros v; cbn [fold_left map]; [now rewrite gs_nil, zadd|].
    now rewrite IH, gs_cons, assoc.
  Qed.
  Lemma tsum_app c s t t' : tsum c s (t ++ t') = tsum c s t + tsum c s t'.
  Proof. unfold tsum. now rewrite map_app, gs_app. Qed.
  Lemma tsum_perm c s t t' : Permutation t t' -> tsum c s t = tsum c s t'.
  Proof. intros H. apply gs_perm. now apply Permutation_map. Qed.
  Lemma tsum_flat {B} c s (f : B -> list (bond * Z)) l :
    tsum c s (flat_map f l) = gs (map (fun x => tsum c s (f x)) l).
  Proof. induction l as [|x l IH]; cbn [flat_map map]; auto. now rewrite tsum_app, IH. Qed.

  (** scaled pair value as the loops use it *)
  Definition pvs (c : cfg) (s : stru) (full : bool) (i j : nat) : V :=
    if full || (i =? j) then pv c s 1 i j else pv c s 2 i j.

  Lemma visit_pairs c s full sign i j : (sign = 1%Z \/ sign = (-1)%Z) ->
    tsum c s (visit K c s full sign i (pairs c s i j)) =
    if (sign =? 1)%Z then pvs c s full i j else opp (pvs c s full i j).
  Proof.
    intros Hs.
    assert (H1 : forall bs, (forall b, In b bs -> site1 K b = j) ->
      visit K c s full sign i bs =
      if mask K c s i j then map (fun b => (b, if full || (i =? j) then sign else (sign * 2)%Z)) bs else []).
    { induction bs as [|b bs IH]; intros Hb; cbn [visit flat_map map]; [destruct (mask K c s i j); auto|].
      unfold visit in IH. rewrite IH by (intros; apply Hb; cbn; auto). rewrite (Hb b) by (cbn; auto).
      destruct (mask K c s i j) eqn:Em; cbn.
      - rewrite andb_false_r. reflexivity.
      - destruct (hasmask K c) eqn:Eh; cbn; auto.
        rewrite (mask_ok _ _ _ _ _ _ OK c s i j Eh) in Em. discriminate. }
    rewrite H1 by (intros b Hb; eapply (site1_ok _ _ _ _ _ _ OK); eauto).
    unfold pvs, pair_value.
    destruct (mask K c s i j).
    - unfold tsum. rewrite map_map. cbn [fst snd].
      destruct Hs as [-> | ->]; cbn [Z.eqb Pos.eqb].
      + destruct (full || (i =? j)); reflexivity.
      + destruct (full || (i =? j)); rewrite <- gs_map_opp; apply gs_map_ext; intros b _;
          now rewrite <- (odd_ok _ _ _ _ _ _ OK).
    - unfold tsum; cbn. destruct (sign =? 1)%Z, (full || (i =? j)); auto; now rewrite opp_zero.
  Qed.

  Lemma visit_gen c s full sign i sel : (sign = 1%Z \/ sign = (-1)%Z) ->
    i < nsites K s -> NoDup sel -> (forall j, In j sel -> j < nsites K s) ->
    tsum c s (visit K c s full sign i (gen K c s i sel)) =
    if (sign =? 1)%Z then gs (map (pvs c s full i) sel) else opp (gs (map (pvs c s full i) sel)).
  Proof.
    intros Hs Hi Hnd Hr.
    rewrite (tsum_perm c s _ (visit K c s full sign i (flat_map (pairs c s i) sel))).
    2:{ apply Permutation_flat_map. now apply (gen_ok _ _ _ _ _ _ OK). }
    assert (H : forall l, tsum c s (visit K c s full sign i (flat_map (pairs c s i) l)) =
      if (sign =? 1)%Z then gs (map (pvs c s full i) l) else opp (gs (map (pvs c s full i) l))).
    { induction l as [|j l IH]; cbn [flat_map].
      - unfold tsum; cbn. destruct (sign =? 1)%Z; auto. now rewrite opp_zero.
      - rewrite visit_app, tsum_app, IH, visit_pairs by auto. cbn [map]. rewrite gs_cons.
        destruct (sign =? 1)%Z; auto. now rewrite opp_add. }
    apply H.
  Qed.

  (** *** totals over lists *)
  Section Tot.
    Context {X : Type}.
    Fixpoint thalf (w1 w2 : X -> X -> V) (l : list X) : V :=
      match l with
      | [] => 0
      | a :: r => w1 a a + gs (map (w2 a) r) + thalf w1 w2 r
      end.
    Definition tfull (w1 : X -> X -> V) (l : list X) : V := gs (map (fun a => gs (map (w1 a) l)) l).
    Definition tot (full : bool) (w1 w2 : X -> X -> V) (l : list X) : V :=
      if full then tfull w1 l else thalf w1 w2 l.

    Lemma tfull_perm w1 l l' : Permutation l l' -> tfull w1 l = tfull w1 l'.
    Proof.
      intros H. unfold tfull.
      rewrite (gs_map_ext (fun a => gs (map (w1 a) l)) (fun a => gs (map (w1 a) l')) l).
      - apply gs_perm. now apply Permutation_map.
      - intros a _. apply gs_perm. now apply Permutation_map.
    Qed.
    Lemma thalf_perm w1 w2 l l' : (forall a b, w2 a b = w2 b a) -> Permutation l l' -> thalf w1 w2 l = thalf w1 w2 l'.
    Proof.
      intros Hs. induction 1 as [|x l l' P IH|x y l|l1 l2 l3 P1 IH1 P2 IH2]; cbn [thalf map]; auto.
      - rewrite IH. do 2 f_equal. apply gs_perm. now apply Permutation_map.
      - rewrite (Hs x y), !gs_cons. acsum.
      - congruence.
    Qed.

    Lemma tot_perm full w1 w2 l l' : full = true \/ (forall a b, w2 a b = w2 b a) -> Permutation l l' ->
      tot full w1 w2 l = tot full w1 w2 l'.
    Proof. destruct full; cbn; [intros _; apply tfull_perm|intros [H|H]; [discriminate|now apply thalf_perm]]. Qed.

    Lemma thalf_ext w1 w2 w1' w2' l : (forall a b, In a l -> In b l -> w1 a b = w1' a b) ->
      (forall a b, In a l -> In b l -> w2 a b = w2' a b) -> thalf w1 w2 l = thalf w1' w2' l.
    Proof.
      induction l as [|x l IH]; cbn [thalf]; intros H1 H2; auto.
      rewrite IH, H1 by (intros; auto with datatypes). do 2 f_equal.
      apply gs_map_ext. intros b Hb. apply H2; cbn; auto.
    Qed.
    Lemma tot_ext full w1 w2 w1' w2' l : (forall a b, In a l -> In b l -> w1 a b = w1' a b) ->
      (forall a b, In a l -> In b l -> w2 a b = w2' a b) -> tot full w1 w2 l = tot full w1' w2' l.
    Proof.
      intros H1 H2. destruct full; cbn; [|now apply thalf_ext]. unfold tfull.
      apply gs_map_ext. intros a Ha. apply gs_map_ext. intros b Hb. auto.
    Qed.

    (** snoc *)
    Lemma thalf_snoc w1 w2 l a : (forall x y, w2 x y = w2 y x) ->
      thalf w1 w2 (l ++ [a]) = thalf w1 w2 l + (gs (map (w2 a) l) + w1 a a).
    Proof.
      intros Hs. induction l as [|x l IH]; cbn [thalf app map].
      - rewrite gs_nil. acsum.
      - rewrite IH, map_app, gs_app. cbn [map]. rewrite !gs_cons, gs_nil, (Hs a x). acsum.
    Qed.

    Lemma tfull_app w1 p u :
      tfull w1 (p ++ u) = tfull w1 u + (gs (map (fun a => gs (map (w1 a) (p ++ u))) p) + gs (map (fun a => gs (map (w1 a) p)) u)).
    Proof.
      unfold tfull. rewrite map_app, gs_app.
      rewrite (gs_map_ext (fun a => gs (map (w1 a) (p ++ u))) (fun a => gs (map (w1 a) p) + gs (map (w1 a) u)) u).
      - rewrite gs_map_add. acsum.
      - intros a _. now rewrite map_app, gs_app.
    Qed.
  End Tot.

  Lemma tot_map {X Y} (f : X -> Y) full w1 w2 l :
    tot full w1 w2 (map f l) = tot full (fun a b => w1 (f a) (f b)) (fun a b => w2 (f a) (f b)) l.
  Proof.
    destruct full; cbn [tot].
    - unfold tfull. rewrite map_map. apply gs_map_ext. intros a _. now rewrite map_map.
    - induction l as [|x l IH]; cbn [thalf map]; auto. now rewrite IH, map_map.
  Qed.

  (** *** pair values *)
  Lemma nth_site s i : i < nsites K s -> exists a, nth_error (atoms s) i = Some a.
  Proof.
    rewrite (sites_ok _ _ _ _ _ _ OK). intros H. apply nth_error_Some in H.
    destruct (nth_error (atoms s) i) as [a|]; [eauto|congruence].
  Qed.
  Lemma pv_sym c s z i j : two_way w -> i < nsites K s -> j < nsites K s -> pv c s z i j = pv c s z j i.
  Proof.
    intros Hw Hi Hj. destruct (nth_site s i Hi) as [a Ha], (nth_site s j Hj) as [b Hb].
    rewrite !(weight_ok _ _ _ _ _ _ OK c s z _ _ _ _ Ha Hb), (weight_ok _ _ _ _ _ _ OK c s z _ _ _ _ Hb Ha).
    apply Hw.
  Qed.

  (** symmetric on all naturals, equal to pv in range *)
  Definition pvt c s z i j : V := if (i <? nsites K s) && (j <? nsites K s) then pv c s z i j else 0.
  Lemma pvt_sym c s z i j : two_way w -> pvt c s z i j = pvt c s z j i.
  Proof.
    intros Hw.
    unfold pvt. rewrite andb_comm. destruct (Nat.ltb_spec j (nsites K s)), (Nat.ltb_spec i (nsites K s)); cbn; auto.
    now apply pv_sym.
  Qed.
  Lemma pvt_in c s z i j : i < nsites K s -> j < nsites K s -> pvt c s z i j = pv c s z i j.
  Proof. intros Hi Hj. unfold pvt. apply Nat.ltb_lt in Hi, Hj. now rewrite Hi, Hj. Qed.

  Definition ttot full c s l := tot full (pvt c s 1) (pvt c s 2) l.
  Definition inr s (l : list nat) := forall j, In j l -> j < nsites K s.

  Lemma half_seq c s n : two_way w -> n <= nsites K s ->
    thalf (pvt c s 1) (pvt c s 2) (seq O n) =
    gs (map (fun i => gs (map (fun j => pv c s 2 i j) (seq O i)) + pv c s 1 i i) (seq O n)).
  Proof.
    intros Hw. induction n as [|n IH]; intros Hn; auto.
    rewrite seq_S. cbn [Nat.add]. rewrite thalf_snoc by (intros; now apply pvt_sym).
    rewrite IH by lia. rewrite map_app, gs_app. cbn [map]. rewrite gs_cons, gs_nil, zadd. f_equal.
    rewrite pvt_in by lia. f_equal. apply gs_map_ext. intros j Hj. apply in_seq in Hj. apply pvt_in; lia.
  Qed.

  Lemma total_ttot full c s : full = true \/ two_way w -> total K pairs full c s = ttot full c s (seq O (nsites K s)).
  Proof.
    intros Hw. unfold total, ttot, tot. destruct full.
    - unfold full_total, tfull. apply gs_map_ext. intros i Hi. apply gs_map_ext. intros j Hj.
      apply in_seq in Hi, Hj. symmetry. apply pvt_in; lia.
    - unfold half_total. symmetry. destruct Hw; [discriminate|]. now apply half_seq.
  Qed.

  Lemma pvs_map c s full i l : i < nsites K s -> inr s l -> ~ In i l -> full = false ->
    gs (map (pvs c s full i) l) = gs (map (pvt c s 2 i) l).
  Proof.
    intros Hi Hl Hni ->. apply gs_map_ext. intros j Hj. unfold pvs. cbn.
    destruct (Nat.eqb_spec i j) as [->|]; [contradiction|]. symmetry. apply pvt_in; auto.
  Qed.
  Lemma pvs_full c s i l : i < nsites K s -> inr s l ->
    gs (map (pvs c s true i) l) = gs (map (pvt c s 1 i) l).
  Proof. intros Hi Hl. apply gs_map_ext. intros j Hj. unfold pvs; cbn. symmetry. apply pvt_in; auto. Qed.
  Lemma pvs_diag c s full i : i < nsites K s -> pvs c s full i i = pvt c s 1 i i.
  Proof. intros Hi. unfold pvs. rewrite Nat.eqb_refl, orb_true_r. symmetry. now apply pvt_in. Qed.

  (** basic *)
  Lemma basic_all_total c s full : tsum c s (basic_all K c s full) = total K pairs full c s.
  Proof.
    unfold basic_all. rewrite tsum_flat. unfold total.
    destruct full; [unfold full_total|unfold half_total]; apply gs_map_ext; intros i Hi; apply in_seq in Hi;
      unfold basic_item; rewrite visit_gen; auto using seq_NoDup; try lia;
      try (intros j Hj; apply in_seq in Hj; lia); cbn [Z.eqb Pos.eqb].
    rewrite Nat.add_1_r, seq_S, map_app, gs_app. cbn [map Nat.add]. rewrite gs_cons, gs_nil, zadd.
    f_equal.
    - apply gs_map_ext. intros j Hj. apply in_seq in Hj. unfold pvs. cbn.
      destruct (Nat.eqb_spec i j); [lia|auto].
    - unfold pvs. now rewrite Nat.eqb_refl, orb_true_r.
  Qed.

  (** sums over the CPUs *)
  Lemma gs_cpus {B} c s ncpu (f : B -> list (bond * Z)) l d : 1 <= ncpu ->
    gs (map (fun k => tsum c s (flat_map f (pick ncpu (k + d)%nat l))) (seq O ncpu)) = tsum c s (flat_map f l).
  Proof.
    intros Hn. rewrite <- tsum_flat. apply tsum_perm. now apply pick_partition_flat.
  Qed.
  Lemma gs_cpus_basic c s full ncpu : 1 <= ncpu ->
    gs (map (fun k => tsum c s (basic_trace K c s full k ncpu)) (seq O ncpu)) = total K pairs full c s.
  Proof.
    intros Hn. rewrite <- tsum_flat, <- basic_all_total. apply tsum_perm. now apply basic_trace_partition.
  Qed.

  (** removal *)
  Lemma seq_shift' n : seq 1 n = map S (seq O n). Proof. symmetry. apply seq_shift. Qed.

  Lemma rm_half c s p : forall u, NoDup (p ++ u) -> inr s (p ++ u) ->
    gs (map (fun k => gs (map (pvs c s false (nth k (p ++ u) O)) (skipn k (p ++ u)))) (seq O (length p))) +
    thalf (pvt c s 1) (pvt c s 2) u = thalf (pvt c s 1) (pvt c s 2) (p ++ u).
  Proof.
    induction p as [|a p IH]; intros u Hnd Hr; cbn [app length seq map thalf].
    - rewrite gs_nil, addz. reflexivity.
    - cbn [app] in Hnd, Hr. inversion Hnd as [|? ? Hni Hnd']; subst.
      assert (Hr' : inr s (p ++ u)) by (intros j Hj; apply Hr; cbn; auto).
      rewrite <- (IH u Hnd' Hr').
      rewrite gs_cons, seq_shift', map_map. cbn [nth skipn map]. rewrite gs_cons.
      rewrite pvs_diag by (apply Hr; cbn; auto).
      rewrite pvs_map by (auto; apply Hr; cbn; auto).
      acsum.
  Qed.

  Lemma map_nth_seq (l : list nat) : map (fun k => nth k l O) (seq O (length l)) = l.
  Proof.
    induction l as [|x l IH]; cbn [length seq map nth]; auto. f_equal.
    rewrite seq_shift', map_map. exact IH.
  Qed.
  Lemma gs_nth (f : nat -> V) l : gs (map (fun k => f (nth k l O)) (seq O (length l))) = gs (map f l).
  Proof. transitivity (gs (map f (map (fun k => nth k l O) (seq O (length l))))); [now rewrite map_map|now rewrite map_nth_seq]. Qed.

  Lemma nth_in_range l k : k < length l -> In (nth k l O) l.
  Proof. apply nth_In. Qed.

  Lemma seq_offset a b : forall i, seq (a + i)%nat b = map (fun k => (a + k)%nat) (seq i b).
  Proof.
    induction b as [|b IH]; intros i; cbn [seq map]; auto. f_equal. rewrite <- IH. f_equal. lia.
  Qed.

  Lemma gs_cut (f : nat -> nat -> V) p u :
    gs (map (fun k => f k (nth k (p ++ u) O)) (seq O (length (p ++ u)))) =
    gs (map (fun k => f k (nth k p O)) (seq O (length p))) +
    gs (map (fun k => f (length p + k)%nat (nth k u O)) (seq O (length u))).
  Proof.
    rewrite app_length, seq_app, map_app, gs_app. f_equal.
    - apply gs_map_ext. intros k Hk. apply in_seq in Hk. now rewrite app_nth1 by lia.
    - cbn [Nat.add]. rewrite <- (Nat.add_0_r (length p)) at 1. rewrite seq_offset, map_map.
      apply gs_map_ext. intros k Hk. rewrite app_nth2 by lia. do 2 f_equal. lia.
  Qed.

  Lemma rm_full c s p u : NoDup (p ++ u) -> inr s (p ++ u) ->
    gs (map (fun k => gs (map (pvs c s true (nth k (p ++ u) O)) (if length p <=? k then p else p ++ u)))
            (seq O (length (p ++ u)))) +
    tfull (pvt c s 1) u = tfull (pvt c s 1) (p ++ u).
  Proof.
    intros Hnd Hr.
    assert (Hp : inr s p) by (intros j Hj; apply Hr, in_or_app; auto).
    assert (Hu : inr s u) by (intros j Hj; apply Hr, in_or_app; auto).
    rewrite (gs_cut (fun k i => gs (map (pvs c s true i) (if length p <=? k then p else p ++ u)))).
    rewrite tfull_app.
    rewrite (gs_map_ext _ (fun k => gs (map (pvt c s 1 (nth k p O)) (p ++ u))) (seq O (length p))).
    2:{ intros k Hk. apply in_seq in Hk. destruct (Nat.leb_spec (length p) k); [lia|].
        apply pvs_full; auto. apply Hp, nth_In. lia. }
    rewrite (gs_nth (fun i => gs (map (pvt c s 1 i) (p ++ u)))).
    rewrite (gs_map_ext _ (fun k => gs (map (pvt c s 1 (nth k u O)) p)) (seq O (length u))).
    2:{ intros k Hk. apply in_seq in Hk. destruct (Nat.leb_spec (length p) (length p + k)); [|lia].
        apply pvs_full; auto. apply Hu, nth_In. lia. }
    rewrite (gs_nth (fun i => gs (map (pvt c s 1 i) p))). acsum.
  Qed.

  Lemma add_half c s a : two_way w -> forall u, NoDup (u ++ a) -> inr s (u ++ a) ->
    thalf (pvt c s 1) (pvt c s 2) (u ++ a) =
    thalf (pvt c s 1) (pvt c s 2) u +
    gs (map (fun k => gs (map (pvs c s false (nth k (u ++ a) O)) (firstn (k + 1) (u ++ a)))) (seq (length u) (length a))).
  Proof.
    intros Hw. induction a as [|x a IH]; intros u Hnd Hr; cbn [length seq map].
    - now rewrite app_nil_r, gs_nil, zadd.
    - replace (u ++ x :: a) with ((u ++ [x]) ++ a) in * by (rewrite <- app_assoc; reflexivity).
      rewrite (IH (u ++ [x]) Hnd Hr). rewrite thalf_snoc by (intros; now apply pvt_sym).
      rewrite app_length, Nat.add_1_r. rewrite gs_cons.
      assert (Hx : x < nsites K s) by (apply Hr; rewrite <- app_assoc; apply in_or_app; cbn; auto).
      assert (Hu : inr s u) by (intros j Hj; apply Hr; rewrite <- app_assoc; apply in_or_app; auto).
      assert (Hni : ~ In x u).
      { rewrite <- app_assoc in Hnd. cbn in Hnd. apply NoDup_remove_2 in Hnd. intros H. apply Hnd.
        apply in_or_app; auto. }
      assert (E1 : nth (length u) ((u ++ [x]) ++ a) O = x).
      { rewrite <- app_assoc. cbn. rewrite app_nth2, Nat.sub_diag by lia. reflexivity. }
      assert (E2 : firstn (length u + 1)%nat ((u ++ [x]) ++ a) = u ++ [x]).
      { rewrite firstn_app, app_length. cbn [length].
        replace (length u + 1 - (length u + 1))%nat with O by lia. cbn [firstn].
        rewrite app_nil_r. apply firstn_all2. rewrite app_length. cbn. lia. }
      rewrite E1, E2, map_app, gs_app. cbn [map]. rewrite gs_cons, gs_nil, pvs_diag, pvs_map by auto.
      acsum.
  Qed.

  Lemma add_full c s u a : NoDup (u ++ a) -> inr s (u ++ a) ->
    tfull (pvt c s 1) (u ++ a) =
    tfull (pvt c s 1) u +
    gs (map (fun k => gs (map (pvs c s true (nth k (u ++ a) O)) (if length u <=? k then u ++ a else a)))
            (seq O (length (u ++ a)))).
  Proof.
    intros Hnd Hr.
    assert (Ha : inr s a) by (intros j Hj; apply Hr, in_or_app; auto).
    assert (Hu : inr s u) by (intros j Hj; apply Hr, in_or_app; auto).
    rewrite (gs_cut (fun k i => gs (map (pvs c s true i) (if length u <=? k then u ++ a else a)))).
    rewrite (tfull_perm _ (u ++ a) (a ++ u)) by apply Permutation_app_comm.
    rewrite tfull_app.
    rewrite (gs_map_ext _ (fun k => gs (map (pvt c s 1 (nth k u O)) a)) (seq O (length u))).
    2:{ intros k Hk. apply in_seq in Hk. destruct (Nat.leb_spec (length u) k); [lia|].
        apply pvs_full; auto. apply Hu, nth_In. lia. }
    rewrite (gs_nth (fun i => gs (map (pvt c s 1 i) a))).
    rewrite (gs_map_ext _ (fun k => gs (map (pvt c s 1 (nth k a O)) (a ++ u))) (seq O (length a))).
    2:{ intros k Hk. apply in_seq in Hk. destruct (Nat.leb_spec (length u) (length u + k)); [|lia].
        rewrite pvs_full; auto; [|apply Ha, nth_In; lia].
        apply gs_perm, Permutation_map, Permutation_app_comm. }
    rewrite (gs_nth (fun i => gs (map (pvt c s 1 i) (a ++ u)))). acsum.
  Qed.

  (** complement *)
  Lemma compl_spec n : forall k idx, StronglySorted lt idx -> (forall i, In i idx -> k <= i < k + n) ->
    compl_from k n idx = filter (fun i => if in_dec Nat.eq_dec i idx then false else true) (seq k n).
  Proof.
    induction n as [|n IH]; intros k idx Hs Hr; cbn [compl_from seq filter]; auto.
    destruct idx as [|i r].
    - cbn [in_dec list_rec list_rect]. f_equal. apply IH; auto. intros i [].
    - inversion Hs as [|? ? Hs' Hlt]; subst. rewrite Forall_forall in Hlt.
      destruct (Nat.ltb_spec k i) as [Hk|Hk].
      + destruct (in_dec Nat.eq_dec k (i :: r)) as [Hin|Hin].
        * destruct Hin as [->|Hin]; [lia|]. apply Hlt in Hin. lia.
        * f_equal. apply IH; auto. intros j Hj. specialize (Hr j Hj).
          assert (j <> k) by (intros ->; contradiction). lia.
      + assert (i = k) by (specialize (Hr i (or_introl eq_refl)); lia). subst i.
        destruct (in_dec Nat.eq_dec k (k :: r)) as [Hin|Hin]; [|exfalso; apply Hin; cbn; auto].
        rewrite IH; auto.
        * apply filter_ext_in. intros j Hj. apply in_seq in Hj.
          destruct (in_dec Nat.eq_dec j r) as [H|H], (in_dec Nat.eq_dec j (k :: r)) as [H'|H']; auto.
          -- exfalso; apply H'; cbn; auto.
          -- destruct H' as [->|H']; [lia|contradiction].
        * intros j Hj. specialize (Hr j (or_intror Hj)). specialize (Hlt j Hj). lia.
  Qed.

  Lemma incr_sorted n l : increasing_below n l -> StronglySorted lt l.
  Proof.
    intros [H _]. induction l as [|x l IH]; constructor.
    - apply IH. intros i j u v Hij Hi Hj. apply (H (S i) (S j)); auto; lia.
    - apply Forall_forall. intros y Hy. apply In_nth_error in Hy. destruct Hy as [m Hm].
      apply (H O (S m)); auto; lia.
  Qed.
  Lemma sorted_nodup l : StronglySorted lt l -> NoDup l.
  Proof.
    induction 1 as [|x l H IH F]; constructor; auto. intros Hin. rewrite Forall_forall in F. apply F in Hin. lia.
  Qed.

  Lemma NoDup_app_disj {B} (l l' : list B) : NoDup l -> NoDup l' -> (forall x, In x l -> In x l' -> False) -> NoDup (l ++ l').
  Proof.
    induction 1 as [|x l Hni Hnd IH]; cbn; intros H' Hd; auto. constructor.
    - intros H. apply in_app_iff in H. destruct H; [contradiction|]. apply (Hd x); auto.
    - apply IH; auto. intros y Hy. apply Hd; auto.
  Qed.
  Lemma complement n idx : increasing_below n idx ->
    complementary_indices n idx = filter (fun i => if in_dec Nat.eq_dec i idx then false else true) (seq O n) /\
    Permutation (idx ++ complementary_indices n idx) (seq O n).
  Proof.
    intros Hi. assert (Hc : complementary_indices n idx = filter (fun i => if in_dec Nat.eq_dec i idx then false else true) (seq O n)).
    { apply compl_spec; [eapply incr_sorted; eauto|]. intros i Hin. apply (proj2 Hi) in Hin. lia. }
    split; auto. apply NoDup_Permutation.
    - apply NoDup_app_disj.
      + apply sorted_nodup. eapply incr_sorted; eauto.
      + rewrite Hc. apply NoDup_filter, seq_NoDup.
      + intros x Hx Hx'. rewrite Hc in Hx'. apply filter_In in Hx'. destruct Hx' as [_ Hx'].
        destruct (in_dec Nat.eq_dec x idx); [discriminate|contradiction].
    - apply seq_NoDup.
    - intros x. rewrite in_app_iff, Hc, filter_In. split.
      + intros [H|[H _]]; auto. apply in_seq. apply (proj2 Hi) in H. lia.
      + intros H. destruct (in_dec Nat.eq_dec x idx); auto.
  Qed.

  Lemma survivors_compl (l : list A) pop : forall i,
    map Some (survivors_from i pop l) =
    map (fun k => nth_error l (k - i)) (filter (fun i => if in_dec Nat.eq_dec i pop then false else true) (seq i (length l))).
  Proof.
    induction l as [|a l IH]; intros i; cbn [survivors_from length seq filter map]; auto.
    assert (E1 : map (fun k => nth_error l (k - S i)) (filter (fun i => if in_dec Nat.eq_dec i pop then false else true) (seq (S i) (length l))) =
                 map (fun k => nth_error (a :: l) (k - i)) (filter (fun i => if in_dec Nat.eq_dec i pop then false else true) (seq (S i) (length l)))).
    { apply map_ext_in. intros k Hk. apply filter_In in Hk. destruct Hk as [Hk _]. apply in_seq in Hk.
      replace (k - i) with (S (k - S i)) by lia. reflexivity. }
    destruct (in_dec Nat.eq_dec i pop); cbn [map].
    - rewrite IH. exact E1.
    - rewrite IH, E1. rewrite Nat.sub_diag. reflexivity.
  Qed.

  Lemma sorted_ext l l' : StronglySorted lt l -> StronglySorted lt l' -> (forall x, In x l <-> In x l') -> l = l'.
  Proof.
    intros H; revert l'. induction H as [|x l H IH F]; intros l' H' Hx.
    - destruct l' as [|y l']; auto. exfalso. apply (Hx y). cbn; auto.
    - destruct l' as [|y l'].
      { exfalso. apply (Hx x). cbn; auto. }
      inversion H' as [|? ? H'' F']; subst. rewrite Forall_forall in F, F'.
      assert (x = y).
      { destruct (proj1 (Hx x) (or_introl eq_refl)) as [E1|E1]; auto.
        destruct (proj2 (Hx y) (or_introl eq_refl)) as [E2|E2]; auto.
        apply F' in E1. apply F in E2. lia. }
      subst y. f_equal. apply IH; auto. intros z. split; intros Hz.
      + destruct (proj1 (Hx z) (or_intror Hz)) as [E1|E1]; auto. subst z. apply F in Hz. lia.
      + destruct (proj2 (Hx z) (or_intror Hz)) as [E1|E1]; auto. subst z. apply F' in Hz. lia.
  Qed.
  Lemma sorted_filter f l : StronglySorted lt l -> StronglySorted lt (filter f l).
  Proof.
    induction 1 as [|x l H IH F]; cbn; [constructor|]. destruct (f x); auto. constructor; auto.
    apply Forall_forall. intros y Hy. apply filter_In in Hy. rewrite Forall_forall in F. now apply F.
  Qed.

  (** *** the unchanged part *)
  Definition wopt c e z (x y : nat * option A) : V :=
    match snd x, snd y with Some a, Some b => w c e z (fst x) a (fst y) b | _, _ => 0 end.
  Lemma wopt_sym c e z x y : two_way w -> wopt c e z x y = wopt c e z y x.
  Proof. intros Hw. destruct x as [i [a|]], y as [j [b|]]; cbn; auto. Qed.

  Lemma ttot_wopt full c s l : inr s l ->
    ttot full c s l = tot full (wopt c (env s) 1) (wopt c (env s) 2) (map (fun i => (i, nth_error (atoms s) i)) l).
  Proof.
    intros Hr. rewrite tot_map.
    assert (H : forall z i j, In i l -> In j l ->
      pvt c s z i j = wopt c (env s) z (i, nth_error (atoms s) i) (j, nth_error (atoms s) j)).
    { intros z i j Hi Hj. rewrite pvt_in by auto. unfold wopt. cbn [fst snd].
      destruct (nth_site s i (Hr i Hi)) as [a Ha], (nth_site s j (Hr j Hj)) as [b Hb]. rewrite Ha, Hb.
      now apply (weight_ok _ _ _ _ _ _ OK). }
    apply tot_ext; intros; now apply H.
  Qed.

  Definition U s idx := complementary_indices (nsites K s) idx.

  Lemma unchanged_equal full c s0 s1 d : full = true \/ two_way w ->
    diff_exact (atoms s0) (atoms s1) d -> env s0 = env s1 ->
    (diffmethod d = SIDEBYSIDE \/
     (diffmethod d = SORTED /\ haspairmask K c = false /\ index_free K w)) ->
    ttot full c s0 (U s0 (pop0 d)) = ttot full c s1 (U s1 (add1 d)).
  Proof.
    intros Hsym (I0 & I1 & Hd) He Hm.
    rewrite <- (sites_ok _ _ _ _ _ _ OK) in I0, I1.
    destruct (complement _ _ I0) as [C0 _], (complement _ _ I1) as [C1 _].
    assert (R0 : inr s0 (U s0 (pop0 d))).
    { intros j Hj. unfold U in Hj. rewrite C0 in Hj. apply filter_In in Hj. destruct Hj as [Hj _]. apply in_seq in Hj. lia. }
    assert (R1 : inr s1 (U s1 (add1 d))).
    { intros j Hj. unfold U in Hj. rewrite C1 in Hj. apply filter_In in Hj. destruct Hj as [Hj _]. apply in_seq in Hj. lia. }
    rewrite !ttot_wopt by auto. rewrite He.
    destruct Hm as [Hm|(Hm & Hp & Hf)].
    - destruct Hd as [[_ Hd]|[[Hd' _]|[Hd' _]]]; [|congruence|congruence].
      f_equal.
      assert (EU : U s0 (pop0 d) = U s1 (add1 d)).
      { (* both are the increasing lists of the same set *)
        unfold U. apply sorted_ext.
        - rewrite C0. apply sorted_filter, sorted_seq.
        - rewrite C1. apply sorted_filter, sorted_seq.
        - intros x. rewrite C0, C1, !filter_In, !in_seq. rewrite !(sites_ok _ _ _ _ _ _ OK).
          destruct (Hd x) as [H _].
          destruct (in_dec Nat.eq_dec x (pop0 d)) as [H1|H1], (in_dec Nat.eq_dec x (add1 d)) as [H2|H2];
            intuition (try discriminate; try lia). }
      rewrite <- EU. apply map_ext_in. intros i Hi. f_equal.
      specialize (R0 i Hi). rewrite EU in Hi.
      destruct (Hd i) as (_ & H & _). rewrite (sites_ok _ _ _ _ _ _ OK) in R0. specialize (H R0).
      rewrite <- EU in Hi. unfold U in Hi. rewrite C0 in Hi. apply filter_In in Hi. destruct Hi as [_ Hi].
      destruct (in_dec Nat.eq_dec i (pop0 d)) as [|Hni]; [discriminate|].
      tauto.
    - destruct Hd as [[Hd' _]|[[_ Hd]|[Hd' _]]]; [congruence| |congruence].
      destruct Hd as [Hperm _].
      set (wi := fun z (x y : option A) => wopt c (env s1) z (O, x) (O, y)).
      assert (Hw : forall z x y, wopt c (env s1) z x y = wi z (snd x) (snd y)).
      { intros z [i [a|]] [j [b|]]; cbn; auto; now apply Hf. }
      rewrite (tot_ext full _ _ (fun x y => wi 1%Z (snd x) (snd y)) (fun x y => wi 2%Z (snd x) (snd y)) (map _ (U s0 _))) by (intros; apply Hw).
      rewrite (tot_ext full _ _ (fun x y => wi 1%Z (snd x) (snd y)) (fun x y => wi 2%Z (snd x) (snd y)) (map _ (U s1 _))) by (intros; apply Hw).
      rewrite <- !(tot_map snd), !map_map. cbn [snd].
      apply tot_perm; [destruct Hsym; [now left|right; intros; now apply wopt_sym]|].
      pose proof (survivors_compl (atoms s0) (pop0 d) O) as S0.
      pose proof (survivors_compl (atoms s1) (add1 d) O) as S1.
      rewrite <- (sites_ok _ _ _ _ _ _ OK), <- C0 in S0. rewrite <- (sites_ok _ _ _ _ _ _ OK), <- C1 in S1.
      rewrite (map_ext (fun k => nth_error (atoms s0) (k - 0)) (nth_error (atoms s0))) in S0
        by (intros; now rewrite Nat.sub_0_r).
      rewrite (map_ext (fun k => nth_error (atoms s1) (k - 0)) (nth_error (atoms s1))) in S1
        by (intros; now rewrite Nat.sub_0_r).
      assert (E0 : map (fun i => nth_error (atoms s0) i) (U s0 (pop0 d)) = map Some (survivors (pop0 d) (atoms s0))) by exact (eq_sym S0).
      assert (E1 : map (fun i => nth_error (atoms s1) i) (U s1 (add1 d)) = map Some (survivors (add1 d) (atoms s1))) by exact (eq_sym S1).
      rewrite E0, E1. apply Permutation_map. exact Hperm.
  Qed.

  Lemma firstn_In' {B} (x : B) k l : In x (firstn k l) -> In x l.
  Proof. intros H. rewrite <- (firstn_skipn k l). apply in_or_app; auto. Qed.
  Lemma NoDup_app_comm {B} (l l' : list B) : NoDup (l ++ l') <-> NoDup (l' ++ l).
  Proof. split; apply Permutation_NoDup, Permutation_app_comm. Qed.

  (** *** one fast update *)
  Lemma skipn_nodup {B} k (l : list B) : NoDup l -> NoDup (skipn k l).
  Proof.
    revert k; induction l as [|x l IH]; intros [|k] H; cbn; auto. inversion H; auto.
  Qed.
  Lemma firstn_nodup {B} k (l : list B) : NoDup l -> NoDup (firstn k l).
  Proof.
    revert k; induction l as [|x l IH]; intros [|k] H; cbn; try constructor; inversion H as [|? ? H1 H2]; subst; auto.
    intros Hin. apply H1. eapply firstn_In'; eauto.
  Qed.

  Lemma rm_sum full c s0 pop : full = true \/ two_way w -> increasing_below (nsites K s0) pop ->
    ttot full c s0 (seq O (nsites K s0)) +
    tsum c s0 (flat_map (rm_item K c s0 s0 full pop (rm_anchors K s0 pop)) (rm_keys K s0 full pop)) =
    ttot full c s0 (U s0 pop).
  Proof.
    intros Hsym Hi. destruct (complement _ _ Hi) as [C P]. fold (U s0 pop) in C, P.
    destruct pop as [|p0 pop'] eqn:Ep.
    - unfold rm_keys, rm_anchors. cbn [length]. assert (seq O (if full then O else O) = []) as -> by (destruct full; auto).
      cbn [flat_map]. unfold tsum at 1. cbn [map]. rewrite gs_nil, zadd. f_equal. rewrite C.
      clear. induction (seq O (nsites K s0)) as [|x l IH]; auto. cbn [filter in_dec list_rec list_rect]. now f_equal.
    - rewrite <- Ep in *. assert (HA : rm_anchors K s0 pop = pop ++ U s0 pop) by (rewrite Ep; reflexivity).
      assert (Hnd : NoDup (pop ++ U s0 pop)).
      { eapply Permutation_NoDup; [symmetry; exact P|apply seq_NoDup]. }
      assert (Hr : inr s0 (pop ++ U s0 pop)).
      { intros j Hj. eapply Permutation_in in Hj; [|exact P]. apply in_seq in Hj. lia. }
      assert (HT : ttot full c s0 (seq O (nsites K s0)) = ttot full c s0 (pop ++ U s0 pop)).
      { apply tot_perm; [destruct Hsym; [now left|right; intros; now apply pvt_sym]|]. now symmetry. }
      rewrite HT. rewrite tsum_flat. unfold rm_keys. rewrite HA. clear Ep HT p0 pop'.
      destruct full; cbn [ttot tot].
      + rewrite (gs_map_ext _ (fun k => opp (gs (map (pvs c s0 true (nth k (pop ++ U s0 pop) O)) (if length pop <=? k then pop else pop ++ U s0 pop))))).
        2:{ intros k Hk. apply in_seq in Hk. unfold rm_item. rewrite visit_gen; auto.
            - apply Hr, nth_In. lia.
            - destruct (length pop <=? k); auto. now apply NoDup_app_l in Hnd.
            - destruct (length pop <=? k); auto. intros j Hj. apply Hr, in_or_app; auto. }
        rewrite gs_map_opp. unfold ttot; cbn [tot]. rewrite <- (rm_full c s0 pop (U s0 pop) Hnd Hr).
        set (X := gs (map _ _)). rewrite (comm X), <- assoc, addo. apply zadd.
      + rewrite (gs_map_ext _ (fun k => opp (gs (map (pvs c s0 false (nth k (pop ++ U s0 pop) O)) (skipn k (pop ++ U s0 pop)))))).
        2:{ intros k Hk. apply in_seq in Hk. unfold rm_item. rewrite visit_gen; auto.
            - apply Hr, nth_In. rewrite app_length. lia.
            - now apply skipn_nodup.
            - intros j Hj. apply Hr. rewrite <- (firstn_skipn k (pop ++ U s0 pop)). apply in_or_app; auto. }
        rewrite gs_map_opp. unfold ttot; cbn [tot]. rewrite <- (rm_half c s0 pop (U s0 pop) Hnd Hr).
        set (X := gs (map _ _)). rewrite (comm X), <- assoc, addo. apply zadd.
  Qed.

  Lemma add_sum full c s1 adds : full = true \/ two_way w -> increasing_below (nsites K s1) adds ->
    ttot full c s1 (U s1 adds) +
    tsum c s1 (flat_map (add_item K c s1 full adds (add_anchors K s1 adds)) (add_keys K s1 full adds)) =
    ttot full c s1 (seq O (nsites K s1)).
  Proof.
    intros Hsym Hi. destruct (complement _ _ Hi) as [C P]. fold (U s1 adds) in C, P.
    destruct adds as [|a0 adds'] eqn:Ep.
    - assert (add_keys K s1 full [] = []) as -> by (destruct full; reflexivity).
      cbn [flat_map]. unfold tsum at 1. cbn [map]. rewrite gs_nil, zadd. f_equal. rewrite C.
      clear. induction (seq O (nsites K s1)) as [|x l IH]; auto. cbn [filter in_dec list_rec list_rect]. now f_equal.
    - rewrite <- Ep in *. assert (HA : add_anchors K s1 adds = U s1 adds ++ adds) by (rewrite Ep; reflexivity).
      rewrite Permutation_app_comm in P.
      assert (Hnd : NoDup (U s1 adds ++ adds)).
      { eapply Permutation_NoDup; [symmetry; exact P|apply seq_NoDup]. }
      assert (Hr : inr s1 (U s1 adds ++ adds)).
      { intros j Hj. eapply Permutation_in in Hj; [|exact P]. apply in_seq in Hj. lia. }
      assert (HT : ttot full c s1 (seq O (nsites K s1)) = ttot full c s1 (U s1 adds ++ adds)).
      { apply tot_perm; [destruct Hsym; [now left|right; intros; now apply pvt_sym]|]. now symmetry. }
      rewrite HT. rewrite tsum_flat. unfold add_keys. rewrite HA. clear Ep HT a0 adds'.
      assert (HL : length (U s1 adds ++ adds) - length adds = length (U s1 adds)) by (rewrite app_length; lia).
      rewrite HL. destruct full.
      + rewrite Nat.sub_0_r.
        rewrite (gs_map_ext _ (fun k => gs (map (pvs c s1 true (nth k (U s1 adds ++ adds) O)) (if length (U s1 adds) <=? k then U s1 adds ++ adds else adds)))).
        2:{ intros k Hk. apply in_seq in Hk. unfold add_item. rewrite HL, visit_gen; auto.
            - apply Hr, nth_In. lia.
            - destruct (length (U s1 adds) <=? k); auto. rewrite NoDup_app_comm in Hnd. now apply NoDup_app_l in Hnd.
            - destruct (length (U s1 adds) <=? k); auto. intros j Hj. apply Hr, in_or_app; auto. }
        symmetry. apply (add_full c s1 (U s1 adds) adds Hnd Hr).
      + replace (length (U s1 adds ++ adds) - length (U s1 adds)) with (length adds) by (rewrite app_length; lia).
        rewrite (gs_map_ext _ (fun k => gs (map (pvs c s1 false (nth k (U s1 adds ++ adds) O)) (firstn (k + 1) (U s1 adds ++ adds))))).
        2:{ intros k Hk. apply in_seq in Hk. unfold add_item. rewrite visit_gen; auto.
            - apply Hr, nth_In. rewrite app_length. lia.
            - now apply firstn_nodup.
            - intros j Hj. apply Hr. eapply firstn_In'; eauto. }
        symmetry. destruct Hsym as [|Hw]; [discriminate|]. apply (add_half c s1 adds Hw (U s1 adds) Hnd Hr).
  Qed.

  (** C12 *)
  Lemma pair_value_double c s i j : doubling K -> pv c s 2 i j = pv c s 1 i j + pv c s 1 i j.
  Proof.
    intros Hd. unfold pair_value. destruct (mask K c s i j); [|now rewrite addz].
    rewrite <- gs_map_add. apply gs_map_ext. intros b _. apply Hd.
  Qed.
  Lemma half_full_list c s l : two_way w -> doubling K -> thalf (pvt c s 1) (pvt c s 2) l = tfull (pvt c s 1) l.
  Proof.
    intros Hw Hd. induction l as [|a l IH]; cbn [thalf]; auto.
    change (a :: l) with ([a] ++ l). rewrite tfull_app. rewrite IH.
    rewrite (gs_map_ext (pvt c s 2 a) (fun j => pvt c s 1 a j + pvt c s 1 a j)).
    2:{ intros j _. unfold pvt. destruct (_ && _); [now apply pair_value_double|now rewrite addz]. }
    rewrite gs_map_add. cbn [app map]. rewrite !gs_cons, gs_nil.
    rewrite (gs_map_ext (fun a0 => gs [pvt c s 1 a0 a]) (pvt c s 1 a) l).
    2:{ intros j _. rewrite gs_cons, gs_nil, zadd. now apply pvt_sym. }
    acsum.
  Qed.
  Theorem half_is_full c s : two_way w -> doubling K -> half_total K pairs c s = full_total K pairs c s.
  Proof.
    intros Hw Hd. change (total K pairs false c s = total K pairs true c s). rewrite !total_ttot by auto.
    now apply half_full_list.
  Qed.
End Hist.
