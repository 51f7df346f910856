(** Proofs about the algorithms of BondCalculator: order, sort, in-place merge and set difference, cone filters. *)
From Coq Require Import Sorting.Sorted.
From Verif Require Import RBase R3 Trig Lattice BondGen Evaluator BondCalc.
Open Scope R_scope.

(** *** the order *)
Definition lex (x y : bentry) : Prop :=
  e_dist x < e_dist y \/ (e_dist x = e_dist y /\
  ((e_s0 x < e_s0 y)%nat \/ (e_s0 x = e_s0 y /\
  ((e_s1 x < e_s1 y)%nat \/ (e_s1 x = e_s1 y /\
  (e_d0 x < e_d0 y \/ (e_d0 x = e_d0 y /\
  (e_d1 x < e_d1 y \/ (e_d1 x = e_d1 y /\ e_d2 x < e_d2 y))))))))).

Lemma Rltb_dec x y : {Rltb x y = true /\ x < y} + {Rltb x y = false /\ y <= x}.
Proof. unfold Rltb. destruct (Rlt_dec x y); [left|right]; split; auto; lra. Qed.
Ltac rcase x y := destruct (Rltb_dec x y) as [[-> ?]|[-> ?]].

Lemma compare_lex x y : compare x y = true <-> lex x y.
Proof.
  unfold compare, lex. destruct x as [d a b p q r], y as [d' a' b' p' q' r']; cbn -[Nat.ltb].
  rcase d d'; [split; auto 20|]. rcase d' d; [split; [discriminate|intros [|[? _]]; lra]|].
  assert (d = d') by lra; subst d'.
  destruct (Nat.ltb_spec a a'); [split; auto 20|]. destruct (Nat.ltb_spec a' a); [split; [discriminate|intros [|[_ [|[? _]]]]; [lra|lia|lia]]|].
  assert (a = a') by lia; subst a'.
  destruct (Nat.ltb_spec b b'); [split; auto 20|]. destruct (Nat.ltb_spec b' b); [split; [discriminate|intros [|[_ [|[_ [|[? _]]]]]]; [lra|lia|lia|lia]]|].
  assert (b = b') by lia; subst b'.
  rcase p p'; [split; auto 20|]. rcase p' p; [split; [discriminate|intros [|[_ [|[_ [|[_ [|[? _]]]]]]]]; (lra || lia)]|].
  assert (p = p') by lra; subst p'.
  rcase q q'; [split; auto 20|]. rcase q' q; [split; [discriminate|intros [|[_ [|[_ [|[_ [|[_ [|[? _]]]]]]]]]]; (lra || lia)]|].
  assert (q = q') by lra; subst q'.
  rcase r r'; [split; auto 20|]. rcase r' r; (split; [discriminate|intros [|[_ [|[_ [|[_ [|[_ [|[_ ?]]]]]]]]]]; (lra || lia)]).
Qed.
Lemma compare_trans x y z : compare x y = true -> compare y z = true -> compare x z = true.
Proof.
  rewrite !compare_lex. unfold lex. destruct x as [d a b p q r], y as [d' a' b' p' q' r'], z as [d'' a'' b'' p'' q'' r'']; cbn.
  intros [H1|[-> [H1|[-> [H1|[-> [H1|[-> [H1|[-> H1]]]]]]]]]] [H2|[<- [H2|[<- [H2|[<- [H2|[<- [H2|[<- H2]]]]]]]]]];
  first [left; lra | right; split; [reflexivity|];
  first [left; lia | right; split; [reflexivity|];
  first [left; lia | right; split; [reflexivity|];
  first [left; lra | right; split; [reflexivity|];
  first [left; lra | right; split; [reflexivity|]; lra]]]]].
Qed.
Lemma compare_irrefl x : compare x x = false.
Proof.
  destruct (compare x x) eqn:E; auto. apply compare_lex in E. unfold lex in E.
  destruct E as [H|[_ [H|[_ [H|[_ [H|[_ [H|[_ H]]]]]]]]]]; (lra || lia).
Qed.
Lemma compare_asym x y : compare x y = true -> compare y x = false.
Proof. intros H. destruct (compare y x) eqn:E; auto. rewrite <- (compare_irrefl x). symmetry. eapply compare_trans; eauto. Qed.
Lemma lex_total x y : lex x y \/ x = y \/ lex y x.
Proof.
  unfold lex. destruct x as [d a b p q r], y as [d' a' b' p' q' r']; cbn.
  destruct (Rtotal_order d d') as [H|[H|H]]; [auto|subst d'|auto].
  destruct (lt_eq_lt_dec a a') as [[H|H]|H]; [auto 20|subst a'|auto 20].
  destruct (lt_eq_lt_dec b b') as [[H|H]|H]; [auto 20|subst b'|auto 20].
  destruct (Rtotal_order p p') as [H|[H|H]]; [auto 20|subst p'|auto 20].
  destruct (Rtotal_order q q') as [H|[H|H]]; [auto 20|subst q'|auto 20].
  destruct (Rtotal_order r r') as [H|[H|H]]; [auto 20|subst r'; auto|auto 20].
Qed.
Lemma compare_total x y : compare x y = false -> compare y x = false -> x = y.
Proof.
  intros H1 H2. destruct (lex_total x y) as [H|[H|H]]; auto; apply compare_lex in H; congruence.
Qed.

Definition leb_e (x y : bentry) : Prop := compare y x = false.
Lemma le_refl x : leb_e x x. Proof. apply compare_irrefl. Qed.
Lemma le_trans x y z : leb_e x y -> leb_e y z -> leb_e x z.
Proof.
  unfold leb_e. intros H1 H2. destruct (compare z x) eqn:E; auto.
  destruct (compare x y) eqn:E2.
  - rewrite (compare_trans z x y) in H2; auto.
  - assert (x = y) by now apply compare_total. subst. congruence.
Qed.
Lemma le_antisym x y : leb_e x y -> leb_e y x -> x = y.
Proof. intros. now apply compare_total. Qed.
Lemma lt_le x y : compare x y = true -> leb_e x y.
Proof. apply compare_asym. Qed.
Notation Sorted' := (StronglySorted leb_e).

(** *** sort *)
Lemma insert_perm x l : Permutation (x :: l) (insert x l).
Proof.
  induction l as [|y l IH]; cbn; auto. destruct (compare y x); auto. rewrite perm_swap. now constructor.
Qed.
Lemma sort_perm l : Permutation l (sort l).
Proof. induction l as [|x l IH]; cbn; auto. rewrite <- insert_perm. now constructor. Qed.
Lemma insert_sorted x l : Sorted' l -> Sorted' (insert x l).
Proof.
  induction 1 as [|y l H IH F]; cbn; [repeat constructor|].
  destruct (compare y x) eqn:E.
  - constructor; auto. apply Forall_forall. intros z Hz.
    apply (Permutation_in _ (Permutation_sym (insert_perm x l))) in Hz. destruct Hz as [<-|Hz]; [now apply lt_le|].
    rewrite Forall_forall in F. now apply F.
  - constructor; [now constructor|]. constructor; auto. rewrite Forall_forall in *. intros z Hz.
    eapply le_trans; [exact E|auto].
Qed.
Lemma sort_sorted l : Sorted' (sort l).
Proof. induction l; cbn; [constructor|now apply insert_sorted]. Qed.
Lemma sorted_unique l : forall l', Sorted' l -> Sorted' l' -> Permutation l l' -> l = l'.
Proof.
  induction l as [|x l IH]; intros l' H H' P.
  - apply Permutation_nil in P. now subst.
  - destruct l' as [|y l']; [apply Permutation_sym, Permutation_nil in P; discriminate|].
    inversion H as [|? ? S F]; inversion H' as [|? ? S' F']; subst. rewrite Forall_forall in F, F'.
    assert (x = y).
    { assert (Hx : In x (y :: l')) by (eapply Permutation_in; [exact P|now left]).
      assert (Hy : In y (x :: l)) by (eapply Permutation_in; [symmetry; exact P|now left]).
      destruct Hx as [|Hx]; auto. destruct Hy as [|Hy]; auto. apply le_antisym; auto. }
    subst y. f_equal. apply IH; auto. now apply Permutation_cons_inv in P.
Qed.
Lemma sort_id l : Sorted' l -> sort l = l.
Proof. intros H. symmetry. apply sorted_unique; auto using sort_sorted, sort_perm. Qed.
Lemma sort_perm_eq l l' : Permutation l l' -> sort l = sort l'.
Proof.
  intros P. apply sorted_unique; auto using sort_sorted. rewrite <- !sort_perm. exact P.
Qed.

(** *** lists *)
Lemma upd_app_r {A} n (x : A) l l' : upd (length l + n) x (l ++ l') = l ++ upd n x l'.
Proof. induction l as [|y l IH]; cbn; auto. now rewrite IH. Qed.
Lemma upd_mid {A} n (x z : A) l l' : length l = n -> upd n x (l ++ z :: l') = l ++ x :: l'.
Proof. intros <-. rewrite <- (Nat.add_0_r (length l)) at 1. now rewrite upd_app_r. Qed.
Lemma nth_mid {A} n (x d : A) l l' : length l = n -> nth n (l ++ x :: l') d = x.
Proof. intros <-. rewrite app_nth2, Nat.sub_diag; auto. Qed.
Lemma upd_nth {A} n (d : A) l : (n < length l)%nat -> upd n (nth n l d) l = l.
Proof. revert n; induction l as [|x l IH]; intros [|n] H; cbn in *; auto; try lia. f_equal. apply IH. lia. Qed.
Lemma snoc_case {A} (l : list A) n : length l = S n -> exists l' x, l = l' ++ [x] /\ length l' = n.
Proof.
  intros H. destruct (exists_last (l := l)) as (l' & x & ->); [intros ->; discriminate|].
  exists l', x. split; auto. rewrite app_length in H. cbn in H. lia.
Qed.
Lemma sorted_snoc (l : list bentry) x : Sorted' (l ++ [x]) <-> Sorted' l /\ Forall (fun y => leb_e y x) l.
Proof.
  induction l as [|y l IH]; cbn; split.
  - intros _. split; constructor.
  - intros _. repeat constructor.
  - intros H. inversion H as [|? ? S F]; subst. apply IH in S. destruct S as [S1 S2].
    apply Forall_app in F. destruct F as [F1 F2]. inversion F2; subst. split; constructor; auto.
  - intros [H1 H2]. inversion H1 as [|? ? S F]; subst. inversion H2; subst. constructor.
    + apply IH. auto.
    + apply Forall_app. split; auto.
Qed.

(** *** bmerge *)
Definition below (l out : list bentry) : Prop := forall x y, In x l -> In y out -> leb_e x y.

Lemma merge_loop_spec f : forall l1 g out s1 s2,
  length g = length s1 -> (length l1 + length s1 <= f)%nat ->
  exists l1' g' out' s1' s2',
    merge_loop f (l1 ++ g ++ out) (s1 ++ s2) (length l1) (length s1) (length l1 + length g) =
      (l1' ++ g' ++ out', (length l1', length s1', length l1' + length g'))%nat /\
    length g' = length s1' /\ (l1' = [] \/ s1' = []) /\ s1 ++ s2 = s1' ++ s2' /\
    Permutation (l1 ++ s1 ++ out) (l1' ++ s1' ++ out') /\
    (Sorted' l1 -> Sorted' s1 -> Sorted' out -> below l1 out -> below s1 out ->
     Sorted' l1' /\ Sorted' s1' /\ Sorted' out' /\ below l1' out' /\ below s1' out').
Proof.
  induction f as [|f IH]; intros l1 g out s1 s2 Hg Hf.
  - assert (l1 = [] /\ s1 = []) as [-> ->] by (destruct l1, s1; cbn in Hf; auto; lia).
    destruct g; [|discriminate]. exists [], [], out, [], s2. cbn. repeat split; auto.
  - destruct (length l1) as [|n1] eqn:E1.
    { destruct l1; [|discriminate]. exists [], g, out, s1, s2. cbn. rewrite <- Hg. repeat split; auto. }
    destruct (length s1) as [|n2] eqn:E2.
    { destruct s1; [|discriminate]. exists l1, g, out, [], s2. cbn [merge_loop]. rewrite E1. repeat split; auto. }
    destruct (snoc_case l1 n1 E1) as (l & x & -> & El). destruct (snoc_case s1 n2 E2) as (s & y & -> & Es).
    destruct (snoc_case g n2 Hg) as (g0 & z & -> & Eg).
    cbn [merge_loop].
    assert (Hx : nth n1 ((l ++ [x]) ++ (g0 ++ [z]) ++ out) e_zero = x) by (rewrite <- app_assoc; now apply nth_mid).
    assert (Hy : nth n2 ((s ++ [y]) ++ s2) e_zero = y) by (rewrite <- app_assoc; now apply nth_mid).
    rewrite Hx, Hy.
    assert (Hr : pred (S n1 + length (g0 ++ [z])) = length (l ++ [x] ++ g0)).
    { rewrite !app_length. cbn. lia. }
    rewrite Hr. unfold reverse_compare.
    destruct (compare x y) eqn:EC.
    + (* entry of src *)
      assert (EU : upd (length (l ++ [x] ++ g0)) y ((l ++ [x]) ++ (g0 ++ [z]) ++ out) = (l ++ [x]) ++ g0 ++ (y :: out)).
      { replace ((l ++ [x]) ++ (g0 ++ [z]) ++ out) with ((l ++ [x] ++ g0) ++ z :: out) by (now rewrite <- !app_assoc).
        rewrite upd_mid by reflexivity. now rewrite <- !app_assoc. }
      rewrite EU.
      destruct (IH (l ++ [x]) g0 (y :: out) s (y :: s2)) as (l1' & g' & out' & s1' & s2' & H1 & H2 & H3 & H4 & H5 & H6).
      * lia.
      * rewrite E1. lia.
      * exists l1', g', out', s1', s2'. split; [|split; [exact H2|split; [exact H3|split; [|split]]]].
        -- rewrite <- H1. rewrite E1, Es. rewrite <- !app_assoc. cbn [app]. f_equal. rewrite !app_length. cbn. lia.
        -- rewrite <- H4. now rewrite <- app_assoc.
        -- rewrite <- H5. apply Permutation_app_head. rewrite <- app_assoc. reflexivity.
        -- intros S1 S2 S3 B1 B2. apply sorted_snoc in S2 as [S2 F2]. rewrite Forall_forall in F2.
           apply sorted_snoc in S1 as S1'. destruct S1' as [S1' F1]. rewrite Forall_forall in F1.
           apply H6; auto.
           ++ constructor; auto. apply Forall_forall. intros w Hw. apply B2; auto. apply in_or_app; right; now left.
           ++ intros u v Hu [<-|Hv]; [|now apply B1]. apply in_app_or in Hu. destruct Hu as [Hu|[<-|[]]].
              ** eapply le_trans; [apply F1; auto|now apply lt_le].
              ** now apply lt_le.
           ++ intros u v Hu [<-|Hv]; [now apply F2|]. apply B2; auto. apply in_or_app; auto.
    + (* entry of dst *)
      assert (EU : upd (length (l ++ [x] ++ g0)) x ((l ++ [x]) ++ (g0 ++ [z]) ++ out) = l ++ (x :: g0) ++ (x :: out)).
      { replace ((l ++ [x]) ++ (g0 ++ [z]) ++ out) with ((l ++ [x] ++ g0) ++ z :: out) by (now rewrite <- !app_assoc).
        rewrite upd_mid by reflexivity. now rewrite <- !app_assoc. }
      rewrite EU.
      destruct (IH l (x :: g0) (x :: out) (s ++ [y]) s2) as (l1' & g' & out' & s1' & s2' & H1 & H2 & H3 & H4 & H5 & H6).
      * cbn. rewrite app_length. cbn. lia.
      * lia.
      * exists l1', g', out', s1', s2'. split; [|split; [exact H2|split; [exact H3|split; [exact H4|split]]]].
        -- rewrite <- H1. rewrite El, E2. f_equal. rewrite !app_length. cbn. lia.
        -- rewrite <- H5. rewrite <- app_assoc. apply Permutation_app_head. cbn [app].
           now rewrite Permutation_middle.
        -- intros S1 S2 S3 B1 B2. apply sorted_snoc in S1 as [S1 F1]. rewrite Forall_forall in F1.
           apply sorted_snoc in S2 as S2'. destruct S2' as [S2' F2]. rewrite Forall_forall in F2.
           apply H6; auto.
           ++ constructor; auto. apply Forall_forall. intros w Hw. apply B1; auto. apply in_or_app; right; now left.
           ++ intros u v Hu [<-|Hv]; [now apply F1|]. apply B1; auto. apply in_or_app; auto.
           ++ intros u v Hu [<-|Hv]; [|now apply B2]. apply in_app_or in Hu. destruct Hu as [Hu|[<-|[]]].
              ** eapply le_trans; [apply F2; auto|exact EC].
              ** exact EC.
Qed.

Lemma copy_self a n : (n <= length a)%nat -> copy_down (fun a => a) a n n = (a, O).
Proof.
  induction n as [|n IH]; intros H; cbn [copy_down]; auto. cbn [pred]. rewrite upd_nth by lia. apply IH. lia.
Qed.
Lemma copy_src n : forall g out s1 s2, length g = n -> length s1 = n ->
  copy_down (fun _ => s1 ++ s2) (g ++ out) n n = (s1 ++ out, O).
Proof.
  induction n as [|n IH]; intros g out s1 s2 Hg Hs.
  - destruct g, s1; try discriminate. reflexivity.
  - destruct (snoc_case g n Hg) as (g0 & z & -> & Eg). destruct (snoc_case s1 n Hs) as (s & y & -> & Es).
    cbn [copy_down pred]. rewrite <- !app_assoc. cbn [app]. rewrite (nth_mid n y) by auto. rewrite upd_mid by auto.
    rewrite (IH g0 (y :: out) s (y :: s2)) by auto. reflexivity.
Qed.

Lemma bmerge_spec dst src : Permutation (bmerge dst src) (dst ++ src) /\
  (Sorted' dst -> Sorted' src -> Sorted' (bmerge dst src)).
Proof.
  unfold bmerge.
  destruct (merge_loop_spec (length dst + length src) dst (repeat e_zero (length src)) [] src [])
    as (l1 & g & out & s1 & s2 & H1 & H2 & H3 & H4 & H5 & H6).
  - apply repeat_length.
  - lia.
  - rewrite !app_nil_r in H1. rewrite app_length. rewrite H1. clear H1. rewrite !app_nil_r in H4. rewrite H4.
    assert (EQ : (let '(a, r) := copy_down (fun a => a) (l1 ++ g ++ out) (length l1) (length l1 + length g) in
                  fst (copy_down (fun _ => s1 ++ s2) a (length s1) r)) = l1 ++ s1 ++ out).
    { destruct H3 as [-> | ->].
      - cbn [length app copy_down Nat.add]. rewrite H2, (copy_src _ g out s1 s2); auto.
      - destruct g; [|discriminate]. cbn [app length]. rewrite Nat.add_0_r, copy_self by (rewrite app_length; lia).
        reflexivity. }
    rewrite EQ. split.
    + rewrite <- H5. rewrite app_nil_r. now rewrite H4.
    + intros S1 S2. destruct H6 as (P1 & P2 & P3 & P4 & P5); auto; [now rewrite H4|constructor|intros ? ? ? []|intros ? ? ? []|].
      assert (HA : forall l o, Sorted' l -> Sorted' o -> below l o -> Sorted' (l ++ o)).
      { induction l as [|u l IHl]; intros o Sl So B; cbn; auto. inversion Sl; subst. constructor.
        - apply IHl; auto. intros a b Ha Hb. apply B; auto. now right.
        - apply Forall_app. split; auto. apply Forall_forall. intros b Hb. apply B; auto. now left. }
      destruct H3 as [-> | ->]; cbn [app]; apply HA; auto.
Qed.

(** *** set_difference *)
Lemma bentry_eq_dec (x y : bentry) : {x = y} + {x <> y}.
Proof. destruct x, y. repeat decide equality; apply Req_EM_T. Qed.
Notation cnt := (count_occ bentry_eq_dec).

(** functional version *)
Fixpoint sdF (a b : list bentry) {struct a} : list bentry :=
  match a with
  | [] => []
  | x :: a' =>
      (fix go (b : list bentry) : list bentry :=
         match b with
         | [] => x :: a'
         | y :: b' => if compare x y then x :: sdF a' b else if compare y x then go b' else sdF a' b'
         end) b
  end.
Lemma sdF_nil_r a : sdF a [] = a. Proof. now destruct a. Qed.
Lemma sdF_cons x a y b : sdF (x :: a) (y :: b) =
  if compare x y then x :: sdF a (y :: b) else if compare y x then sdF (x :: a) b else sdF a b.
Proof. reflexivity. Qed.

Lemma copy_up_spec rest : forall d gap, exists t,
  copy_up (d ++ gap ++ rest) (length rest) (length d + length gap) (length d) = (d ++ rest ++ t, (length d + length rest)%nat).
Proof.
  induction rest as [|x rest IH]; intros d gap.
  - exists gap. cbn [length copy_up]. rewrite !app_nil_r, Nat.add_0_r. reflexivity.
  - cbn [length copy_up].
    rewrite app_assoc, (nth_mid (length d + length gap) x) by (now rewrite app_length).
    destruct gap as [|z g].
    + rewrite app_nil_r. cbn [length]. rewrite Nat.add_0_r, upd_mid by reflexivity.
      destruct (IH (d ++ [x]) []) as (t & E). exists t.
      rewrite <- app_assoc in E. cbn [app length] in E. rewrite app_length in E. cbn [length] in E.
      replace (length d + 1 + 0)%nat with (S (length d)) in E by lia. replace (length d + 1)%nat with (S (length d)) in E by lia.
      rewrite E. rewrite <- app_assoc. cbn [app]. f_equal. lia.
    + rewrite <- app_assoc. cbn [app]. rewrite upd_mid by reflexivity.
      destruct (IH (d ++ [x]) (g ++ [x])) as (t & E). exists t.
      rewrite <- !app_assoc in E. cbn [app length] in E. rewrite !app_length in E. cbn [length] in E.
      replace (length d + 1 + (length g + 1))%nat with (S (length d + S (length g))) in E by lia.
      replace (length d + 1)%nat with (S (length d)) in E by lia.
      cbn [length]. rewrite E. f_equal; lia.
Qed.

Lemma sdiff_loop_spec f : forall d gap rest b1 b2, (length rest + length b2 <= f)%nat ->
  exists d' gap' rest',
    sdiff_loop f (d ++ gap ++ rest) (b1 ++ b2) (length d + length gap) (length b1) (length d) =
      (d' ++ gap' ++ rest', (length d' + length gap', length d'))%nat /\
    length (d' ++ gap' ++ rest') = length (d ++ gap ++ rest) /\
    d' ++ rest' = d ++ sdF rest b2.
Proof.
  induction f as [|f IH]; intros d gap rest b1 b2 Hf.
  - assert (rest = []) as -> by (destruct rest; cbn in Hf; auto; lia).
    exists d, gap, []. cbn. auto.
  - cbn [sdiff_loop]. rewrite !app_length.
    destruct rest as [|x rest].
    { replace (length d + length gap <? length d + (length gap + length (@nil bentry)))%nat with false by (cbn; symmetry; apply Nat.ltb_ge; lia).
      exists d, gap, []. cbn [andb sdF]. rewrite !app_length. auto. }
    destruct b2 as [|y b2].
    { replace (length b1 <? length b1 + length (@nil bentry))%nat with false by (cbn; symmetry; apply Nat.ltb_ge; lia).
      rewrite andb_false_r. exists d, gap, (x :: rest). rewrite sdF_nil_r, !app_length. auto. }
    replace (length d + length gap <? length d + (length gap + length (x :: rest)))%nat with true by (cbn; symmetry; apply Nat.ltb_lt; lia).
    replace (length b1 <? length b1 + length (y :: b2))%nat with true by (cbn; symmetry; apply Nat.ltb_lt; lia).
    cbn [andb].
    assert (Hx : nth (length d + length gap) (d ++ gap ++ x :: rest) e_zero = x).
    { rewrite app_assoc. apply nth_mid. now rewrite app_length. }
    assert (Hy : nth (length b1) (b1 ++ y :: b2) e_zero = y) by now apply nth_mid.
    rewrite Hx, Hy, sdF_cons. cbn [length] in Hf.
    destruct (compare x y).
    + destruct gap as [|z g].
      * cbn [app length]. rewrite upd_mid by reflexivity.
        destruct (IH (d ++ [x]) [] rest b1 (y :: b2)) as (d' & gap' & rest' & E1 & E2 & E3); [cbn [length]; lia|].
        exists d', gap', rest'. split; [|split].
        -- rewrite <- E1. rewrite <- app_assoc. cbn [app length]. rewrite app_length. cbn [length]. f_equal; lia.
        -- rewrite E2, !app_length. cbn. lia.
        -- rewrite E3, <- app_assoc. reflexivity.
      * cbn [app]. rewrite upd_mid by reflexivity.
        destruct (IH (d ++ [x]) (g ++ [x]) rest b1 (y :: b2)) as (d' & gap' & rest' & E1 & E2 & E3); [cbn [length]; lia|].
        exists d', gap', rest'. split; [|split].
        -- rewrite <- E1. rewrite <- !app_assoc. cbn [app length]. rewrite !app_length. cbn [length]. f_equal; lia.
        -- rewrite E2, !app_length. cbn. lia.
        -- rewrite E3, <- app_assoc. reflexivity.
    + destruct (compare y x).
      * destruct (IH d gap (x :: rest) (b1 ++ [y]) b2) as (d' & gap' & rest' & E1 & E2 & E3); [cbn [length]; lia|].
        exists d', gap', rest'. split; [|split; auto].
        -- rewrite <- E1. rewrite <- !app_assoc, app_length. cbn [app length]. f_equal; lia.
        -- rewrite E2, !app_length. reflexivity.
      * destruct (IH d (gap ++ [x]) rest (b1 ++ [y]) b2) as (d' & gap' & rest' & E1 & E2 & E3); [lia|].
        exists d', gap', rest'. split; [|split; auto].
        -- rewrite <- E1. rewrite <- !app_assoc, !app_length. cbn [app length]. f_equal; lia.
        -- rewrite E2, !app_length. cbn. lia.
Qed.

Lemma pop_bonds_sdF a b : pop_bonds a b = sdF a b.
Proof.
  unfold pop_bonds. destruct (sdiff_loop_spec (length a + length b) [] [] a [] b) as (d & gap & rest & E1 & E2 & E3); [lia|].
  cbn [app length Nat.add] in *. rewrite E1.
  replace (length a - (length d + length gap))%nat with (length rest) by (rewrite <- E2, !app_length; lia).
  destruct (copy_up_spec rest d gap) as (t & E). rewrite E. rewrite <- E3, app_assoc.
  replace (length d + length rest)%nat with (length (d ++ rest) + 0)%nat by (rewrite app_length; lia).
  rewrite firstn_app_2. cbn. apply app_nil_r.
Qed.

Lemma sdF_sub a : forall b z, In z (sdF a b) -> In z a.
Proof.
  induction a as [|x a IH]; intros b z; [auto|].
  induction b as [|y b IHb]; [rewrite sdF_nil_r; auto|]. rewrite sdF_cons.
  destruct (compare x y); [intros [->|H]; [now left|right; eauto]|].
  destruct (compare y x); [auto|]. intros H. right; eauto.
Qed.
Lemma sdF_sorted a : forall b, Sorted' a -> Sorted' (sdF a b).
Proof.
  induction a as [|x a IH]; intros b Ha; [constructor|]. inversion Ha as [|? ? S F]; subst.
  induction b as [|y b IHb]; [now rewrite sdF_nil_r|]. rewrite sdF_cons.
  destruct (compare x y).
  - constructor; [now apply IH|]. apply Forall_forall. intros z Hz. apply sdF_sub in Hz.
    rewrite Forall_forall in F. now apply F.
  - destruct (compare y x); [auto|]. now apply IH.
Qed.
Lemma cnt_ltall x l : Forall (fun y => compare x y = true) l -> cnt l x = O.
Proof.
  intros F. apply count_occ_not_In. intros H. rewrite Forall_forall in F. specialize (F x H).
  rewrite compare_irrefl in F. discriminate.
Qed.
Lemma count_occ_cons' x l z : cnt (x :: l) z = if bentry_eq_dec x z then S (cnt l z) else cnt l z.
Proof. reflexivity. Qed.
Lemma sdF_count a : forall b z, Sorted' a -> Sorted' b -> cnt (sdF a b) z = (cnt a z - cnt b z)%nat.
Proof.
  induction a as [|x a IH]; intros b z Ha Hb; [reflexivity|]. inversion Ha as [|? ? S F]; subst.
  induction b as [|y b IHb]; [rewrite sdF_nil_r; cbn; lia|]. inversion Hb as [|? ? S' F']; subst.
  rewrite sdF_cons. rewrite Forall_forall in F, F'.
  assert (LT : forall u v w, compare u v = true -> leb_e v w -> compare u w = true).
  { intros u v w H1 H2. destruct (compare v w) eqn:E; [eapply compare_trans; eauto|].
    unfold leb_e in H2. now rewrite <- (compare_total v w E H2). }
  destruct (compare x y) eqn:C1.
  - rewrite (count_occ_cons' x (sdF a (y :: b)) z), (count_occ_cons' x a z). rewrite IH by auto.
    destruct (bentry_eq_dec x z) as [<-|N]; [|reflexivity].
    assert (cnt (y :: b) x = O) as ->; [|lia]. apply cnt_ltall. constructor; auto.
    apply Forall_forall. intros w Hw. eapply LT; eauto.
  - destruct (compare y x) eqn:C2.
    + rewrite IHb by auto. cbn [count_occ].
      destruct (bentry_eq_dec y z) as [<-|N]; [|reflexivity].
      destruct (bentry_eq_dec x y) as [->|_]; [rewrite compare_irrefl in C2; discriminate|].
      assert (cnt a y = O) as ->; [|lia]. apply cnt_ltall. apply Forall_forall. intros w Hw. eapply LT; eauto.
    + assert (x = y) by now apply compare_total. subst y. rewrite IH by auto. cbn [count_occ].
      destruct (bentry_eq_dec x z); lia.
Qed.
Lemma cnt_perm l l' : (forall z, cnt l z = cnt l' z) -> Permutation l l'.
Proof. apply (Permutation_count_occ bentry_eq_dec). Qed.
Lemma perm_cnt l l' : Permutation l l' -> forall z, cnt l z = cnt l' z.
Proof. apply (Permutation_count_occ bentry_eq_dec). Qed.

(** *** finishValue *)
Lemma finish_spec v : Sorted' (bonds v) -> (forall z, (cnt (pops v) z <= cnt (bonds v) z)%nat) ->
  let u := finishValue false v in
  Sorted' (bonds u) /\ pops u = [] /\ adds u = [] /\ bvalue u = map e_dist (bonds u) /\
  forall z, cnt (bonds u) z = (cnt (bonds v) z - cnt (pops v) z + cnt (adds v) z)%nat.
Proof.
  intros Hs Hp u. unfold u, finishValue. rewrite pop_bonds_sdF.
  set (q := sdF (bonds v) (sort (pops v))).
  assert (Sq : Sorted' q) by now apply sdF_sorted.
  assert (Cq : forall z, cnt q z = (cnt (bonds v) z - cnt (pops v) z)%nat).
  { intros z. unfold q. rewrite sdF_count by auto using sort_sorted. f_equal. symmetry. apply perm_cnt, sort_perm. }
  assert (R : let m := match q with [] => sort (adds v) | _ => bmerge q (sort (adds v)) end in
     Sorted' m /\ forall z, cnt m z = (cnt q z + cnt (adds v) z)%nat).
  { cbv zeta. destruct q as [|e q'].
    - split; [apply sort_sorted|]. intros z. cbn. symmetry. apply perm_cnt, sort_perm.
    - destruct (bmerge_spec (e :: q') (sort (adds v))) as [P S]. split; [apply S; auto; apply sort_sorted|].
      intros z. rewrite (perm_cnt _ _ P), count_occ_app. f_equal. symmetry. apply perm_cnt, sort_perm. }
  cbv zeta in R. destruct R as [R1 R2]. cbn [bonds pops adds bvalue]. repeat split; auto.
  intros z. rewrite R2, Cq. reflexivity.
Qed.
