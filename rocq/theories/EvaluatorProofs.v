From Verif Require Import Base StructDiff StructDiffSpec StructDiffProofs Evaluator EvaluatorSpec.
From Coq Require Import Sorting.Sorted.
Open Scope nat_scope.

(** ** Distribution of counted work *)

(** items whose position k satisfies (n + k) mod ncpu = 0 *)
Fixpoint pick {B} (ncpu n : nat) (l : list B) : list B :=
  match l with
  | [] => []
  | x :: r => (if n mod ncpu =? 0 then [x] else []) ++ pick ncpu (S n) r
  end.

Lemma flat_map_app_perm {B C} (f g : B -> list C) l :
  Permutation (flat_map (fun x => f x ++ g x) l) (flat_map f l ++ flat_map g l).
Proof.
  induction l as [|x l IH]; cbn; auto. rewrite IH. rewrite <- !app_assoc. apply Permutation_app_head.
  rewrite !app_assoc. apply Permutation_app_tail. apply Permutation_app_comm.
Qed.

Lemma flat_map_nil {B C} (l : list B) : flat_map (fun _ => @nil C) l = [].
Proof. induction l; auto. Qed.

Lemma flat_map_ext_in {B C} (f g : B -> list C) l : (forall x, In x l -> f x = g x) -> flat_map f l = flat_map g l.
Proof.
  induction l as [|x l IH]; cbn; intros H; auto. rewrite H, IH by auto. reflexivity.
Qed.

Lemma one_picks {B} (x : B) ncpu d : 0 < ncpu ->
  flat_map (fun cpu => if (cpu + d) mod ncpu =? 0 then [x] else []) (seq 0 ncpu) = [x].
Proof.
  intros Hp.
  set (c0 := (ncpu - d mod ncpu) mod ncpu).
  assert (Hc0 : c0 < ncpu) by (apply Nat.mod_upper_bound; lia).
  assert (Hd : d mod ncpu < ncpu) by (apply Nat.mod_upper_bound; lia).
  assert (Hiff : forall k, k < ncpu -> ((k + d) mod ncpu = 0 <-> k = c0)).
  { intros k Hk. rewrite <- Nat.add_mod_idemp_r by lia. unfold c0.
    destruct (Nat.eq_dec (d mod ncpu) 0) as [E|E].
    - rewrite E, Nat.add_0_r, Nat.sub_0_r, Nat.mod_same, Nat.mod_small by lia. lia.
    - rewrite (Nat.mod_small (ncpu - d mod ncpu)) by lia.
      destruct (Nat.lt_ge_cases (k + d mod ncpu) ncpu) as [H|H].
      + rewrite Nat.mod_small by lia. lia.
      + replace (k + d mod ncpu) with ((k + d mod ncpu - ncpu) + 1 * ncpu) by lia.
        rewrite Nat.mod_add by lia. rewrite Nat.mod_small by lia. lia. }
  assert (ES : seq 0 ncpu = seq 0 c0 ++ c0 :: seq (S c0) (ncpu - S c0)).
  { transitivity (seq 0 (c0 + S (ncpu - S c0))); [f_equal; lia|]. rewrite seq_app. reflexivity. }
  rewrite ES, flat_map_app. cbn [flat_map].
  rewrite (proj2 (Nat.eqb_eq _ _) (proj2 (Hiff c0 Hc0) eq_refl)).
  rewrite (flat_map_ext_in _ (fun _ => []) (seq 0 c0)), flat_map_nil.
  2:{ intros k Hk. apply in_seq in Hk. destruct (Nat.eqb_spec ((k + d) mod ncpu) 0) as [E|E]; auto.
      apply Hiff in E; lia. }
  rewrite (flat_map_ext_in _ (fun _ => []) (seq (S c0) _)), flat_map_nil; auto.
  intros k Hk. apply in_seq in Hk. destruct (Nat.eqb_spec ((k + d) mod ncpu) 0) as [E|E]; auto.
  apply Hiff in E; lia.
Qed.

Lemma pick_partition {B} ncpu (l : list B) : 0 < ncpu -> forall d,
  Permutation (flat_map (fun cpu => pick ncpu (cpu + d) l) (seq 0 ncpu)) l.
Proof.
  intros Hp. induction l as [|x l IH]; intros d; cbn [pick].
  - rewrite flat_map_nil. auto.
  - rewrite flat_map_app_perm, one_picks by auto. cbn. constructor.
    etransitivity; [|apply (IH (S d))]. erewrite flat_map_ext; [reflexivity|]. intros k. cbn. f_equal. lia.
Qed.

Lemma pick_one {B} n (l : list B) : pick 1 n l = l.
Proof. revert n; induction l as [|x l IH]; intros n; auto. cbn [pick]. rewrite IH. reflexivity. Qed.

Lemma Permutation_flat_map {B C} (f : B -> list C) l l' :
  Permutation l l' -> Permutation (flat_map f l) (flat_map f l').
Proof.
  induction 1; cbn; auto.
  - now apply Permutation_app_head.
  - rewrite !app_assoc. apply Permutation_app_tail, Permutation_app_comm.
  - etransitivity; eauto.
Qed.

Lemma pick_partition_flat {B C} ncpu (f : B -> list C) (l : list B) : 0 < ncpu -> forall d,
  Permutation (flat_map (fun cpu => flat_map f (pick ncpu (cpu + d) l)) (seq 0 ncpu)) (flat_map f l).
Proof.
  intros Hp d.
  etransitivity; [|apply Permutation_flat_map; exact (pick_partition ncpu l Hp d)].
  generalize (seq 0 ncpu) as cs. intros cs. induction cs as [|k cs IH]; cbn; auto.
  rewrite flat_map_app. apply Permutation_app; auto.
Qed.

Section Loops.
  Context {stru cfg bond V : Type} (K : calc stru cfg bond V).

  Lemma visit_app c s full sign i l l' :
    visit K c s full sign i (l ++ l') = visit K c s full sign i l ++ visit K c s full sign i l'.
  Proof. apply flat_map_app. Qed.

  Lemma inner_chop ncpu bs : forall n, @inner bond true ncpu n bs = (pick ncpu n bs, n + length bs).
  Proof.
    induction bs as [|b bs IH]; intros n; cbn [inner pick length]; [f_equal; lia|].
    rewrite IH. f_equal; [|lia]. destruct (n mod ncpu =? 0); reflexivity.
  Qed.
  Lemma inner_nochop ncpu bs : forall n, @inner bond false ncpu n bs = (bs, n).
  Proof. induction bs as [|b bs IH]; intros n; cbn [inner]; auto. now rewrite IH. Qed.

  Definition basic_item c s full i0 : list (bond * Z) :=
    visit K c s full 1 i0 (gen K c s i0 (seq 0 (if full then nsites K s else i0 + 1))).
  Definition basic_all c s full : list (bond * Z) := flat_map (basic_item c s full) (seq 0 (nsites K s)).

  Lemma basic_loop_serial c s full ncpu l : forall n,
    basic_loop K c s full false false ncpu l n = flat_map (basic_item c s full) l.
  Proof.
    induction l as [|i l IH]; intros n; cbn [basic_loop flat_map andb]; auto.
    rewrite inner_nochop, IH. reflexivity.
  Qed.
  Lemma basic_loop_outer c s full ncpu l : forall n,
    basic_loop K c s full true false ncpu l n = flat_map (basic_item c s full) (pick ncpu n l).
  Proof.
    induction l as [|i l IH]; intros n; cbn [basic_loop pick andb]; auto.
    destruct (n mod ncpu =? 0); cbn [negb app]; [|apply IH].
    rewrite inner_nochop, IH. reflexivity.
  Qed.
  Definition bonds_of c s (full : bool) i0 : list (nat * bond) :=
    map (pair i0) (gen K c s i0 (seq 0 (if full then nsites K s else i0 + 1))).
  Definition visit1 c s full sign (e : nat * bond) : list (bond * Z) := visit K c s full sign (fst e) [snd e].

  Lemma visit_visit1 c s full sign i bs : visit K c s full sign i bs = flat_map (visit1 c s full sign) (map (pair i) bs).
  Proof.
    induction bs as [|b bs IH]; auto. cbn [map flat_map].
    change (b :: bs) with ([b] ++ bs). rewrite visit_app, IH. reflexivity.
  Qed.

  Lemma pick_map {B C} (f : B -> C) ncpu l : forall n, pick ncpu n (map f l) = map f (pick ncpu n l).
  Proof.
    induction l as [|x l IH]; intros n; auto. cbn [map pick]. rewrite IH, map_app.
    destruct (n mod ncpu =? 0); reflexivity.
  Qed.
  Lemma pick_app {B} ncpu (l l' : list B) : forall n, pick ncpu n (l ++ l') = pick ncpu n l ++ pick ncpu (n + length l) l'.
  Proof.
    induction l as [|x l IH]; intros n; cbn [app pick length]; [now rewrite Nat.add_0_r|].
    rewrite IH, <- app_assoc. do 3 f_equal. lia.
  Qed.

  Lemma basic_loop_inner c s full ncpu l : forall n,
    basic_loop K c s full false true ncpu l n =
    flat_map (visit1 c s full 1) (pick ncpu n (flat_map (bonds_of c s full) l)).
  Proof.
    induction l as [|i l IH]; intros n; cbn [basic_loop andb]; auto.
    rewrite inner_chop, IH. cbn [flat_map]. rewrite pick_app, flat_map_app. f_equal.
    - rewrite visit_visit1. unfold bonds_of. now rewrite pick_map.
    - unfold bonds_of. now rewrite map_length.
  Qed.

  Lemma basic_all_bonds c s full :
    flat_map (visit1 c s full 1) (flat_map (bonds_of c s full) (seq 0 (nsites K s))) = basic_all c s full.
  Proof.
    unfold basic_all. generalize (seq 0 (nsites K s)) as l. induction l as [|i l IH]; cbn [flat_map]; auto.
    rewrite flat_map_app, IH. f_equal. unfold bonds_of, basic_item. now rewrite <- visit_visit1.
  Qed.

  Lemma basic_trace_serial c s full k : basic_trace K c s full k 1 = basic_all c s full.
  Proof. unfold basic_trace. cbn. rewrite !andb_false_r. apply basic_loop_serial. Qed.

  Theorem basic_trace_partition c s full ncpu : 1 <= ncpu ->
    Permutation (flat_map (fun k => basic_trace K c s full k ncpu) (seq 0 ncpu)) (basic_all c s full).
  Proof.
    intros Hn. destruct (Nat.eq_dec ncpu 1) as [->|Hne].
    - cbn [seq flat_map]. rewrite basic_trace_serial, app_nil_r. auto.
    - unfold basic_trace. replace (1 <? ncpu) with true by (symmetry; apply Nat.ltb_lt; lia).
      rewrite !andb_true_r. destruct (outer_ok K ncpu (nsites K s)); cbn [negb].
      + rewrite <- (pick_partition_flat ncpu (basic_item c s full) (seq 0 (nsites K s)) Hn 0).
        erewrite flat_map_ext; [reflexivity|]. intros k. cbn. rewrite Nat.add_0_r. apply basic_loop_outer.
      + rewrite <- basic_all_bonds.
        rewrite <- (pick_partition_flat ncpu (visit1 c s full 1) (flat_map (bonds_of c s full) (seq 0 (nsites K s))) Hn 0).
        erewrite flat_map_ext; [reflexivity|]. intros k. cbn. rewrite Nat.add_0_r. apply basic_loop_inner.
  Qed.

  (** *** removal loop *)
  Definition rm_item c m s0 (full : bool) (pop anchors : list nat) (k : nat) : list (bond * Z) :=
    visit K c m full (-1) (nth k anchors 0)
      (gen K c s0 (nth k anchors 0) (if full then (if length pop <=? k then pop else anchors) else skipn k anchors)).

  Lemma rm_loop_pick c m s0 full ncpu pop anchors ks : forall n sel needs,
    StronglySorted lt ks ->
    (full = true -> (needs = true -> sel = anchors) /\ (needs = false -> sel = pop /\ Forall (fun k => length pop <= k) ks)) ->
    rm_loop K c m s0 full ncpu pop anchors ks n sel needs =
    (flat_map (rm_item c m s0 full pop anchors) (pick ncpu n ks), n + length ks).
  Proof.
    induction ks as [|k ks IH]; intros n sel needs Hs Hinv; cbn [rm_loop pick length flat_map].
    - f_equal; lia.
    - inversion Hs as [|? ? Hs' Hk]; subst.
      destruct (n mod ncpu =? 0); cbn [negb app].
      + set (sel' := if negb full then _ else _). set (needs' := if negb full then _ else _).
        rewrite IH; auto.
        * cbn [flat_map]. f_equal; [|lia]. f_equal. unfold rm_item.
          destruct full; unfold sel'; cbn [negb]; auto.
          destruct (Hinv eq_refl) as [H1 H2]. destruct needs; cbn [andb].
          -- rewrite H1 by auto. reflexivity.
          -- destruct H2 as [-> F]; auto. inversion F as [|? ? Hle _]; subst.
             apply Nat.leb_le in Hle. now rewrite Hle.
        * intros ->. destruct (Hinv eq_refl) as [H1 H2]. unfold sel', needs'; cbn [negb].
          destruct needs; cbn [andb].
          -- destruct (Nat.leb_spec (length pop) k) as [Hle|Hlt]; split; intros; try discriminate; auto.
             split; auto. eapply Forall_impl; [|exact Hk]. cbn; lia.
          -- split; [discriminate|]. intros _. destruct H2 as [-> F]; auto. split; auto. now inversion F.
      + rewrite IH; auto; [f_equal; lia|].
        intros ->. destruct (Hinv eq_refl) as [H1 H2]. split; auto. intros E. destruct (H2 E) as [E' F].
        split; auto. now inversion F.
  Qed.

  Definition rm_anchors s0 pop := match pop with [] => [] | _ => pop ++ complementary_indices (nsites K s0) pop end.
  Definition rm_keys s0 (full : bool) pop := seq 0 (if full then length (rm_anchors s0 pop) else length pop).

  Lemma sorted_seq i n : StronglySorted lt (seq i n).
  Proof.
    revert i; induction n as [|n IH]; intros i; cbn; constructor; [apply IH|].
    apply Forall_forall. intros x Hx. apply in_seq in Hx. lia.
  Qed.

  Lemma rm_trace_pick c m s0 full k ncpu pop :
    rm_trace K c m s0 full k ncpu pop =
    (flat_map (rm_item c m s0 full pop (rm_anchors s0 pop)) (pick ncpu k (rm_keys s0 full pop)),
     k + length (rm_keys s0 full pop)).
  Proof.
    unfold rm_trace. apply rm_loop_pick; [apply sorted_seq|].
    intros ->. split; auto. discriminate.
  Qed.

  (** *** addition loop *)
  Definition add_item c s1 (full : bool) (adds anchors : list nat) (k : nat) : list (bond * Z) :=
    visit K c s1 full 1 (nth k anchors 0)
      (gen K c s1 (nth k anchors 0)
         (if full then (if length anchors - length adds <=? k then anchors else adds) else firstn (k + 1) anchors)).

  Lemma add_loop_pick c s1 full ncpu adds anchors ks : forall n sel needs,
    StronglySorted lt ks ->
    (full = true -> (needs = true -> sel = adds) /\
       (needs = false -> sel = anchors /\ Forall (fun k => length anchors - length adds <= k) ks)) ->
    add_loop K c s1 full ncpu adds anchors ks n sel needs =
    flat_map (add_item c s1 full adds anchors) (pick ncpu n ks).
  Proof.
    induction ks as [|k ks IH]; intros n sel needs Hs Hinv; cbn [add_loop pick length flat_map]; auto.
    inversion Hs as [|? ? Hs' Hk]; subst.
    destruct (n mod ncpu =? 0); cbn [negb app].
    - set (sel' := if negb full then _ else _). set (needs' := if negb full then _ else _).
      rewrite IH; auto.
      + cbn [flat_map]. f_equal. unfold add_item.
        destruct full; unfold sel'; cbn [negb]; auto.
        destruct (Hinv eq_refl) as [H1 H2]. destruct needs; cbn [andb].
        * rewrite H1 by auto. reflexivity.
        * destruct H2 as [-> F]; auto. inversion F as [|? ? Hle _]; subst.
          apply Nat.leb_le in Hle. now rewrite Hle.
      + intros ->. destruct (Hinv eq_refl) as [H1 H2]. unfold sel', needs'; cbn [negb].
        destruct needs; cbn [andb].
        * destruct (Nat.leb_spec (length anchors - length adds) k) as [Hle|Hlt]; split; intros; try discriminate; auto.
          split; auto. eapply Forall_impl; [|exact Hk]. cbn; lia.
        * split; [discriminate|]. intros _. destruct H2 as [-> F]; auto. split; auto. now inversion F.
    - rewrite IH; auto.
      intros ->. destruct (Hinv eq_refl) as [H1 H2]. split; auto. intros E. destruct (H2 E) as [E' F].
      split; auto. now inversion F.
  Qed.

  Definition add_anchors s1 adds := match adds with [] => [] | _ => complementary_indices (nsites K s1) adds ++ adds end.
  Definition add_keys s1 (full : bool) adds :=
    let f := if full then 0 else length (add_anchors s1 adds) - length adds in
    seq f (length (add_anchors s1 adds) - f).

  Lemma add_trace_pick c s1 full ncpu adds n :
    add_trace K c s1 full ncpu adds n =
    flat_map (add_item c s1 full adds (add_anchors s1 adds)) (pick ncpu n (add_keys s1 full adds)).
  Proof.
    unfold add_trace. apply add_loop_pick; [apply sorted_seq|].
    intros ->. split; auto. discriminate.
  Qed.
End Loops.
