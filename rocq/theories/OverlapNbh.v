(** Proofs about neighborhoods(): the sets are the connected components of the graph of overlapping bonds. *)
From Coq Require Import String Relations Sorting.Sorted.
From Verif Require Import RBase R3 Lattice BondGen Overlap OverlapSpec OverlapProofs OverlapFlip.
Open Scope nat_scope.

(** every set in use holds exactly the sites that point to it *)
Record basic (n : nat) (h : nbh) : Prop := {
  b_len : length (ptr h) = n;
  b_rng : forall i k, ptr_of h i = Some k -> k < length (heap h);
  b_set : forall i k, ptr_of h i = Some k -> forall x, In x (set_of h k) <-> ptr_of h x = Some k
}.
Lemma ptr_lt n h i k : basic n h -> ptr_of h i = Some k -> i < n.
Proof.
  intros B H. unfold ptr_of in H. destruct (le_lt_dec n i) as [L|]; auto. rewrite nth_overflow in H by (rewrite (b_len n h B); lia). discriminate.
Qed.
Lemma sinsert_In x y s : In x (sinsert y s) <-> x = y \/ In x s.
Proof.
  unfold sinsert. destruct (existsb (Nat.eqb y) s) eqn:E.
  - apply existsb_exists in E as (z & Hz & E). apply Nat.eqb_eq in E. subst z. intuition congruence.
  - rewrite in_app_iff. cbn. intuition.
Qed.
Lemma ptr_set_ptr h i p x : i < length (ptr h) -> ptr_of (set_ptr h i p) x = if x =? i then p else ptr_of h x.
Proof.
  intros H. unfold ptr_of. cbn [set_ptr ptr]. rewrite nth_upd. replace (i <? length (ptr h)) with true by (symmetry; now apply Nat.ltb_lt).
  rewrite andb_true_r, Nat.eqb_sym. reflexivity.
Qed.
Lemma set_set_insert h k x j : k < length (heap h) -> set_of (set_insert h k x) j = if j =? k then sinsert x (set_of h k) else set_of h j.
Proof.
  intros H. unfold set_of. cbn [set_insert heap]. rewrite nth_upd. replace (k <? length (heap h)) with true by (symmetry; now apply Nat.ltb_lt).
  rewrite andb_true_r, Nat.eqb_sym. reflexivity.
Qed.
Lemma basic_new n h i : basic n h -> i < n -> ptr_of h i = None ->
  basic n (new_set h i) /\ (forall x, ptr_of (new_set h i) x = if x =? i then Some (length (heap h)) else ptr_of h x) /\
  (forall x, ptr_of h x <> Some (length (heap h))).
Proof.
  intros B Hi HN. assert (F : forall x, ptr_of h x <> Some (length (heap h))) by (intros x E; apply (b_rng n h B) in E; lia).
  assert (P : forall x, ptr_of (new_set h i) x = if x =? i then Some (length (heap h)) else ptr_of h x).
  { intros x. unfold ptr_of. cbn [new_set ptr]. rewrite nth_upd, (b_len n h B). replace (i <? n) with true by (symmetry; now apply Nat.ltb_lt).
    rewrite andb_true_r, Nat.eqb_sym. reflexivity. }
  split; [|split; auto]. constructor.
  - cbn [new_set ptr]. rewrite upd_length. apply B.
  - intros x k. rewrite P. cbn [new_set heap]. rewrite app_length. cbn [length]. destruct (x =? i).
    + intros E. injection E as <-. lia.
    + intros E. apply (b_rng n h B) in E. lia.
  - intros x k. rewrite P. intros E y. rewrite P. unfold set_of. cbn [new_set heap].
    destruct (Nat.eqb_spec x i) as [->|N].
    + injection E as <-. rewrite app_nth2, Nat.sub_diag by lia. cbn. destruct (Nat.eqb_spec y i) as [->|]; [tauto|]. split; [intros [<-|[]]; congruence|]. intros E. now apply F in E.
    + rewrite app_nth1 by (eapply (b_rng n h B); eauto). fold (set_of h k). rewrite (b_set n h B x k E y).
      destruct (Nat.eqb_spec y i) as [->|]; [|tauto]. rewrite HN. split; [discriminate|]. intros Q. injection Q as <-. now apply F in E.
Qed.
Lemma basic_attach n h j k0 i : basic n h -> ptr_of h i = Some k0 -> j < n -> ptr_of h j = None ->
  let h' := set_ptr (set_insert h k0 j) j (Some k0) in
  basic n h' /\ forall x, ptr_of h' x = if x =? j then Some k0 else ptr_of h x.
Proof.
  intros B H0 Hj HN h'. pose proof (b_rng n h B _ _ H0) as R.
  assert (P : forall x, ptr_of h' x = if x =? j then Some k0 else ptr_of h x).
  { intros x. unfold h'. rewrite ptr_set_ptr; [reflexivity|]. cbn [set_insert ptr]. now rewrite (b_len n h B). }
  split; auto. constructor.
  - cbn [h' set_ptr set_insert ptr]. rewrite upd_length. apply B.
  - intros x k. rewrite P. cbn [h' set_ptr set_insert heap]. rewrite upd_length. destruct (x =? j).
    + intros E. injection E as <-. exact R.
    + apply (b_rng n h B).
  - intros x k. rewrite P. intros E y. rewrite P.
    change (set_of h' k) with (set_of (set_insert h k0 j) k). rewrite set_set_insert by auto.
    assert (exists x', ptr_of h x' = Some k) as [x' E'] by (destruct (x =? j); [injection E as <-; eauto|eauto]).
    destruct (Nat.eqb_spec k k0) as [->|N].
    + rewrite sinsert_In, (b_set n h B i k0 H0 y). destruct (Nat.eqb_spec y j) as [->|]; intuition congruence.
    + rewrite (b_set n h B x' k E' y). destruct (Nat.eqb_spec y j) as [->|]; [|tauto]. rewrite HN. intuition congruence.
Qed.
Lemma fold_attach k0 l : forall h, k0 < length (heap h) -> (forall x, In x l -> x < length (ptr h)) ->
  let h' := fold_left (fun h x => set_ptr (set_insert h k0 x) x (Some k0)) l h in
  length (ptr h') = length (ptr h) /\ length (heap h') = length (heap h) /\
  (forall x, ptr_of h' x = if existsb (Nat.eqb x) l then Some k0 else ptr_of h x) /\
  (forall k, k <> k0 -> set_of h' k = set_of h k) /\
  (forall x, In x (set_of h' k0) <-> In x (set_of h k0) \/ In x l).
Proof.
  induction l as [|y l IH]; intros h HR HL h'.
  - subst h'. cbn. repeat split; auto; tauto.
  - subst h'. cbn [fold_left]. set (h1 := set_ptr (set_insert h k0 y) y (Some k0)).
    assert (L1 : length (ptr h1) = length (ptr h)) by (cbn; apply upd_length).
    assert (L2 : length (heap h1) = length (heap h)) by (cbn; apply upd_length).
    destruct (IH h1) as (I1 & I2 & I3 & I4 & I5).
    + now rewrite L2.
    + intros x Hx. rewrite L1. apply HL. now right.
    + rewrite I1, I2. repeat split; auto.
      * intros x. rewrite I3. unfold h1. rewrite ptr_set_ptr by (cbn [set_insert ptr]; apply HL; now left). cbn [existsb].
        destruct (existsb (Nat.eqb x) l); [now rewrite orb_true_r|]. destruct (x =? y); reflexivity.
      * intros k Hk. rewrite I4 by auto. change (set_of h1 k) with (set_of (set_insert h k0 y) k). rewrite set_set_insert by auto.
        destruct (Nat.eqb_spec k k0); congruence.
      * change (set_of h1 k0) with (set_of (set_insert h k0 y) k0) in I5.
        intros Hx. apply I5 in Hx. rewrite set_set_insert, Nat.eqb_refl, sinsert_In in Hx by auto. cbn. intuition.
      * change (set_of h1 k0) with (set_of (set_insert h k0 y) k0) in I5.
        intros Hx. apply I5. rewrite set_set_insert, Nat.eqb_refl, sinsert_In by auto. cbn in Hx. intuition.
Qed.

(** joining two sites: exactly their classes are united *)
Definition in_class (h : nbh) (j x : nat) : Prop := x = j \/ exists k, ptr_of h j = Some k /\ ptr_of h x = Some k.
Lemma join_spec n h j0 j1 : basic n h -> j0 < n -> j1 < n ->
  basic n (join h j0 j1) /\ exists k0,
    (forall x, in_class h j0 x \/ in_class h j1 x -> ptr_of (join h j0 j1) x = Some k0) /\
    (forall x, ~ (in_class h j0 x \/ in_class h j1 x) -> ptr_of (join h j0 j1) x = ptr_of h x /\ ptr_of h x <> Some k0).
Proof.
  intros B H0 H1. unfold join.
  set (ha := match ptr_of h j0 with None => new_set h j0 | Some _ => h end).
  assert (A : exists k0, basic n ha /\ ptr_of ha j0 = Some k0 /\ (forall x, in_class h j0 x -> ptr_of ha x = Some k0) /\
     (forall x, ~ in_class h j0 x -> ptr_of ha x = ptr_of h x /\ ptr_of h x <> Some k0)).
  { unfold ha. destruct (ptr_of h j0) as [k|] eqn:E.
    - exists k. split; [auto|]. split; [auto|]. split.
      + intros x [->|(k' & E1 & E2)]; congruence.
      + intros x N. split; auto. intros E'. apply N. right. eauto.
    - destruct (basic_new n h j0 B H0 E) as (B' & P & F). exists (length (heap h)). split; auto. split.
      + rewrite P, Nat.eqb_refl. reflexivity.
      + split.
        * intros x [->|(k' & E1 & E2)]; [|congruence]. now rewrite P, Nat.eqb_refl.
        * intros x N. rewrite P. split; auto. destruct (Nat.eqb_spec x j0) as [->|]; auto. exfalso. apply N. now left. }
  destruct A as (k0 & Ba & E0 & Ain & Aout). clearbody ha. rewrite E0.
  set (hb := match ptr_of ha j1 with None => set_ptr (set_insert ha k0 j1) j1 (Some k0) | Some _ => ha end).
  assert (Bb : exists k1, basic n hb /\ ptr_of hb j0 = Some k0 /\ ptr_of hb j1 = Some k1 /\
     (forall x, in_class h j0 x -> ptr_of hb x = Some k0) /\
     (forall x, in_class h j1 x -> ptr_of hb x = Some k1) /\
     (forall x, ~ in_class h j0 x -> ~ in_class h j1 x -> ptr_of hb x = ptr_of h x /\ ptr_of h x <> Some k0 /\ ptr_of h x <> Some k1)).
  { unfold hb. destruct (ptr_of ha j1) as [k1|] eqn:E1.
    - exists k1. split; auto. split; auto. split; auto. split; auto. split.
      + intros x [->|(k & Q1 & Q2)]; auto.
        (* j1 in a class of h *)
        assert (D : in_class h j0 j1 \/ ~ in_class h j0 j1).
        { destruct (Nat.eq_dec j1 j0) as [->|N]; [left; now left|].
          destruct (ptr_of h j0) as [k'|] eqn:P0; [|right; intros [?|(k2 & T & _)]; congruence].
          destruct (Nat.eq_dec k k') as [<-|N']; [left; right; eauto|right; intros [?|(k2 & T1 & T2)]; congruence]. }
        destruct D as [D|D].
        * assert (in_class h j0 x) as C.
          { destruct D as [->|(k2 & T1 & T2)].
            - right. eauto.
            - right. exists k. split; congruence. }
          rewrite (Ain x C). rewrite (Ain j1 D) in E1. congruence.
        * destruct (Aout j1 D) as [T1 T2].
          assert (C : ~ in_class h j0 x).
          { intros [->|(k2 & T3 & T4)]; apply D.
            - right. eauto.
            - right. exists k. split; congruence. }
          destruct (Aout x C) as [T3 T4]. congruence.
      + intros x N0 N1. destruct (Aout x N0) as [T1 T2]. split; auto. split; auto. intros E. apply N1.
        assert (D : ~ in_class h j0 j1).
        { intros D. rewrite (Ain j1 D) in E1. congruence. }
        destruct (Aout j1 D) as [T3 T4]. right. exists k1. split; congruence.
    - destruct (basic_attach n ha j1 k0 j0 Ba E0 H1 E1) as [B' P]. cbv zeta in B', P. exists k0. split; auto.
      assert (D : ~ in_class h j0 j1) by (intros D; rewrite (Ain j1 D) in E1; congruence).
      destruct (Aout j1 D) as [T1 T2]. rewrite T1 in E1.
      split; [rewrite P; destruct (j0 =? j1); auto|]. split; [now rewrite P, Nat.eqb_refl|]. split; [|split].
      + intros x Hx. rewrite P. destruct (x =? j1); auto.
      + intros x [->|(k & Q & _)]; [now rewrite P, Nat.eqb_refl|congruence].
      + intros x N0 N1. rewrite P. destruct (Nat.eqb_spec x j1) as [->|]; [exfalso; apply N1; now left|]. destruct (Aout x N0). auto. }
  destruct Bb as (k1 & Bb & P0 & P1 & I0 & I1 & IO). clearbody hb. rewrite P1.
  destruct (Nat.eqb_spec k0 k1) as [<-|N].
  - split; auto. exists k0. split.
    + intros x [H|H]; auto.
    + intros x NC. destruct (IO x) as (T1 & T2 & _); auto.
  - assert (HX : forall x, In x (set_of hb k1) <-> ptr_of hb x = Some k1) by (apply (b_set n hb Bb j1 k1 P1)).
    pose proof (fold_attach k0 (set_of hb k1) hb (b_rng n hb Bb _ _ P0)) as F. cbv zeta in F.
    destruct F as (F1 & F2 & F3 & F4 & F5).
    { intros x Hx. rewrite (b_len n hb Bb). eapply ptr_lt; eauto. now apply HX. }
    set (hc := fold_left _ _ hb) in *.
    assert (PC : forall x, ptr_of hb x = Some k1 \/ ptr_of hb x = Some k0 <-> ptr_of hc x = Some k0).
    { intros x. rewrite F3. destruct (existsb (Nat.eqb x) (set_of hb k1)) eqn:Q.
      - apply existsb_exists in Q as (z & Hz & Q). apply Nat.eqb_eq in Q. subst z. apply HX in Hz. tauto.
      - split; [|auto]. intros [T|T]; auto. apply HX in T. exfalso.
        assert (existsb (Nat.eqb x) (set_of hb k1) = true); [|congruence]. apply existsb_exists. exists x. split; auto. apply Nat.eqb_refl. }
    assert (PO : forall x, ptr_of hb x <> Some k1 -> ptr_of hc x = ptr_of hb x).
    { intros x T. rewrite F3. destruct (existsb (Nat.eqb x) (set_of hb k1)) eqn:Q; auto.
      apply existsb_exists in Q as (z & Hz & Q). apply Nat.eqb_eq in Q. subst z. apply HX in Hz. congruence. }
    split.
    + constructor.
      * rewrite F1. apply Bb.
      * intros x k E. rewrite F2. rewrite F3 in E. destruct (existsb (Nat.eqb x) (set_of hb k1)).
        -- injection E as <-. eapply (b_rng n hb Bb); eauto.
        -- eapply (b_rng n hb Bb); eauto.
      * intros x k E y. destruct (Nat.eq_dec k k0) as [->|NK].
        -- rewrite F5, <- PC, HX, (b_set n hb Bb j0 k0 P0 y). tauto.
        -- assert (NX : ptr_of hb x <> Some k1) by (intros T; assert (ptr_of hc x = Some k0) by (apply PC; auto); congruence).
           rewrite (PO x NX) in E. rewrite F4 by auto. rewrite (b_set n hb Bb x k E y). split; intros T.
           ++ rewrite PO; auto. intros T'. assert (ptr_of hb x = Some k1) by congruence. contradiction.
           ++ rewrite <- PO; auto. intros T'. assert (ptr_of hc y = Some k0) by (apply PC; auto). congruence.
    + exists k0. split.
      * intros x [C|C]; apply PC; auto.
      * intros x NC. destruct (IO x) as (T1 & T2 & T3); auto. split; auto. rewrite PO by congruence. exact T1.
Qed.

(** ** The loop over bonds *)
Definition edge := (nat * nat)%type.
Definition elink (es : list edge) (i j : nat) : Prop := In (i, j) es.
Definition econn (es : list edge) := clos_refl_sym_trans nat (elink es).
Definition etouch (es : list edge) (i : nat) : Prop := exists j, In (i, j) es \/ In (j, i) es.
Record inv (n : nat) (es : list edge) (h : nbh) : Prop := {
  i_basic : basic n h;
  i_touch : forall i, ptr_of h i <> None <-> etouch es i;
  i_same : forall i j k, ptr_of h i = Some k -> ptr_of h j = Some k -> econn es i j;
  i_edge : forall i j, In (i, j) es -> exists k, ptr_of h i = Some k /\ ptr_of h j = Some k
}.
Lemma econn_mono es e i j : econn es i j -> econn (es ++ [e]) i j.
Proof.
  induction 1 as [x y H|x|x y H IH|x y z H IH H' IH'].
  - apply rst_step. apply in_app_iff. now left.
  - apply rst_refl.
  - now apply rst_sym.
  - now apply rst_trans with y.
Qed.
Lemma inv_join n es h j0 j1 : inv n es h -> j0 < n -> j1 < n -> inv n (es ++ [(j0, j1)]) (join h j0 j1).
Proof.
  intros I H0 H1. destruct (join_spec n h j0 j1 (i_basic _ _ _ I) H0 H1) as (B & k0 & IN & OUT).
  assert (DEC : forall j x, in_class h j x \/ ~ in_class h j x).
  { intros j x. destruct (Nat.eq_dec x j) as [->|N]; [left; now left|].
    destruct (ptr_of h j) as [k|] eqn:E; [|right; intros [?|(k' & T & _)]; congruence].
    destruct (ptr_of h x) as [k'|] eqn:E'; [|right; intros [?|(k2 & _ & T)]; congruence].
    destruct (Nat.eq_dec k k') as [<-|N']; [left; right; eauto|right; intros [?|(k2 & T1 & T2)]; congruence]. }
  assert (CL : forall x j, in_class h j x -> econn (es ++ [(j0, j1)]) j x).
  { intros x j [->|(k & E1 & E2)]; [apply rst_refl|]. apply econn_mono. eapply (i_same _ _ _ I); eauto. }
  assert (J01 : econn (es ++ [(j0, j1)]) j0 j1) by (apply rst_step, in_app_iff; right; left; reflexivity).
  assert (U : forall x, in_class h j0 x \/ in_class h j1 x -> econn (es ++ [(j0, j1)]) j0 x).
  { intros x [C|C]; [now apply CL|]. eapply rst_trans; [exact J01|]. now apply CL. }
  assert (DD : forall x, (in_class h j0 x \/ in_class h j1 x) \/ ~ (in_class h j0 x \/ in_class h j1 x)).
  { intros x. destruct (DEC j0 x), (DEC j1 x); tauto. }
  constructor; auto.
  - intros i. destruct (DD i) as [C|C].
    + rewrite (IN i C). split; [|discriminate]. intros _. destruct C as [[->|(k & E1 & E2)]|[->|(k & E1 & E2)]].
      * exists j1. left. apply in_app_iff. right. now left.
      * assert (ptr_of h i <> None) as T by congruence. apply (i_touch _ _ _ I) in T as (j & [T|T]); exists j; [left|right]; apply in_app_iff; auto.
      * exists j0. right. apply in_app_iff. right. now left.
      * assert (ptr_of h i <> None) as T by congruence. apply (i_touch _ _ _ I) in T as (j & [T|T]); exists j; [left|right]; apply in_app_iff; auto.
    + rewrite (proj1 (OUT i C)), (i_touch _ _ _ I i). split.
      * intros (j & [T|T]); exists j; [left|right]; apply in_app_iff; auto.
      * intros (j & [T|T]); apply in_app_iff in T as [T|[T|[]]]; [exists j; auto| |exists j; auto|]; injection T as <- <-; exfalso; apply C; [left|right]; now left.
  - intros i j k Ei Ej. destruct (DD i) as [Ci|Ci], (DD j) as [Cj|Cj].
    + eapply rst_trans; [apply rst_sym|]; apply U; auto.
    + rewrite (IN i Ci) in Ei. injection Ei as <-. destruct (OUT j Cj) as [T1 T2]. congruence.
    + rewrite (IN j Cj) in Ej. injection Ej as <-. destruct (OUT i Ci) as [T1 T2]. congruence.
    + destruct (OUT i Ci) as [T1 T2], (OUT j Cj) as [T3 T4]. apply econn_mono. eapply (i_same _ _ _ I); [rewrite <- T1; eauto|congruence].
  - intros i j Hij. apply in_app_iff in Hij as [Hij|[Hij|[]]].
    + destruct (i_edge _ _ _ I i j Hij) as (k & Ei & Ej). destruct (DD i) as [Ci|Ci].
      * exists k0. split; [auto|]. apply IN. destruct Ci as [[->|(k' & T1 & T2)]|[->|(k' & T1 & T2)]].
        -- left. right. eauto.
        -- left. right. exists k'. split; congruence.
        -- right. right. eauto.
        -- right. right. exists k'. split; congruence.
      * assert (Cj : ~ (in_class h j0 j \/ in_class h j1 j)).
        { intros Cj. apply Ci. destruct Cj as [[->|(k' & T1 & T2)]|[->|(k' & T1 & T2)]].
          - left. right. eauto.
          - left. right. exists k'. split; congruence.
          - right. right. eauto.
          - right. right. exists k'. split; congruence. }
        destruct (OUT i Ci) as [T1 T2], (OUT j Cj) as [T3 T4]. exists k. split; congruence.
    + injection Hij as <- <-. exists k0. split; apply IN; [left|right]; now left.
Qed.
Lemma inv_init n : inv n [] {| ptr := repeat None n; heap := [] |}.
Proof.
  assert (P : forall i, ptr_of {| ptr := repeat None n; heap := [] |} i = None) by (intros; apply nth_repeat0).
  constructor.
  - constructor.
    + apply repeat_length.
    + intros i k. rewrite P. discriminate.
    + intros i k. rewrite P. discriminate.
  - intros i. rewrite P. split; [congruence|]. intros (j & [[]|[]]).
  - intros i j k. rewrite P. discriminate.
  - intros i j [].
Qed.
Lemma inv_fold n es : (forall e, In e es -> fst e < n /\ snd e < n) -> forall h es0, inv n es0 h ->
  inv n (es0 ++ es) (fold_left (fun h e => join h (fst e) (snd e)) es h).
Proof.
  induction es as [|[a b] es IH]; intros H h es0 I; [now rewrite app_nil_r|].
  cbn [fold_left fst snd]. replace (es0 ++ (a, b) :: es) with ((es0 ++ [(a, b)]) ++ es) by now rewrite <- app_assoc.
  apply IH; [auto with datatypes|]. destruct (H (a, b)); [now left|]. now apply inv_join.
Qed.
(** connected sites have the same set *)
Lemma inv_conn n es h i j : inv n es h -> econn es i j -> i = j \/ exists k, ptr_of h i = Some k /\ ptr_of h j = Some k.
Proof.
  intros I. induction 1 as [x y H|x|x y H IH|x y z H IH H' IH'].
  - right. eapply (i_edge _ _ _ I); eauto.
  - now left.
  - destruct IH as [->|(k & ? & ?)]; eauto.
  - destruct IH as [->|(k & E1 & E2)], IH' as [->|(k' & E3 & E4)]; eauto. right. exists k. split; congruence.
Qed.

(** ** Self-neighborhoods *)
(** after the bonds: classes unchanged, some isolated sites get a set of their own *)
Record inv2 (n : nat) (h h' : nbh) : Prop := {
  j_basic : basic n h';
  j_old : forall i, ptr_of h i <> None -> ptr_of h' i = ptr_of h i;
  j_new : forall i j k, ptr_of h i = None -> ptr_of h' i = Some k -> ptr_of h' j = Some k -> i = j
}.
Definition npos (h : nbh) := length (filter is_some (ptr h)).
Lemma inv2_new n h h' i : inv2 n h h' -> i < n -> ptr_of h' i = None -> inv2 n h (new_set h' i).
Proof.
  intros [B O N] Hi E. destruct (basic_new n h' i B Hi E) as (B' & P & F). constructor; auto.
  - intros x Hx. rewrite P. destruct (Nat.eqb_spec x i) as [->|]; [|auto]. rewrite (O i Hx) in E. congruence.
  - intros x y k Hx. rewrite !P. destruct (Nat.eqb_spec x i) as [->|], (Nat.eqb_spec y i) as [->|].
    + auto.
    + intros Q1 Q2. injection Q1 as <-. now apply F in Q2.
    + intros Q1 Q2. injection Q2 as <-. now apply F in Q1.
    + now apply N.
Qed.
Lemma npos_upd h i : i < length (ptr h) -> ptr_of h i = None -> npos (new_set h i) = S (npos h).
Proof.
  unfold npos, ptr_of. cbn [new_set ptr].
  assert (forall (l : list (option nat)) i, i < length l -> nth i l None = None -> length (filter is_some (upd i (Some (length (heap h))) l)) = S (length (filter is_some l))) as G.
  { clear. induction l as [|x l IH]; intros [|i] H E; cbn in H, E |- *; try lia.
    - subst x. reflexivity.
    - destruct x; cbn [is_some filter length]; rewrite IH by (auto; lia); reflexivity. }
  apply G.
Qed.
Lemma init_spec n h h' i cnt : inv2 n h h' -> i < n -> cnt = npos h' ->
  let '(h2, cnt2) := initsiteset h' i cnt in inv2 n h h2 /\ cnt2 = npos h2 /\
    (forall x, ptr_of h2 x <> None <-> ptr_of h' x <> None \/ x = i).
Proof.
  intros I Hi ->. unfold initsiteset. destruct (ptr_of h' i) as [k|] eqn:E.
  - split; auto. split; auto. intros x. split; [auto|]. intros [?| ->]; congruence.
  - split; [now apply inv2_new|]. split.
    + symmetry. apply npos_upd; auto. rewrite (b_len n h' (j_basic _ _ _ I)). exact Hi.
    + intros x. destruct (basic_new n h' i (j_basic _ _ _ I) Hi E) as (_ & P & _). rewrite P.
      destruct (Nat.eqb_spec x i) as [->|]; [split; [auto|congruence]|]. tauto.
Qed.
Section Self.
  Context (mask : nat -> nat -> bool) (n : nat) (h : nbh).
  Definition st_ok (st : nbh * nat) : Prop := inv2 n h (fst st) /\ snd st = npos (fst st).
  Lemma inner_spec j0 js : j0 < n -> (forall j, In j js -> j < n) -> forall st, st_ok st ->
    let st' := fold_left (fun st j1 => let '(h, cnt) := st in
      if is_some (ptr_of h j0) && is_some (ptr_of h j1) then st
      else if negb (mask j0 j1) then st
      else let '(h, cnt) := initsiteset h j0 cnt in initsiteset h j1 cnt) js st in
    st_ok st' /\ forall x, ptr_of (fst st') x <> None <->
      ptr_of (fst st) x <> None \/ (exists j, In j js /\ mask j0 j = true /\ (x = j0 \/ x = j)).
  Proof.
    intros H0. induction js as [|j1 js IH]; intros HJ st ST.
    - cbn. split; auto. intros x. split; auto. intros [?|(j & [] & _)]; auto.
    - cbn [fold_left]. set (st1 := let '(h, cnt) := st in _).
      assert (A : st_ok st1 /\ forall x, ptr_of (fst st1) x <> None <-> ptr_of (fst st) x <> None \/ mask j0 j1 = true /\ (x = j0 \/ x = j1)).
      { unfold st1. clear st1 IH. destruct st as [h1 cnt]. destruct ST as [I C]. cbn [fst snd] in *.
        destruct (ptr_of h1 j0) as [p0|] eqn:E0; destruct (ptr_of h1 j1) as [p1|] eqn:E1; cbn [is_some andb].
        - split; [split; auto|]. cbn [fst]. intros x. split; [auto|]. intros [?|[_ [->| ->]]]; congruence.
        - destruct (mask j0 j1) eqn:M; cbn [negb]; [|split; [split; auto|]; cbn [fst]; intros x; intuition discriminate].
          pose proof (init_spec n h h1 j0 cnt I H0 C) as A. destruct (initsiteset h1 j0 cnt) as [h2 c2]. destruct A as (A1 & A2 & A3).
          pose proof (init_spec n h h2 j1 c2 A1 (HJ j1 (or_introl eq_refl)) A2) as A'. destruct (initsiteset h2 j1 c2) as [h3 c3]. destruct A' as (A4 & A5 & A6).
          split; [split; auto|]. cbn [fst]. intros x. rewrite A6, A3. tauto.
        - destruct (mask j0 j1) eqn:M; cbn [negb]; [|split; [split; auto|]; cbn [fst]; intros x; intuition discriminate].
          pose proof (init_spec n h h1 j0 cnt I H0 C) as A. destruct (initsiteset h1 j0 cnt) as [h2 c2]. destruct A as (A1 & A2 & A3).
          pose proof (init_spec n h h2 j1 c2 A1 (HJ j1 (or_introl eq_refl)) A2) as A'. destruct (initsiteset h2 j1 c2) as [h3 c3]. destruct A' as (A4 & A5 & A6).
          split; [split; auto|]. cbn [fst]. intros x. rewrite A6, A3. tauto.
        - destruct (mask j0 j1) eqn:M; cbn [negb]; [|split; [split; auto|]; cbn [fst]; intros x; intuition discriminate].
          pose proof (init_spec n h h1 j0 cnt I H0 C) as A. destruct (initsiteset h1 j0 cnt) as [h2 c2]. destruct A as (A1 & A2 & A3).
          pose proof (init_spec n h h2 j1 c2 A1 (HJ j1 (or_introl eq_refl)) A2) as A'. destruct (initsiteset h2 j1 c2) as [h3 c3]. destruct A' as (A4 & A5 & A6).
          split; [split; auto|]. cbn [fst]. intros x. rewrite A6, A3. tauto. }
      destruct A as [A1 A2]. destruct (IH (fun j Hj => HJ j (or_intror Hj)) st1 A1) as [I1 I2]. split; auto.
      intros x. rewrite I2, A2. split.
      + intros [[?|[? ?]]|(j & ? & ?)]; [auto|right; exists j1; cbn; auto|right; exists j; cbn; tauto].
      + intros [?|(j & [<-|?] & ? & ?)]; [auto|auto|right; eauto].
  Qed.
  (** all sites have a set when the counter reaches n *)
  Lemma npos_full st x : st_ok st -> n <= snd st -> x < n -> ptr_of (fst st) x <> None.
  Proof.
    intros [I C] HC Hx. rewrite C in HC. unfold npos in HC. pose proof (b_len _ _ (j_basic _ _ _ I)) as L.
    unfold ptr_of. revert HC L Hx. generalize (ptr (fst st)) as l. clear.
    intros l. revert n x. induction l as [|o l IH]; intros n x HC L Hx; cbn in *; [lia|]. destruct o as [k|]; cbn in HC.
    - destruct x as [|x]; [discriminate|]. apply (IH (pred n)); lia.
    - exfalso. assert (forall m : list (option nat), length (filter is_some m) <= length m) as G.
      { induction m as [|[|] m IHm]; cbn; lia. }
      specialize (G l). lia.
  Qed.
  Lemma outer_spec js : (forall j, In j js -> j < n) -> forall st, st_ok st ->
    let st' := self_outer mask n js st in
    st_ok st' /\ forall x, x < n -> (ptr_of (fst st') x <> None <->
      ptr_of (fst st) x <> None \/ (exists j0 j, In j0 js /\ j0 <= j < n /\ mask j0 j = true /\ (x = j0 \/ x = j))).
  Proof.
    induction js as [|j0 js IH]; intros HJ st ST.
    - cbn. split; auto. intros x Hx. split; auto. intros [?|(a & b & [] & _)]; auto.
    - cbn [self_outer]. destruct (Nat.ltb_spec (snd st) n) as [L|L].
      + assert (J0 : j0 < n) by (apply HJ; now left).
        pose proof (inner_spec j0 (seq j0 (n - j0)) J0) as A. specialize (A (fun j Hj => ltac:(apply in_seq in Hj; lia)) st ST).
        destruct A as [A1 A2]. fold (self_inner mask n j0 st) in A1, A2.
        destruct (IH (fun j Hj => HJ j (or_intror Hj)) _ A1) as [I1 I2]. split; auto. intros x Hx. rewrite I2, A2 by auto. split.
        * intros [[?|(j & ? & ? & ?)]|(a & b & ? & ? & ? & ?)]; [auto| |].
          -- right. exists j0, j. split; [now left|]. split; [apply in_seq in H; lia|]. auto.
          -- right. exists a, b. cbn. tauto.
        * intros [?|(a & b & [<-|?] & ? & ? & ?)]; [auto| |right; exists a, b; tauto].
          left. right. exists b. split; [apply in_seq; lia|auto].
      + split; auto. intros x Hx. split; [auto|]. intros _. now apply npos_full.
  Qed.
End Self.

(** ** The output *)
Definition claims (h : nbh) (ps : list (option nat)) (dup : list nat) (k : nat) : Prop := In (Some k) ps /\ ~ In k dup.
Lemma existsb_eqb k l : existsb (Nat.eqb k) l = true <-> In k l.
Proof. rewrite existsb_exists. split; [intros (x & H & E); apply Nat.eqb_eq in E; now subst|]. intros H. exists k. now rewrite Nat.eqb_refl. Qed.
(** the identifiers behind the output *)
Fixpoint pick (ps : list (option nat)) (dup : list nat) : list nat :=
  match ps with
  | [] => []
  | None :: r => pick r dup
  | Some k :: r => if existsb (Nat.eqb k) dup then pick r dup else k :: pick r (k :: dup)
  end.
Lemma collect_pick h ps : forall dup, collect h ps dup = map (set_of h) (pick ps dup).
Proof. induction ps as [|[k|] ps IH]; intros dup; cbn; auto. destruct (existsb (Nat.eqb k) dup); cbn; now rewrite IH. Qed.
Lemma pick_In ps : forall dup k, In k (pick ps dup) <-> In (Some k) ps /\ ~ In k dup.
Proof.
  induction ps as [|[a|] ps IH]; intros dup k; cbn [pick In].
  - tauto.
  - destruct (existsb (Nat.eqb a) dup) eqn:E.
    + apply existsb_eqb in E. rewrite IH. split; [tauto|]. intros [[Q|Q] N]; [injection Q as ->; contradiction|auto].
    + assert (~ In a dup) as N by (rewrite <- existsb_eqb; congruence). cbn [In]. rewrite IH. cbn [In]. split.
      * intros [->|[Q1 Q2]]; [auto|]. split; [auto|tauto].
      * intros [[Q|Q] Q2]; [injection Q as ->; auto|]. destruct (Nat.eq_dec a k) as [->|]; [auto|]. right. tauto.
  - rewrite IH. intuition discriminate.
Qed.
Lemma pick_NoDup ps : forall dup, NoDup (pick ps dup).
Proof.
  induction ps as [|[a|] ps IH]; intros dup; cbn [pick]; [constructor| |auto].
  destruct (existsb (Nat.eqb a) dup); auto. constructor; auto. rewrite pick_In. cbn. tauto.
Qed.
(** sets appear in the order of their smallest sites *)
Definition first_of (ps : list (option nat)) (k i : nat) : Prop := nth i ps None = Some k /\ forall j, nth j ps None = Some k -> i <= j.
Lemma pick_sorted ps : forall dup, StronglySorted (fun a b => exists i, nth i ps None = Some a /\ forall j, nth j ps None = Some b -> i < j) (pick ps dup).
Proof.
  induction ps as [|[a|] ps IH]; intros dup; cbn [pick]; [constructor| |].
  - assert (G : forall a b, (exists i, nth i ps None = Some a /\ forall j, nth j ps None = Some b -> i < j) -> forall c, b <> c ->
       exists i, nth i (Some c :: ps) None = Some a /\ forall j, nth j (Some c :: ps) None = Some b -> i < j).
    { intros x y (i & H1 & H2) c NC. exists (S i). split; [exact H1|]. intros [|j]; cbn; [congruence|]. intros Q. apply H2 in Q. lia. }
    destruct (existsb (Nat.eqb a) dup) eqn:E.
    + apply existsb_eqb in E. pose proof (IH dup) as S0. pose proof (fun k => proj1 (pick_In ps dup k)) as PI. revert S0 PI. generalize (pick ps dup) as l.
      induction 1 as [|x l HS IHl HF]; intros PI; [constructor|]. constructor; [apply IHl; intros; apply PI; now right|].
      rewrite Forall_forall in HF |- *. intros y Hy. apply G; [now apply HF|]. intros ->. apply (PI a (or_intror Hy)). exact E.
    + constructor.
      * pose proof (IH (a :: dup)) as S0. pose proof (fun k => proj1 (pick_In ps (a :: dup) k)) as PI. revert S0 PI. generalize (pick ps (a :: dup)) as l.
        induction 1 as [|x l HS IHl HF]; intros PI; [constructor|]. constructor; [apply IHl; intros; apply PI; now right|].
        rewrite Forall_forall in HF |- *. intros y Hy. apply G; [now apply HF|]. intros ->. apply (PI a (or_intror Hy)). now left.
      * apply Forall_forall. intros y Hy. apply pick_In in Hy as [_ Hy]. exists 0. split; [reflexivity|].
        intros [|j]; cbn; [|lia]. intros Q. injection Q as ->. exfalso. apply Hy. now left.
  - pose proof (IH dup) as S0. revert S0. generalize (pick ps dup) as l. induction 1 as [|x l HS IHl HF]; [constructor|]. constructor; auto.
    rewrite Forall_forall in HF |- *. intros y Hy. destruct (HF y Hy) as (i & H1 & H2). exists (S i). split; [exact H1|].
    intros [|j]; cbn; [discriminate|]. intros Q. apply H2 in Q. lia.
Qed.

(** ** Main statement *)
Lemma fold_filter_map {A B C} (p : A -> bool) (f : A -> B) (g : C -> B -> C) l : forall a,
  fold_left (fun a x => if p x then g a (f x) else a) l a = fold_left g (map f (filter p l)) a.
Proof. induction l as [|x l IH]; intros a; [reflexivity|]. cbn. rewrite IH. destruct (p x); reflexivity. Qed.
Lemma clos_ext (P Q : nat -> nat -> Prop) x y : (forall a b, P a b <-> Q a b) -> clos_refl_sym_trans nat P x y -> clos_refl_sym_trans nat Q x y.
Proof.
  intros H. induction 1 as [a b HP|a|a b HP IH|a b d HP IH HP' IH'].
  - apply rst_step. now apply H.
  - apply rst_refl.
  - now apply rst_sym.
  - now apply rst_trans with b.
Qed.
Theorem neighborhoods_main S lk c ops mask : Forall (call_ok S) ops ->
  let c' := orun S lk (resetValue S lk c) ops in
  let bs := counted ops in
  let r := radius_of S lk in
  let N := neighborhoods S mask c' in
  (forall i j A B, nth_error N i = Some A -> nth_error N j = Some B -> forall x, In x A -> In x B -> i = j) /\
  (forall x, (exists A, In A N /\ In x A) <-> x < o_n S /\ ((exists y, linked r bs x y \/ linked r bs y x) \/ takes_part (o_n S) mask x)) /\
  (forall x y A, In A N -> In x A -> (In y A <-> connected r bs x y)) /\
  StronglySorted (fun A B => exists a, In a A /\ forall b, In b B -> a < b) N.
Proof.
  intros HO c' bs r N. destruct (run_state S lk c ops HO) as (HV & HB & HR & _). fold c' bs in HV, HB. fold c' in HR.
  set (n := o_n S). set (es := map (fun b => (b_site0 b, b_site1 b)) (filter (overlapping r) bs)).
  assert (EL : forall i j, elink es i j <-> linked r bs i j).
  { intros i j. unfold elink, es, linked. rewrite in_map_iff. split.
    - intros (b & Q & Hb). injection Q as <- <-. apply filter_In in Hb as [Hb P]. exists b. repeat split; auto. now apply Rltb_true.
    - intros (b & Hb & <- & <- & P). exists b. split; auto. apply filter_In. split; auto. now apply Rltb_true. }
  assert (EC : forall i j, econn es i j <-> connected r bs i j).
  { intros i j. split; apply clos_ext; intros a b; [|symmetry]; apply EL. }
  set (h0 := {| ptr := repeat None n; heap := [] |}).
  set (h1 := fold_left (fun h e => join h (fst e) (snd e)) es h0).
  assert (I1 : inv n es h1).
  { apply (inv_fold n es) with (es0 := []); [|apply inv_init]. intros e He. apply in_map_iff in He as (b & <- & Hb).
    apply filter_In in Hb as [Hb _]. rewrite Forall_forall in HB. exact (HB b Hb). }
  assert (EH : fold_left (fun h index => if Rleb (suboverlap c' index 0 0) 0 then h else
    join h (to_int (subvalue c' SITE0_OFFSET index)) (to_int (subvalue c' SITE1_OFFSET index))) (seq 0 (count c')) h0 = h1).
  { rewrite (count_view c' bs HV). unfold h1, es. rewrite <- (fold_filter_map (overlapping r) (fun b => (b_site0 b, b_site1 b)) (fun h e => join h (fst e) (snd e))).
    apply fold_seq. intros k b a Hk. rewrite (overlap_view0 c' bs HV k b Hk), leb_overlap, (site0_view c' bs HV k b Hk), (site1_view c' bs HV k b Hk).
    unfold overlapping. rewrite (overlap_radius S lk c' b HR) by (rewrite Forall_forall in HB; apply HB; eapply nth_error_In; eauto).
    fold r. destruct (Rltb 0 (overlap r b)); reflexivity. }
  assert (S1 : st_ok n h1 (h1, npos h1)).
  { split; [|reflexivity]. constructor; cbn [fst]; [apply I1|auto|]. intros i j k Q. congruence. }
  destruct (outer_spec mask n h1 (seq 0 n) (fun j Hj => ltac:(apply in_seq in Hj; lia)) _ S1) as [S2 P2].
  set (st2 := self_outer mask n (seq 0 n) (h1, npos h1)) in *. set (h2 := fst st2) in *. destruct S2 as [I2 _]. cbn [fst] in P2. fold h2 in I2.
  assert (EN : N = collect h2 (ptr h2) []).
  { unfold N, neighborhoods. fold n h0. rewrite EH. reflexivity. }
  clear EH. rewrite EN, collect_pick. clearbody N. clear EN.
  pose proof (j_basic _ _ _ I2) as B2.
  assert (PI : forall k, In k (pick (ptr h2) []) <-> exists i, ptr_of h2 i = Some k).
  { intros k. rewrite pick_In. split.
    - intros [H _]. apply (In_nth _ _ None) in H as (i & _ & E). eauto.
    - intros (i & E). split; [|tauto]. pose proof (ptr_lt n h2 i k B2 E). unfold ptr_of in E. rewrite <- E. apply nth_In. now rewrite (b_len n h2 B2). }
  assert (SETS : forall k x, In k (pick (ptr h2) []) -> (In x (set_of h2 k) <-> ptr_of h2 x = Some k)).
  { intros k x Hk. apply PI in Hk as (i & Hi). apply (b_set n h2 B2 i k Hi). }
  assert (TOUCH : forall x, etouch es x <-> exists y, linked r bs x y \/ linked r bs y x).
  { intros x. unfold etouch. split; intros (y & Q); exists y; rewrite <- !EL in *; exact Q. }
  assert (PTR : forall x, x < n -> (ptr_of h2 x <> None <-> etouch es x \/ takes_part n mask x)).
  { intros x Hx. rewrite (P2 x Hx), (i_touch _ _ _ I1 x). apply or_iff_compat_l. unfold takes_part. split.
    - intros (i & j & _ & ?). exists i, j. tauto.
    - intros (i & j & HH & ?). exists i, j. split; [apply in_seq; lia|tauto]. }
  assert (DEC : forall x, ptr_of h2 x = None \/ exists k, ptr_of h2 x = Some k) by (intros x; destruct (ptr_of h2 x); eauto).
  split; [|split; [|split]].
  - intros i j A B HA HBB x HxA HxB. rewrite nth_error_map in HA, HBB.
    destruct (nth_error (pick (ptr h2) []) i) as [k|] eqn:Ei; [|discriminate]. destruct (nth_error (pick (ptr h2) []) j) as [k'|] eqn:Ej; [|discriminate].
    cbn in HA, HBB. injection HA as <-. injection HBB as <-.
    apply SETS in HxA; [|eapply nth_error_In; eauto]. apply SETS in HxB; [|eapply nth_error_In; eauto].
    assert (k = k') by congruence. subst k'.
    pose proof (pick_NoDup (ptr h2) []) as ND. rewrite NoDup_nth_error in ND. apply ND; [apply nth_error_Some; congruence|congruence].
  - intros x. rewrite <- TOUCH. split.
    + intros (A & HA & Hx). apply in_map_iff in HA as (k & <- & Hk). apply SETS in Hx; auto.
      pose proof (ptr_lt n h2 x k B2 Hx) as L. split; [exact L|]. apply PTR; auto. congruence.
    + intros [L H]. apply (PTR x L) in H. destruct (DEC x) as [E|[k E]]; [contradiction|].
      exists (set_of h2 k). assert (In k (pick (ptr h2) [])) as Hk by (apply PI; eauto). split; [now apply in_map|]. now apply SETS.
  - intros x y A HA Hx. apply in_map_iff in HA as (k & <- & Hk). apply (SETS k x Hk) in Hx. rewrite (SETS k y Hk), <- EC. split.
    + intros Hy. destruct (ptr_of h1 x) as [p|] eqn:Ex.
      * destruct (ptr_of h1 y) as [q|] eqn:Ey.
        -- rewrite (j_old _ _ _ I2) in Hx by congruence. rewrite (j_old _ _ _ I2) in Hy by congruence. exact (i_same _ _ _ I1 x y k Hx Hy).
        -- rewrite (j_new _ _ _ I2 y x k Ey Hy Hx). apply rst_refl.
      * rewrite (j_new _ _ _ I2 x y k Ex Hx Hy). apply rst_refl.
    + intros HC. destruct (inv_conn n es h1 x y I1 HC) as [->|(p & Ex & Ey)]; auto.
      rewrite (j_old _ _ _ I2) in Hx |- * by congruence. congruence.
  - pose proof (pick_sorted (ptr h2) []) as PS. pose proof SETS as SETS'. revert PS SETS'.
    generalize (pick (ptr h2) []) as l. induction 1 as [|k l HS IHl HF]; intros SS; [constructor|]. cbn [map]. constructor; [apply IHl; intros; apply SS; now right|].
    rewrite Forall_forall in HF |- *. intros B HBB. apply in_map_iff in HBB as (k' & <- & Hk'). destruct (HF k' Hk') as (i & H1 & H2).
    exists i. split; [apply SS; [now left|exact H1]|]. intros b Hb. apply SS in Hb; [|now right]. now apply H2.
Qed.
