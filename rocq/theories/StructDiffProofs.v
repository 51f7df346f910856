From Verif Require Import Base StructDiff StructDiffSpec.
From Coq Require Import Sorting.Sorted.
Open Scope nat_scope.

(** ** C16 *)
Section AtomOrder.
  Context {str D : Type} (slt : str -> str -> bool) (dlt : D -> D -> bool).
  Hypothesis Hs : strict_total slt.
  Hypothesis Hd : strict_total dlt.

  Lemma st_asym {A} (lt : A -> A -> bool) (H : strict_total lt) a b : lt a b = true -> lt b a = false.
  Proof.
    intros E. destruct (lt b a) eqn:E'; auto. rewrite <- (st_irrefl lt H a). symmetry. eapply st_trans; eauto.
  Qed.

  Lemma cmploop_refl l : cmploop dlt l l = None.
  Proof. induction l as [|x l IH]; cbn; auto. now rewrite (st_irrefl dlt Hd). Qed.

  Lemma cmploop_None l0 l1 : length l0 = length l1 -> cmploop dlt l0 l1 = None -> l0 = l1.
  Proof.
    revert l1; induction l0 as [|x l0 IH]; intros [|y l1] HL; cbn in *; try discriminate; auto.
    destruct (dlt x y) eqn:E1; [discriminate|]. destruct (dlt y x) eqn:E2; [discriminate|].
    intros H. f_equal; [now apply (st_total dlt Hd)|]. apply IH; auto.
  Qed.

  Lemma cmploop_flip l0 l1 : cmploop dlt l1 l0 = option_map negb (cmploop dlt l0 l1).
  Proof.
    revert l1; induction l0 as [|x l0 IH]; intros [|y l1]; cbn in *; auto.
    destruct (dlt x y) eqn:E1.
    - now rewrite (st_asym dlt Hd _ _ E1).
    - destruct (dlt y x) eqn:E2; auto.
  Qed.

  Lemma cmploop_trans l0 l1 l2 : length l0 = length l1 -> length l1 = length l2 ->
    cmploop dlt l0 l1 = Some true -> cmploop dlt l1 l2 = Some true -> cmploop dlt l0 l2 = Some true.
  Proof.
    revert l1 l2; induction l0 as [|x l0 IH]; intros [|y l1] [|z l2] H1 H2; cbn in *; try discriminate.
    intros A B.
    destruct (dlt x y) eqn:E1.
    - destruct (dlt y z) eqn:E2.
      + now rewrite (st_trans dlt Hd _ _ _ E1 E2).
      + destruct (dlt z y) eqn:E3; [discriminate|].
        assert (y = z) by now apply (st_total dlt Hd). subst. now rewrite E1.
    - destruct (dlt y x) eqn:E1'; [discriminate|].
      assert (x = y) by now apply (st_total dlt Hd). subst y.
      destruct (dlt x z) eqn:E2; auto. destruct (dlt z x) eqn:E3; [discriminate|].
      apply (IH l1 l2); auto; lia.
  Qed.

  Lemma atom_lt_irrefl a : atom_lt slt dlt a a = false.
  Proof.
    unfold atom_lt. rewrite (st_irrefl slt Hs), !cmploop_refl, (st_irrefl dlt Hd).
    now destruct (anisotropy a).
  Qed.

  Lemma atom_lt_total a b : shaped a -> shaped b ->
    atom_lt slt dlt a b = false -> atom_lt slt dlt b a = false -> a = b.
  Proof.
    intros [A1 A2] [B1 B2]. unfold atom_lt.
    rewrite (cmploop_flip (xyz_cartn a) (xyz_cartn b)), (cmploop_flip (uij_cartn a) (uij_cartn b)).
    destruct (slt (atomtype a) (atomtype b)) eqn:T1; [discriminate|].
    destruct (slt (atomtype b) (atomtype a)) eqn:T2; [discriminate|].
    destruct (cmploop dlt (xyz_cartn a) (xyz_cartn b)) as [[|]|] eqn:X; cbn; try discriminate.
    destruct (dlt (occupancy a) (occupancy b)) eqn:O1; [discriminate|].
    destruct (dlt (occupancy b) (occupancy a)) eqn:O2; [discriminate|].
    destruct (blt (anisotropy a) (anisotropy b)) eqn:N1; [discriminate|].
    destruct (blt (anisotropy b) (anisotropy a)) eqn:N2; [discriminate|].
    destruct (cmploop dlt (uij_cartn a) (uij_cartn b)) as [[|]|] eqn:U; cbn; try discriminate.
    intros _ _. destruct a as [at0 x0 o0 n0 u0], b as [at1 x1 o1 n1 u1]; cbn in *. f_equal.
    - now apply (st_total slt Hs).
    - apply cmploop_None; congruence.
    - now apply (st_total dlt Hd).
    - destruct n0, n1; cbn in *; congruence.
    - apply cmploop_None; congruence.
  Qed.

  Lemma atom_lt_trans a b c : shaped a -> shaped b -> shaped c ->
    atom_lt slt dlt a b = true -> atom_lt slt dlt b c = true -> atom_lt slt dlt a c = true.
  Proof.
    intros [A1 A2] [B1 B2] [C1 C2]. unfold atom_lt.
    destruct a as [at0 x0 o0 n0 u0], b as [at1 x1 o1 n1 u1], c as [at2 x2 o2 n2 u2]; cbn in *.
    destruct (slt at0 at1) eqn:T1.
    { intros _. destruct (slt at1 at2) eqn:T2.
      - now rewrite (st_trans slt Hs _ _ _ T1 T2).
      - destruct (slt at2 at1) eqn:T3; [discriminate|].
        assert (at1 = at2) by now apply (st_total slt Hs). subst. now rewrite T1. }
    destruct (slt at1 at0) eqn:T1'; [discriminate|].
    assert (at0 = at1) by now apply (st_total slt Hs). subst at1.
    destruct (slt at0 at2) eqn:T2; auto. destruct (slt at2 at0) eqn:T3; [discriminate|].
    destruct (cmploop dlt x0 x1) as [[|]|] eqn:X; try discriminate.
    { intros _. destruct (cmploop dlt x1 x2) as [[|]|] eqn:X2; try discriminate.
      - rewrite (cmploop_trans x0 x1 x2) by congruence. auto.
      - apply cmploop_None in X2; [|congruence]. subst x2. now rewrite X. }
    apply cmploop_None in X; [|congruence]. subst x1.
    destruct (cmploop dlt x0 x2) as [[|]|] eqn:X2; auto.
    destruct (dlt o0 o1) eqn:O1.
    { intros _. destruct (dlt o1 o2) eqn:O2.
      - now rewrite (st_trans dlt Hd _ _ _ O1 O2).
      - destruct (dlt o2 o1) eqn:O3; [discriminate|].
        assert (o1 = o2) by now apply (st_total dlt Hd). subst. now rewrite O1. }
    destruct (dlt o1 o0) eqn:O1'; [discriminate|].
    assert (o0 = o1) by now apply (st_total dlt Hd). subst o1.
    destruct (dlt o0 o2) eqn:O2; auto. destruct (dlt o2 o0) eqn:O3; [discriminate|].
    destruct n0, n1, n2; cbn; try discriminate; auto.
    - destruct (cmploop dlt u0 u1) as [[|]|] eqn:U; try discriminate.
      destruct (cmploop dlt u1 u2) as [[|]|] eqn:U2; try discriminate.
      rewrite (cmploop_trans u0 u1 u2) by congruence. auto.
    - destruct (cmploop dlt u0 u1) as [[|]|] eqn:U; try discriminate.
      destruct (cmploop dlt u1 u2) as [[|]|] eqn:U2; try discriminate.
      rewrite (cmploop_trans u0 u1 u2) by congruence. auto.
  Qed.
End AtomOrder.

Lemma shapedb_ok {str D} (a : atom str D) : shapedb a = true -> shaped a.
Proof. unfold shapedb, shaped. rewrite andb_true_iff, !Nat.eqb_eq. auto. Qed.

Lemma Atom_strict_total {str D} (slt : str -> str -> bool) (dlt : D -> D -> bool) :
  strict_total slt -> strict_total dlt ->
  strict_total (fun a b : Atom str D => atom_lt slt dlt (proj1_sig a) (proj1_sig b)).
Proof.
  intros Hs Hd. split.
  - intros a. now apply atom_lt_irrefl.
  - intros [a Ha] [b Hb] [c Hc]. cbn. apply atom_lt_trans; auto using shapedb_ok.
  - intros [a Ha] [b Hb]. cbn. intros H1 H2.
    assert (a = b) by (apply (atom_lt_total slt dlt Hs Hd); auto using shapedb_ok). subst b.
    f_equal. apply Eqdep_dec.UIP_dec. apply bool_dec.
Qed.

(** ** C15 *)
Section DiffProofs.
  Context {A : Type} (aeqb altb : A -> A -> bool).
  Hypothesis Heq : forall a b, aeqb a b = true <-> a = b.
  Hypothesis Hlt : strict_total altb.

  Lemma sbs_spec l0 l1 : forall i, let '(p, q) := sidebyside aeqb i l0 l1 in
    (forall k, In k p <-> exists j, k = i + j /\ j < length l0 /\ nth_error l0 j <> nth_error l1 j) /\
    (forall k, In k q <-> exists j, k = i + j /\ j < length l1 /\ nth_error l0 j <> nth_error l1 j).
  Proof.
    revert l1; induction l0 as [|a l0 IH]; intros [|b l1] i.
    - cbn. split; intros k; split; intros H; try tauto; destruct H as (j & _ & H & _); lia.
    - cbn [sidebyside]. split; intros k.
      + split; [intros []|]. intros (j & _ & H & _); cbn in H; lia.
      + rewrite in_seq. split.
        * intros H. exists (k - i). repeat split; cbn [length] in *; try lia.
          intros E. assert (nth_error (@nil A) (k - i) = None) as E0 by (destruct (k - i); auto).
          rewrite E0 in E. symmetry in E. apply nth_error_None in E. cbn in E. lia.
        * intros (j & -> & H & _). lia.
    - cbn [sidebyside]. split; intros k.
      + rewrite in_seq. split.
        * intros H. exists (k - i). repeat split; cbn [length] in *; try lia.
          intros E. assert (nth_error (@nil A) (k - i) = None) as E0 by (destruct (k - i); auto).
          rewrite E0 in E. apply nth_error_None in E. cbn in E. lia.
        * intros (j & -> & H & _). lia.
      + split; [intros []|]. intros (j & _ & H & _); cbn in H; lia.
    - cbn [sidebyside]. specialize (IH l1 (S i)). destruct (sidebyside aeqb (S i) l0 l1) as [p q].
      destruct IH as [IH1 IH2].
      assert (HS : forall (n : nat) k,
        (exists j, k = S i + j /\ j < n /\ nth_error l0 j <> nth_error l1 j) <->
        (exists j, k = i + S j /\ S j < S n /\ nth_error (a :: l0) (S j) <> nth_error (b :: l1) (S j))).
      { intros n k. split; intros (j & ? & ? & ?); exists j; cbn in *; repeat split; auto; lia. }
      destruct (aeqb a b) eqn:E; cbn [negb].
      + apply Heq in E. subst b. split; intros k; [rewrite IH1|rewrite IH2]; rewrite HS; cbn [length].
        * split; [intros (j & ? & ? & ?); exists (S j); auto|].
          intros ([|j] & ? & ? & ?); [cbn in *; congruence|]. exists j; auto.
        * split; [intros (j & ? & ? & ?); exists (S j); auto|].
          intros ([|j] & ? & ? & ?); [cbn in *; congruence|]. exists j; auto.
      + assert (Hab : a <> b) by (intros ->; rewrite (proj2 (Heq b b) eq_refl) in E; discriminate).
        split; intros k; cbn [In]; [rewrite IH1|rewrite IH2]; rewrite HS; cbn [length].
        * split.
          -- intros [<-|(j & ? & ? & ?)]; [exists 0; cbn; repeat split; try lia; congruence|exists (S j); auto].
          -- intros ([|j] & ? & ? & ?); [left; lia|right; exists j; auto].
        * split.
          -- intros [<-|(j & ? & ? & ?)]; [exists 0; cbn; repeat split; try lia; congruence|exists (S j); auto].
          -- intros ([|j] & ? & ? & ?); [left; lia|right; exists j; auto].
  Qed.

  (** increasing, by StronglySorted *)
  Definition incr (l : list nat) := StronglySorted lt l.

  Lemma incr_seq i n : incr (seq i n).
  Proof.
    revert i; induction n as [|n IH]; intros i; cbn; constructor; [apply IH|].
    apply Forall_forall. intros x Hx. apply in_seq in Hx. lia.
  Qed.

  Lemma sbs_incr l0 l1 : forall i, let '(p, q) := sidebyside aeqb i l0 l1 in incr p /\ incr q.
  Proof.
    revert l1; induction l0 as [|a l0 IH]; intros [|b l1] i.
    - split; constructor.
    - cbn [sidebyside]. split; [constructor|]. apply (incr_seq i (length (b :: l1))).
    - cbn [sidebyside]. split; [|constructor]. apply (incr_seq i (length (a :: l0))).
    - cbn [sidebyside]. pose proof (sbs_spec l0 l1 (S i)) as HS. specialize (IH l1 (S i)).
      destruct (sidebyside aeqb (S i) l0 l1) as [p q]. destruct IH as [I1 I2]. destruct HS as [S1 S2].
      destruct (negb (aeqb a b)); auto. split; constructor; auto; apply Forall_forall; intros x Hx.
      + apply S1 in Hx. destruct Hx as (j & ? & _). lia.
      + apply S2 in Hx. destruct Hx as (j & ? & _). lia.
  Qed.

  Lemma incr_below n l : incr l -> (forall x, In x l -> x < n) -> increasing_below n l.
  Proof.
    intros H1 H2. split; auto. clear H2.
    induction H1 as [|x l H IH F]; intros i j u v Hij Hi Hj.
    - destruct i; discriminate.
    - destruct j as [|j]; [lia|]. cbn in Hj. destruct i as [|i]; cbn in Hi.
      + injection Hi as ->. rewrite Forall_forall in F. apply F. eapply nth_error_In; eauto.
      + eapply (IH i j); eauto. lia.
  Qed.

  (** sort_nat *)
  Lemma insert_nat_perm x l : Permutation (x :: l) (insert_nat x l).
  Proof.
    induction l as [|y l IH]; cbn; auto. destruct (x <=? y); auto.
    rewrite perm_swap. now constructor.
  Qed.
  Lemma sort_nat_perm l : Permutation l (sort_nat l).
  Proof. induction l as [|x l IH]; cbn; auto. rewrite <- insert_nat_perm. now constructor. Qed.

  Lemma insert_nat_incr x l : incr l -> ~ In x l -> incr (insert_nat x l).
  Proof.
    induction 1 as [|y l H IH F]; intros Hni; cbn.
    - repeat constructor.
    - destruct (Nat.leb_spec x y) as [Hle|Hgt].
      + assert (x < y) by (cbn in Hni; lia).
        constructor; [constructor; auto|]. constructor; auto.
        eapply Forall_impl; [|exact F]. cbn; lia.
      + constructor; [apply IH; cbn in Hni; tauto|].
        eapply Permutation_Forall; [apply insert_nat_perm|]. constructor; auto; lia.
  Qed.
  Lemma sort_nat_incr l : NoDup l -> incr (sort_nat l).
  Proof.
    induction 1 as [|x l Hni Hnd IH]; cbn; [constructor|].
    apply insert_nat_incr; auto. intros H. apply Hni. eapply Permutation_in; [symmetry; apply sort_nat_perm|auto].
  Qed.

  (** symmetric difference *)
  Notation nonneg := (fun e : A * Z => (0 <=? snd e)%Z).
  Notation isneg := (fun e : A * Z => negb (0 <=? snd e)%Z).
  Notation symd := (symdiff altb).

  Lemma symd_nil_l l : symd [] l = l.
  Proof. now destruct l. Qed.
  Lemma symd_nil_r l : symd l [] = l.
  Proof. now destruct l. Qed.
  Lemma symd_cons x r1 y r2 : symd (x :: r1) (y :: r2) =
    if altb (fst x) (fst y) then x :: symd r1 (y :: r2)
    else if altb (fst y) (fst x) then y :: symd (x :: r1) r2 else symd r1 r2.
  Proof. reflexivity. Qed.

  Lemma filter_all {B} (f : B -> bool) l : Forall (fun x => f x = true) l -> filter f l = l.
  Proof. induction 1 as [|x l H _ IH]; cbn; auto. now rewrite H, IH. Qed.
  Lemma filter_none {B} (f : B -> bool) l : Forall (fun x => f x = false) l -> filter f l = [].
  Proof. induction 1 as [|x l H _ IH]; cbn; auto. now rewrite H, IH. Qed.

  Lemma symd_split l1 : Forall (fun e => nonneg e = true) l1 -> forall l2, Forall (fun e => nonneg e = false) l2 ->
    exists m1 m2, Permutation l1 (filter nonneg (symd l1 l2) ++ m1) /\
                  Permutation l2 (filter isneg (symd l1 l2) ++ m2) /\ map fst m1 = map fst m2.
  Proof.
    induction 1 as [|x r1 Hx H1 IH1]; intros l2 H2.
    - exists [], []. rewrite symd_nil_l, !app_nil_r. repeat split.
      + rewrite filter_none; auto.
      + rewrite filter_all; auto. eapply Forall_impl; [|exact H2]. cbn; intros e ->; auto.
    - induction H2 as [|y r2 Hy H2 IH2].
      + exists [], []. rewrite symd_nil_r, !app_nil_r. repeat split.
        * rewrite filter_all; auto.
        * rewrite filter_none; auto. constructor; [now rewrite Hx|]. eapply Forall_impl; [|exact H1]. cbn; intros e ->; auto.
      + rewrite symd_cons. destruct (altb (fst x) (fst y)) eqn:E1.
        * destruct (IH1 (y :: r2)) as (m1 & m2 & P1 & P2 & E); [constructor; auto|].
          exists m1, m2. cbn [filter]. rewrite Hx. cbn. repeat split; auto.
        * destruct (altb (fst y) (fst x)) eqn:E2.
          -- destruct IH2 as (m1 & m2 & P1 & P2 & E).
             exists m1, m2. cbn [filter]. rewrite Hy. cbn. repeat split; auto.
          -- destruct (IH1 r2 H2) as (m1 & m2 & P1 & P2 & E).
             exists (x :: m1), (y :: m2). repeat split.
             ++ rewrite <- Permutation_middle. now constructor.
             ++ rewrite <- Permutation_middle. now constructor.
             ++ cbn. rewrite E. f_equal. apply (st_total altb Hlt); auto.
  Qed.

  (** sorted in the sense of sort_ok *)
  Definition srt (l : list (A * Z)) := StronglySorted (fun x y => altb (fst y) (fst x) = false) l.

  Lemma sort_ok_srt l r : sort_ok altb l r -> srt r.
  Proof.
    intros [_ H]. induction r as [|x r IH]; constructor.
    - apply IH. intros i j u v Hij Hi Hj. apply (H (S i) (S j)); auto; lia.
    - apply Forall_forall. intros y Hy. apply In_nth_error in Hy. destruct Hy as [n Hn].
      apply (H 0 (S n)); auto; lia.
  Qed.

  Lemma symd_incl l1 : forall l2 e, In e (symd l1 l2) -> In e l1 \/ In e l2.
  Proof.
    induction l1 as [|x r1 IH1]; intros l2; [rewrite symd_nil_l; auto|].
    induction l2 as [|y r2 IH2]; intros e; [rewrite symd_nil_r; auto|].
    rewrite symd_cons. destruct (altb (fst x) (fst y)); [|destruct (altb (fst y) (fst x))].
    - intros [<-|H]; [left; left; auto|]. apply IH1 in H. cbn in *; tauto.
    - intros [<-|H]; [right; left; auto|]. apply IH2 in H. cbn in *; tauto.
    - intros H. apply IH1 in H. cbn; tauto.
  Qed.

  Lemma symd_disjoint l1 : Forall (fun e => nonneg e = true) l1 -> srt l1 ->
    forall l2, Forall (fun e => nonneg e = false) l2 -> srt l2 ->
    forall u v, In u (symd l1 l2) -> In v (symd l1 l2) -> nonneg u = true -> nonneg v = false -> fst u <> fst v.
  Proof.
    induction 1 as [|x r1 Hx H1 IH1]; intros S1 l2 H2 S2 u v.
    - rewrite symd_nil_l. intros Hu _ Eu. rewrite Forall_forall in H2. apply H2 in Hu. cbn in *; congruence.
    - inversion S1 as [|? ? S1' F1]; subst.
      induction H2 as [|y r2 Hy H2 IH2].
      + rewrite symd_nil_r. intros _ Hv _ Ev.
        assert (nonneg v = true); [|cbn in *; congruence].
        destruct Hv as [<-|Hv]; auto. rewrite Forall_forall in H1. now apply H1.
      + inversion S2 as [|? ? S2' F2]; subst. specialize (IH2 S2').
        rewrite symd_cons. destruct (altb (fst x) (fst y)) eqn:E1.
        * intros Hu Hv Eu Ev. destruct Hv as [<-|Hv]; [cbn in *; congruence|].
          destruct Hu as [<-|Hu]; [|revert Hu Hv Eu Ev; apply IH1; auto; constructor; auto].
          (* x against remaining v, which comes from y :: r2 *)
          apply symd_incl in Hv. destruct Hv as [Hv|Hv].
          { rewrite Forall_forall in H1. apply H1 in Hv. cbn in *; congruence. }
          intros E. destruct Hv as [<-|Hv].
          { rewrite E, (st_irrefl altb Hlt) in E1. discriminate. }
          rewrite Forall_forall in F2. specialize (F2 _ Hv). cbn in F2.
          rewrite <- E in F2. congruence.
        * destruct (altb (fst y) (fst x)) eqn:E2.
          -- intros Hu Hv Eu Ev. destruct Hu as [<-|Hu]; [cbn in *; congruence|].
             destruct Hv as [<-|Hv]; [|revert Hu Hv Eu Ev; apply IH2].
             apply symd_incl in Hu. destruct Hu as [Hu|Hu].
             ++ intros E. destruct Hu as [<-|Hu].
                { rewrite E, (st_irrefl altb Hlt) in E2. discriminate. }
                rewrite Forall_forall in F1. specialize (F1 _ Hu). cbn in F1. rewrite E in F1. congruence.
             ++ rewrite Forall_forall in H2. apply H2 in Hu. cbn in *; congruence.
          -- intros Hu Hv. revert Hu Hv. apply IH1; auto.
  Qed.

  (** tagged atoms *)
  Definition tag (f : nat -> Z) (i : nat) (l : list A) : list (A * Z) := combine l (map f (seq i (length l))).

  Lemma tag_cons f i a l : tag f i (a :: l) = (a, f i) :: tag f (S i) l.
  Proof. reflexivity. Qed.

  Lemma tag_In f l : forall i e, In e (tag f i l) -> exists j, j < length l /\ snd e = f (i + j) /\ nth_error l j = Some (fst e).
  Proof.
    induction l as [|a l IH]; intros i e; [intros []|]. rewrite tag_cons. intros [<-|H].
    - exists 0. cbn. rewrite Nat.add_0_r. repeat split; lia.
    - apply IH in H. destruct H as (j & ? & E & ?). exists (S j). cbn. repeat split; auto; [lia|].
      rewrite E. f_equal; lia.
  Qed.

  Lemma map_snd_tag f i l : map snd (tag f i l) = map f (seq i (length l)).
  Proof. revert i; induction l as [|a l IH]; intros i; cbn; auto. f_equal. apply IH. Qed.

  (** survivors of a tag-recovering map *)
  Lemma survivors_tag (f : nat -> Z) (g : Z -> nat) pop l : forall i, (forall n, g (f n) = n) ->
    survivors_from i pop l =
    map fst (filter (fun e => if in_dec Nat.eq_dec (g (snd e)) pop then false else true) (tag f i l)).
  Proof.
    induction l as [|a l IH]; intros i Hg; cbn [survivors_from]; auto.
    rewrite tag_cons. cbn [filter snd]. rewrite Hg.
    destruct (in_dec Nat.eq_dec i pop); [|cbn; f_equal]; apply IH; auto.
  Qed.
  Lemma selected_tag (f : nat -> Z) (g : Z -> nat) pop l : forall i, (forall n, g (f n) = n) ->
    selected_from i pop l =
    map fst (filter (fun e => if in_dec Nat.eq_dec (g (snd e)) pop then true else false) (tag f i l)).
  Proof.
    induction l as [|a l IH]; intros i Hg; cbn [selected_from]; auto.
    rewrite tag_cons. cbn [filter snd]. rewrite Hg.
    destruct (in_dec Nat.eq_dec i pop); [cbn; f_equal|]; apply IH; auto.
  Qed.

  Lemma Permutation_filter {B} (f : B -> bool) l l' : Permutation l l' -> Permutation (filter f l) (filter f l').
  Proof.
    induction 1; cbn; auto.
    - destruct (f x); auto.
    - destruct (f x), (f y); auto. constructor.
    - etransitivity; eauto.
  Qed.

  (** filtering a partition out ++ kept by the indices of out *)
  Lemma part_survivors (g : Z -> nat) (out kept : list (A * Z)) pop :
    NoDup (map (fun e => g (snd e)) (out ++ kept)) ->
    (forall n, In n pop <-> In n (map (fun e => g (snd e)) out)) ->
    filter (fun e => if in_dec Nat.eq_dec (g (snd e)) pop then false else true) (out ++ kept) = kept /\
    filter (fun e => if in_dec Nat.eq_dec (g (snd e)) pop then true else false) (out ++ kept) = out.
  Proof.
    intros Hnd Hpop.
    assert (Ho : forall e, In e out -> In (g (snd e)) pop).
    { intros e He. apply Hpop. apply in_map_iff. eauto. }
    assert (Hk : forall e, In e kept -> ~ In (g (snd e)) pop).
    { intros e He Hp. apply Hpop in Hp. rewrite map_app in Hnd. clear Ho Hpop.
      induction out as [|o out IH]; [contradiction|]. cbn in *. inversion Hnd as [|? ? Hni Hnd']; subst.
      destruct Hp as [Ep|Hp]; [|now apply IH]. apply Hni. rewrite Ep. apply in_or_app. right.
      apply in_map_iff. eauto. }
    rewrite !filter_app. split.
    - rewrite (filter_none _ out), filter_all; auto; apply Forall_forall; intros e He;
        destruct (in_dec _ _ _); auto; exfalso; [now apply (Hk e)|auto].
    - rewrite (filter_all _ out), filter_none, app_nil_r; auto; apply Forall_forall; intros e He;
        destruct (in_dec _ _ _) as [I|I]; auto; exfalso; solve [apply I; auto | now apply (Hk e)].
  Qed.

  Definition f0 (n : nat) : Z := Z.of_nat n.
  Definition g0 (z : Z) : nat := Z.to_nat z.
  Definition f1 (n : nat) : Z := (- Z.of_nat n - 1)%Z.
  Definition g1 (z : Z) : nat := Z.to_nat (-1 * z - 1).
  Lemma gf0 n : g0 (f0 n) = n. Proof. unfold g0, f0; lia. Qed.
  Lemma gf1 n : g1 (f1 n) = n. Proof. unfold g1, f1; lia. Qed.

  Lemma NoDup_tag (f : nat -> Z) g i l : (forall n, g (f n) = n) ->
    map (fun e : A * Z => g (snd e)) (tag f i l) = seq i (length l).
  Proof.
    intros Hg. rewrite <- (map_map snd g), map_snd_tag, map_map.
    rewrite <- (map_id (seq i (length l))) at 2. apply map_ext. auto.
  Qed.

  Lemma NoDup_app_l {B} (l l' : list B) : NoDup (l ++ l') -> NoDup l.
  Proof.
    induction l as [|x l IH]; cbn; intros H; constructor; inversion H; subst; auto.
    intros Hx. apply H2. apply in_or_app; auto.
  Qed.

  (** one side *)
  Lemma side (f : nat -> Z) (g : Z -> nat) (l : list A) s out kept pop :
    (forall n, g (f n) = n) -> Permutation (tag f 0 l) s -> Permutation s (out ++ kept) ->
    pop = sort_nat (map (fun e : A * Z => g (snd e)) out) ->
    increasing_below (length l) pop /\ Permutation (survivors pop l) (map fst kept) /\
    Permutation (selected pop l) (map fst out).
  Proof.
    intros Hg P1 P2 ->. set (pop := sort_nat _).
    assert (P : Permutation (tag f 0 l) (out ++ kept)) by (etransitivity; eauto).
    assert (PS : Permutation (seq 0 (length l)) (map (fun e => g (snd e)) (out ++ kept))).
    { rewrite <- (NoDup_tag f g 0 l Hg). now apply Permutation_map. }
    assert (Hnd : NoDup (map (fun e => g (snd e)) (out ++ kept))).
    { eapply Permutation_NoDup; [exact PS|apply seq_NoDup]. }
    assert (Hp : forall n, In n pop <-> In n (map (fun e => g (snd e)) out)).
    { intros n. split; apply Permutation_in; [symmetry|]; apply sort_nat_perm. }
    destruct (part_survivors g out kept pop Hnd Hp) as [F1 F2].
    split; [|split].
    - apply incr_below.
      + apply sort_nat_incr. rewrite map_app in Hnd. now apply NoDup_app_l in Hnd.
      + intros x Hx. apply Hp in Hx.
        assert (In x (seq 0 (length l))); [|apply in_seq in H; lia].
        eapply Permutation_in; [symmetry; exact PS|]. rewrite map_app. apply in_or_app; auto.
    - unfold survivors. rewrite (survivors_tag f g) by auto. apply Permutation_map.
      rewrite <- F1. now apply Permutation_filter.
    - unfold selected. rewrite (selected_tag f g) by auto. apply Permutation_map.
      rewrite <- F2. now apply Permutation_filter.
  Qed.

  Lemma tag0_nonneg i l : Forall (fun e => nonneg e = true) (tag f0 i l).
  Proof. apply Forall_forall. intros e He. apply tag_In in He. destruct He as (j & _ & -> & _). unfold f0. apply Z.leb_le. lia. Qed.
  Lemma tag1_neg i l : Forall (fun e => nonneg e = false) (tag f1 i l).
  Proof. apply Forall_forall. intros e He. apply tag_In in He. destruct He as (j & _ & -> & _). unfold f1. apply Z.leb_gt. lia. Qed.

  Theorem diff_atomic_exact l0 l1 s0 s1 :
    sort_ok altb (satoms0 l0) s0 -> sort_ok altb (satoms1 l1) s1 ->
    let d := diff_atomic aeqb altb l0 l1 s0 s1 in
    increasing_below (length l0) (pop0 d) /\ increasing_below (length l1) (add1 d) /\
    ((diffmethod d = SIDEBYSIDE /\ exact_side_by_side l0 l1 (pop0 d) (add1 d)) \/
     (diffmethod d = SORTED /\ exact_sorted l0 l1 (pop0 d) (add1 d))).
  Proof.
    intros K0 K1. unfold diff_atomic.
    pose proof (sbs_spec l0 l1 0) as HS. pose proof (sbs_incr l0 l1 0) as HI.
    destruct (sidebyside aeqb 0 l0 l1) as [p q]. destruct HS as [S0 S1], HI as [I0 I1].
    assert (Q0 : forall k, In k p <-> k < length l0 /\ nth_error l0 k <> nth_error l1 k).
    { intros k. rewrite S0. split; [intros (j & -> & ? & ?); auto|]. intros [? ?]; exists k; auto. }
    assert (Q1 : forall k, In k q <-> k < length l1 /\ nth_error l0 k <> nth_error l1 k).
    { intros k. rewrite S1. split; [intros (j & -> & ? & ?); auto|]. intros [? ?]; exists k; auto. }
    destruct (allowsfast (length l0) (length p)); cbn [pop0 add1 diffmethod].
    - split; [apply incr_below; [auto|intros x Hx; apply Q0 in Hx; tauto]|].
      split; [apply incr_below; [auto|intros x Hx; apply Q1 in Hx; tauto]|].
      left. split; auto. intros i. rewrite Q0, Q1.
      assert (forall i, i < length l0 -> nth_error l0 i = nth_error l1 i -> i < length l1).
      { intros j Hj E. apply nth_error_Some. rewrite <- E. now apply nth_error_Some. }
      assert (forall i, i < length l1 -> nth_error l0 i = nth_error l1 i -> i < length l0).
      { intros j Hj E. apply nth_error_Some. rewrite E. now apply nth_error_Some. }
      assert (Dec : nth_error l0 i = nth_error l1 i \/ nth_error l0 i <> nth_error l1 i).
      { destruct (nth_error l0 i) as [a|], (nth_error l1 i) as [b|]; try (right; discriminate); auto.
        destruct (aeqb a b) eqn:E; [left; f_equal; now apply Heq|right; intros [= ->]].
        rewrite (proj2 (Heq b b) eq_refl) in E; discriminate. }
      destruct Dec as [E|E].
      + split; [|tauto]. split; intros [_ Hl]; (split; [tauto|eauto]).
      + tauto.
    - pose proof (sort_ok_srt _ _ K0) as R0. pose proof (sort_ok_srt _ _ K1) as R1.
      destruct K0 as [K0 _], K1 as [K1 _].
      change (satoms0 l0) with (tag f0 0 l0) in K0. change (satoms1 l1) with (tag f1 0 l1) in K1.
      assert (N0 : Forall (fun e => nonneg e = true) s0) by (eapply Permutation_Forall; [exact K0|apply tag0_nonneg]).
      assert (N1 : Forall (fun e => nonneg e = false) s1) by (eapply Permutation_Forall; [exact K1|apply tag1_neg]).
      destruct (symd_split s0 N0 s1 N1) as (m0 & m1 & P0 & P1 & Em).
      destruct (side f0 g0 l0 s0 _ m0 _ gf0 K0 P0 eq_refl) as (A0 & B0 & C0).
      destruct (side f1 g1 l1 s1 _ m1 _ gf1 K1 P1 eq_refl) as (A1 & B1 & C1).
      split; [exact A0|]. split; [exact A1|]. right. split; auto. split.
      + etransitivity; [exact B0|]. rewrite Em. symmetry. exact B1.
      + intros a Ha Hb.
        assert (Ha' := Permutation_in _ C0 Ha). assert (Hb' := Permutation_in _ C1 Hb).
        apply in_map_iff in Ha', Hb'. destruct Ha' as (u & <- & Hu), Hb' as (v & Ev & Hv).
        apply filter_In in Hu, Hv. destruct Hu as [Hu Nu], Hv as [Hv Nv].
        apply (symd_disjoint s0 N0 R0 s1 N1 R1 u v Hu Hv Nu); auto. now apply negb_true_iff in Nv.
  Qed.

  (** ** diff on adapters *)
  Context {L P Y : Type} (Leqb : L -> L -> bool) (Peqb : P -> P -> bool) (Yeqb : Y -> Y -> bool).
  Notation dif := (diff aeqb altb Leqb Peqb Yeqb).

  Lemma base_exact (l0 l1 : list A) : diff_exact l0 l1 (diff_base (length l0) (length l1)).
  Proof.
    unfold diff_exact, diff_base. cbn.
    split; [|split]; [apply incr_below; [apply incr_seq|intros x Hx; apply in_seq in Hx; lia]
                     |apply incr_below; [apply incr_seq|intros x Hx; apply in_seq in Hx; lia]|auto].
  Qed.

  Lemma same_exact (l : list A) : diff_exact l l diff_same.
  Proof.
    unfold diff_exact, diff_same, increasing_below. cbn. repeat split; try tauto.
    - intros i j x y _ H. destruct i; discriminate.
    - intros i j x y _ H. destruct i; discriminate.
    - left. split; auto. intros i. cbn. intuition congruence.
  Qed.

  Lemma atomic_exact l0 l1 s0 s1 :
    sort_ok altb (satoms0 l0) s0 -> sort_ok altb (satoms1 l1) s1 ->
    diff_exact l0 l1 (diff_atomic aeqb altb l0 l1 s0 s1).
  Proof.
    intros K0 K1. destruct (diff_atomic_exact l0 l1 s0 s1 K0 K1) as (H1 & H2 & H3).
    split; [exact H1|]. split; [exact H2|]. tauto.
  Qed.

  Lemma as_atomic_atoms a b l : as_atomic b = Some l -> atoms_of (Adp a b : adapter A L P Y) = l.
  Proof. destruct b; cbn; congruence. Qed.
  Lemma as_periodic_atoms a b q l : as_periodic b = Some (q, l) -> atoms_of (Adp a b : adapter A L P Y) = l.
  Proof. destruct b; cbn; congruence. Qed.
  Lemma as_crystal_atoms a b q r t l : as_crystal b = Some (q, r, t, l) -> atoms_of (Adp a b : adapter A L P Y) = l.
  Proof. destruct b; cbn; congruence. Qed.

  Fixpoint diff_is_exact (x : adapter A L P Y) {struct x} : forall y s0 s1, heap_ok x y ->
    sort_ok altb (satoms0 (atoms_of x)) s0 -> sort_ok altb (satoms1 (atoms_of y)) s1 ->
    diff_exact (atoms_of x) (atoms_of y) (dif x y s0 s1).
  Proof.
    destruct x as [a b]; intros y s0 s1 Hh K0 K1.
    destruct (Nat.eqb_spec a (addr_of y)) as [E|E].
    - assert (Adp a b = y) as <- by (destruct b; destruct Hh as [Hh _]; apply Hh; exact E).
      destruct b; cbn [diff addr_of]; rewrite Nat.eqb_refl; apply same_exact.
    - apply Nat.eqb_neq in E. destruct y as [c d]. cbn [addr_of] in E. unfold countSites.
      destruct b as [|l|q l|q pr ops l|src|src]; cbn [diff addr_of body_of]; rewrite E.
      + apply base_exact.
      + destruct (as_atomic d) as [l1|] eqn:EA; [|apply base_exact].
        rewrite (as_atomic_atoms c _ _ EA) in *. now apply atomic_exact.
      + destruct (as_periodic d) as [[q1 l1]|] eqn:EA; [|apply base_exact].
        destruct (negb _); [apply base_exact|].
        rewrite (as_periodic_atoms c _ _ _ EA) in *. now apply atomic_exact.
      + destruct (as_crystal d) as [[[[q1 r1] t1] l1]|] eqn:EA; [|apply base_exact].
        destruct (negb _); [apply base_exact|]. destruct (negb _); [apply base_exact|].
        destruct (negb _); [apply base_exact|].
        rewrite (as_crystal_atoms c _ _ _ _ _ EA) in *. now apply atomic_exact.
      + destruct d as [| | | |sy|sy]; try apply base_exact.
        exact (diff_is_exact src sy s0 s1 (proj2 Hh) K0 K1).
      + destruct d as [| | | |sy|sy]; try apply base_exact.
        exact (diff_is_exact src sy s0 s1 (proj2 Hh) K0 K1).
  Qed.

  Hypothesis HL : forall a b, Leqb a b = true <-> a = b.
  Hypothesis HP : forall a b, Peqb a b = true <-> a = b.
  Hypothesis HY : forall a b, Yeqb a b = true <-> a = b.

  Lemma none_method n0 n1 (Q : Prop) : diffmethod (diff_base n0 n1) <> NONE -> Q.
  Proof. cbn. congruence. Qed.

  Fixpoint diff_same_env (x : adapter A L P Y) {struct x} : forall y s0 s1, heap_ok x y ->
    same_kind x y -> diffmethod (dif x y s0 s1) <> NONE -> env_of x = env_of y.
  Proof.
    destruct x as [a b]; intros y s0 s1 Hh Hk.
    destruct (Nat.eqb_spec a (addr_of y)) as [E|E].
    - assert (Adp a b = y) as <- by (destruct b; destruct Hh as [Hh _]; apply Hh; exact E). auto.
    - apply Nat.eqb_neq in E. destruct y as [c d]. cbn [addr_of] in E.
      destruct b as [|l|q l|q pr ops l|src|src]; cbn [diff addr_of body_of]; rewrite E;
        destruct d as [|l'|q' l'|q' pr' ops' l'|src'|src'];
        try (intros HN; apply (none_method _ _ _ HN)); try (destruct Hk; fail); try reflexivity;
        cbn [as_atomic as_periodic as_crystal env_of].
      + destruct (Leqb q q') eqn:EL; cbn [negb]; [|intros HN; apply (none_method _ _ _ HN)].
        apply HL in EL. now subst.
      + destruct (Peqb pr pr') eqn:EP; cbn [negb]; [|intros HN; apply (none_method _ _ _ HN)].
        destruct (Yeqb ops ops') eqn:EY; cbn [negb]; [|intros HN; apply (none_method _ _ _ HN)].
        destruct (Leqb q q') eqn:EL; cbn [negb]; [|intros HN; apply (none_method _ _ _ HN)].
        apply HL in EL. apply HP in EP. apply HY in EY. now subst.
      + intros HN. apply (diff_same_env src src' s0 s1 (proj2 Hh) Hk HN).
  Qed.
End DiffProofs.
