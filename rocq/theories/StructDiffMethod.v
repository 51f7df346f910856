(** Which method a structure difference uses (C15): specification and proofs. *)
From Coq Require Import Sorting.Sorted.
From Verif Require Import Base StructDiff StructDiffSpec StructDiffProofs.
Open Scope nat_scope.

(** ** Specification *)
(** the same object, also seen through two wrappers of one class *)
Fixpoint same_object {A L P Y} (x y : adapter A L P Y) : Prop :=
  addr_of x = addr_of y \/
  match x with
  | Adp _ (NoMeta s) => match body_of y with NoMeta s' => same_object s s' | _ => False end
  | Adp _ (NoSym s) => match body_of y with NoSym s' => same_object s s' | _ => False end
  | _ => False
  end.
(** the second structure is of the class of the first or of one derived from it, and agrees with the first in all
    that the class of the first knows besides of the atoms *)
Fixpoint comparable {A L P Y} (x y : adapter A L P Y) : Prop :=
  match x with
  | Adp _ (Atomic _) => match body_of y with Atomic _ | Periodic _ _ | Crystal _ _ _ _ => True | _ => False end
  | Adp _ (Periodic lat _) => match body_of y with Periodic lat' _ | Crystal lat' _ _ _ => lat = lat' | _ => False end
  | Adp _ (Crystal lat p o _) => match body_of y with Crystal lat' p' o' _ => lat = lat' /\ p = p' /\ o = o' | _ => False end
  | Adp _ (NoMeta s) => match body_of y with NoMeta s' => same_object s s' \/ comparable s s' | _ => False end
  | Adp _ (NoSym s) => match body_of y with NoSym s' => same_object s s' \/ comparable s s' | _ => False end
  | Adp _ Empty => False
  end.
(** [idx]: the positions of the first list where the second has something else *)
Definition changed_at {A} (l0 l1 : list A) (idx : list nat) : Prop :=
  NoDup idx /\ forall i, In i idx <-> i < length l0 /\ nth_error l0 i <> nth_error l1 i.
(** [n] sites of which [p] go: p < (1 - sqrt (1/2)) n *)
Definition few (n p : nat) : Prop := p <= n /\ n * n < 2 * ((n - p) * (n - p)).

(** ** Proofs *)
Section Method.
  Context {A : Type} (aeqb altb : A -> A -> bool).
  Hypothesis Heq : forall a b, aeqb a b = true <-> a = b.
  Context {L P Y : Type} (Leqb : L -> L -> bool) (Peqb : P -> P -> bool) (Yeqb : Y -> Y -> bool).
  Hypothesis HL : forall a b, Leqb a b = true <-> a = b.
  Hypothesis HP : forall a b, Peqb a b = true <-> a = b.
  Hypothesis HY : forall a b, Yeqb a b = true <-> a = b.
  Notation dif := (diff aeqb altb Leqb Peqb Yeqb).

  Lemma few_ok n p : allowsfast n p = true <-> few n p.
  Proof. unfold allowsfast, few. rewrite andb_true_iff, Nat.leb_le, Nat.ltb_lt. reflexivity. Qed.

  Lemma atomic_method l0 l1 s0 s1 idx : changed_at l0 l1 idx ->
    diffmethod (diff_atomic aeqb altb l0 l1 s0 s1) <> NONE /\
    (diffmethod (diff_atomic aeqb altb l0 l1 s0 s1) = SIDEBYSIDE <-> few (length l0) (length idx)).
  Proof.
    intros [ND HI]. unfold diff_atomic.
    pose proof (sbs_spec aeqb Heq l0 l1 0) as HS. pose proof (sbs_incr aeqb Heq l0 l1 0) as HN.
    destruct (sidebyside aeqb 0 l0 l1) as [p q]. destruct HS as [S0 _], HN as [I0 _].
    assert (E : length p = length idx).
    { apply Permutation_length. apply NoDup_Permutation; auto.
      - clear - I0. induction I0 as [|x l H IH F]; constructor; auto. intros Hx. rewrite Forall_forall in F. apply F in Hx. lia.
      - intros k. rewrite S0, HI. split; [intros (j & -> & ? & ?); auto|intros [? ?]; exists k; auto]. }
    rewrite E. rewrite <- few_ok. destruct (allowsfast _ _); cbn [diffmethod]; split; try discriminate; split; auto; discriminate.
  Qed.

  Lemma adapter_method (x y : adapter A L P Y) s0 s1 idx : changed_at (atoms_of x) (atoms_of y) idx ->
    (same_object x y -> diffmethod (dif x y s0 s1) = SIDEBYSIDE) /\
    (~ same_object x y ->
      (diffmethod (dif x y s0 s1) <> NONE <-> comparable x y) /\
      (comparable x y -> (diffmethod (dif x y s0 s1) = SIDEBYSIDE <-> few (length (atoms_of x)) (length idx)))).
  Proof.
    revert x y. fix IH 1. intros [a bx] [b' by_] HC.
    assert (AT : forall l0 l1, changed_at l0 l1 idx -> let d := diff_atomic aeqb altb l0 l1 s0 s1 in
       (diffmethod d <> NONE <-> True) /\ (True -> (diffmethod d = SIDEBYSIDE <-> few (length l0) (length idx)))).
    { intros l0 l1 H. destruct (atomic_method l0 l1 s0 s1 idx H). cbv zeta. tauto. }
    assert (NO : forall n m k (C : Prop), ~ C -> (diffmethod (diff_base n m) <> NONE <-> C) /\ (C -> (diffmethod (diff_base n m) = SIDEBYSIDE <-> few k (length idx)))).
    { intros n m k C HN. cbn. tauto. }
    destruct bx as [|l|lat l|lat p o l|s|s]; cbn [diff same_object comparable addr_of body_of].
    - destruct (Nat.eqb_spec a b') as [E|E]; [split; [auto|intros H; destruct H; auto]|]. split; [intros [?|[]]; contradiction|]. intros _. apply NO. auto.
    - destruct (Nat.eqb_spec a b') as [E|E]; [split; [auto|intros H; destruct H; auto]|]. split; [intros [?|[]]; contradiction|]. intros _.
      destruct by_; cbn [as_atomic]; try (apply NO; auto; fail); apply AT; exact HC.
    - destruct (Nat.eqb_spec a b') as [E|E]; [split; [auto|intros H; destruct H; auto]|]. split; [intros [?|[]]; contradiction|]. intros _.
      destruct by_ as [|?|lat' ?|lat' ? ? ?|?|?]; cbn [as_periodic]; try (apply NO; auto; fail).
      + destruct (Leqb lat lat') eqn:EL; cbn [negb].
        * apply HL in EL. destruct (AT _ _ HC). tauto.
        * apply NO. intros ->. rewrite (proj2 (HL lat' lat') eq_refl) in EL. discriminate.
      + destruct (Leqb lat lat') eqn:EL; cbn [negb].
        * apply HL in EL. destruct (AT _ _ HC). tauto.
        * apply NO. intros ->. rewrite (proj2 (HL lat' lat') eq_refl) in EL. discriminate.
    - destruct (Nat.eqb_spec a b') as [E|E]; [split; [auto|intros H; destruct H; auto]|]. split; [intros [?|[]]; contradiction|]. intros _.
      destruct by_ as [|?|lat' ?|lat' p' o' ?|?|?]; cbn [as_crystal]; try (apply NO; auto; fail).
      destruct (Peqb p p') eqn:EP; cbn [negb]; [|apply NO; intros (_ & -> & _); rewrite (proj2 (HP p' p') eq_refl) in EP; discriminate].
      destruct (Yeqb o o') eqn:EY; cbn [negb]; [|apply NO; intros (_ & _ & ->); rewrite (proj2 (HY o' o') eq_refl) in EY; discriminate].
      destruct (Leqb lat lat') eqn:EL; cbn [negb]; [|apply NO; intros (-> & _); rewrite (proj2 (HL lat' lat') eq_refl) in EL; discriminate].
      apply HL in EL. apply HP in EP. apply HY in EY. destruct (AT _ _ HC). tauto.
    - destruct (Nat.eqb_spec a b') as [E|E]; [split; [auto|intros H; destruct H; auto]|].
      destruct by_ as [|?|?|?|s'|?]; try (split; [intros [?|[]]; contradiction|]; intros _; apply NO; auto; fail).
      destruct (IH s s' HC) as [I1 I2]. split; [intros [?|H]; [contradiction|auto]|]. intros H.
      assert (~ same_object s s') by tauto. destruct I2 as [I2 I3]; auto. split; [tauto|]. intros [?|?]; [tauto|]. auto.
    - destruct (Nat.eqb_spec a b') as [E|E]; [split; [auto|intros H; destruct H; auto]|].
      destruct by_ as [|?|?|?|?|s']; try (split; [intros [?|[]]; contradiction|]; intros _; apply NO; auto; fail).
      destruct (IH s s' HC) as [I1 I2]. split; [intros [?|H]; [contradiction|auto]|]. intros H.
      assert (~ same_object s s') by tauto. destruct I2 as [I2 I3]; auto. split; [tauto|]. intros [?|?]; [tauto|]. auto.
  Qed.
End Method.
