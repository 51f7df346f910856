(** Properties C15 and C16: structure differences and the order of atoms. *)
From Verif Require Import Base StructDiff StructDiffSpec StructDiffProofs StructDiffMethod.
Open Scope nat_scope.

(** C16: operator< of Atom is a strict total order whose incomparability is equality, for any strict
    total orders of the strings and of the numbers. *)
Theorem C16_atom_order_total : forall (str D : Type) (slt : str -> str -> bool) (dlt : D -> D -> bool),
  strict_total slt -> strict_total dlt ->
  strict_total (fun a b : Atom str D => atom_lt slt dlt (proj1_sig a) (proj1_sig b)).
Proof. exact @Atom_strict_total. Qed.
Print Assumptions C16_atom_order_total.

(** C15: diff() of two adapters of any classes. *)
Theorem C15_diff_exact : forall (A L P Y : Type) (aeqb altb : A -> A -> bool)
    (Leqb : L -> L -> bool) (Peqb : P -> P -> bool) (Yeqb : Y -> Y -> bool),
  (forall a b, aeqb a b = true <-> a = b) -> strict_total altb ->
  forall (x y : adapter A L P Y) s0 s1,
  heap_ok x y ->
  sort_ok altb (satoms0 (atoms_of x)) s0 -> sort_ok altb (satoms1 (atoms_of y)) s1 ->
  diff_exact (atoms_of x) (atoms_of y) (diff aeqb altb Leqb Peqb Yeqb x y s0 s1).
Proof. intros A L P Y aeqb altb Leqb Peqb Yeqb H1 H2. exact (diff_is_exact aeqb altb H1 H2 Leqb Peqb Yeqb). Qed.
Print Assumptions C15_diff_exact.

(** C15: which of the three kinds of difference is reported. Nothing is compared exactly when the classes or what
    surrounds the atoms do not fit; otherwise it is position by position exactly when fewer than a share of
    1 - sqrt (1/2) of the old sites changes. *)
Theorem C15_diff_method : forall (A L P Y : Type) (aeqb altb : A -> A -> bool)
    (Leqb : L -> L -> bool) (Peqb : P -> P -> bool) (Yeqb : Y -> Y -> bool),
  (forall a b, aeqb a b = true <-> a = b) ->
  (forall a b, Leqb a b = true <-> a = b) -> (forall a b, Peqb a b = true <-> a = b) ->
  (forall a b, Yeqb a b = true <-> a = b) ->
  forall (x y : adapter A L P Y) s0 s1 idx,
  changed_at (atoms_of x) (atoms_of y) idx ->
  let d := diff aeqb altb Leqb Peqb Yeqb x y s0 s1 in
  (same_object x y -> diffmethod d = SIDEBYSIDE) /\
  (~ same_object x y ->
    (diffmethod d <> NONE <-> comparable x y) /\
    (comparable x y -> (diffmethod d = SIDEBYSIDE <-> few (length (atoms_of x)) (length idx)))).
Proof.
  intros A L P Y aeqb altb Leqb Peqb Yeqb HA HL HP HY x y s0 s1 idx HC.
  exact (adapter_method aeqb altb HA Leqb Peqb Yeqb HL HP HY x y s0 s1 idx HC).
Qed.
Print Assumptions C15_diff_method.
Example C15_diff_method_nonvacuous :
  changed_at [1; 2; 3; 4; 5] [1; 2; 9; 4; 5; 5] [2] /\ few 5 1 /\ ~ few 5 2 /\
  comparable (Adp 1 (Periodic 3 [1; 2; 3; 4; 5]) : adapter nat nat nat nat) (Adp 2 (Crystal 3 8 9 [1; 2; 9; 4; 5; 5])).
Proof.
  split; [|split; [split; cbn; lia|split; [intros [_ H]; cbn in H; lia|reflexivity]]].
  split; [repeat constructor; auto|]. intros i. cbn [In].
  destruct i as [|[|[|[|[|i]]]]]; cbn; split; intros H; try (destruct H as [H|[]]; lia); try (destruct H as [_ H]; congruence); try (destruct H; lia).
  split; [lia|discriminate].
Qed.

(** C54: when diff() claims any correspondence between adapters of the same class, everything but the
    atoms (lattice, symmetry operations and their precision) is the same in both. *)
Theorem C54_diff_same_environment : forall (A L P Y : Type) (aeqb altb : A -> A -> bool)
    (Leqb : L -> L -> bool) (Peqb : P -> P -> bool) (Yeqb : Y -> Y -> bool),
  (forall a b, Leqb a b = true <-> a = b) -> (forall a b, Peqb a b = true <-> a = b) ->
  (forall a b, Yeqb a b = true <-> a = b) ->
  forall (x y : adapter A L P Y) s0 s1,
  heap_ok x y -> same_kind x y ->
  diffmethod (diff aeqb altb Leqb Peqb Yeqb x y s0 s1) <> NONE -> env_of x = env_of y.
Proof.
  intros A L P Y aeqb altb Leqb Peqb Yeqb HL HP HY.
  exact (diff_same_env aeqb altb Leqb Peqb Yeqb HL HP HY).
Qed.
Print Assumptions C54_diff_same_environment.

(** C54, defect: a molecule and a crystal with the same atoms (two C++ classes, the second derived from the
    first) have an empty SIDEBYSIDE difference although their surroundings differ. *)
Theorem C54_diff_same_environment_any_class_refuted :
  exists (x y : adapter nat nat nat nat),
    heap_ok x y /\ env_of x <> env_of y /\
    forall s0 s1, diff Nat.eqb Nat.ltb Nat.eqb Nat.eqb Nat.eqb x y s0 s1 =
                  {| pop0 := []; add1 := []; diffmethod := SIDEBYSIDE |}.
Proof.
  exists (Adp 1 (Atomic [5; 6])), (Adp 2 (Crystal 7 8 9 [5; 6])). repeat split; cbn; try discriminate.
Qed.
Print Assumptions C54_diff_same_environment_any_class_refuted.

(** Hypotheses of C16 and C15 are met: natural numbers as atoms, duplicated atoms, both methods occur. *)
Lemma nat_strict_total : strict_total Nat.ltb.
Proof.
  split; intros *; [apply Nat.ltb_irrefl| |]; rewrite ?Nat.ltb_lt, ?Nat.ltb_ge; lia.
Qed.
Example C16_nonvacuous : strict_total (fun a b : Atom nat nat => atom_lt Nat.ltb Nat.ltb (proj1_sig a) (proj1_sig b)).
Proof. apply C16_atom_order_total; exact nat_strict_total. Qed.

Definition x15 : adapter nat nat nat nat := Adp 1 (Periodic 3 [7; 5; 7; 6]).
Definition y15 : adapter nat nat nat nat := Adp 2 (Periodic 3 [6; 7; 7; 7; 5]).
Definition s15 : list (nat * Z) := [(5, (1)%Z); (6, (3)%Z); (7, (2)%Z); (7, (0)%Z)].
Definition t15 : list (nat * Z) := [(5, (-5)%Z); (6, (-1)%Z); (7, (-3)%Z); (7, (-2)%Z); (7, (-4)%Z)].
Lemma sort_ok_dec_sound (l r : list (nat * Z)) : Permutation l r ->
  Sorted.StronglySorted (fun x y => Nat.ltb (fst y) (fst x) = false) r -> sort_ok Nat.ltb l r.
Proof.
  intros HP HS. split; auto. clear HP l. induction HS as [|x r H IH F]; intros i j u v Hij Hi Hj.
  - destruct i; discriminate.
  - destruct j as [|j]; [lia|]. destruct i as [|i]; cbn in *.
    + injection Hi as <-. rewrite Forall_forall in F. apply F. eapply nth_error_In; eauto.
    + apply (IH i j); auto; lia.
Qed.
Example C15_nonvacuous :
  heap_ok x15 y15 /\ same_kind x15 y15 /\
  sort_ok Nat.ltb (satoms0 (atoms_of x15)) s15 /\ sort_ok Nat.ltb (satoms1 (atoms_of y15)) t15 /\
  diff Nat.eqb Nat.ltb Nat.eqb Nat.eqb Nat.eqb x15 y15 s15 t15 =
    {| pop0 := []; add1 := [3]; diffmethod := SORTED |}.
Proof.
  split; [|split; [exact I|split; [|split; [|reflexivity]]]]; [split; [discriminate|exact I]| |].
  - apply sort_ok_dec_sound; [|repeat constructor]. unfold s15; cbn.
    apply (Permutation_cons_app [(5, 1%Z); (6, 3%Z); (7, 2%Z)] nil). cbn. constructor. apply perm_swap.
  - apply sort_ok_dec_sound; [|repeat constructor]. unfold t15; cbn.
    symmetry. apply (Permutation_cons_app [(6, (-1)%Z); (7, (-2)%Z); (7, (-3)%Z); (7, (-4)%Z)] nil). cbn.
    constructor. apply perm_swap.
Qed.
Example C15_nonvacuous_side_by_side : forall s0 s1,
  diff Nat.eqb Nat.ltb Nat.eqb Nat.eqb Nat.eqb (Adp 1 (Atomic [1; 2; 3; 4; 5]) : adapter nat nat nat nat)
    (Adp 2 (Atomic [1; 2; 9; 4; 5; 5])) s0 s1 = {| pop0 := [2]; add1 := [2; 5]; diffmethod := SIDEBYSIDE |}.
Proof. reflexivity. Qed.
