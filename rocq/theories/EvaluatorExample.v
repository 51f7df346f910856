(** A concrete calculator on a line that meets the assumptions of EvaluatorSpec.v: the hypotheses of C09-C14,
    C48, C52 and C53 can be satisfied, with the modelled diff() of StructDiff.v. *)
From Verif Require Import Base StructDiff StructDiffSpec StructDiffProofs Evaluator EvaluatorSpec.
From Coq Require Import Sorting.Sorted.
Open Scope nat_scope.

(** Configuration: the bond range and the excluded pairs of sites.  Structures are lists of positions. *)
Record ecfg := { reach : Z; nopairs : list (nat * nat) }.

(** a stand-in for std::sort with cmpatomindex (AtomicStructureAdapter.cpp:223-224) *)
Fixpoint ins (x : Z * Z) (l : list (Z * Z)) : list (Z * Z) :=
  match l with
  | [] => [x]
  | y :: r => if Z.ltb (fst y) (fst x) then y :: ins x r else x :: l
  end.
Definition isort (l : list (Z * Z)) : list (Z * Z) := fold_right ins [] l.

Lemma ins_perm x l : Permutation (x :: l) (ins x l).
Proof.
  induction l as [|y l IH]; cbn; auto. destruct (fst y <? fst x)%Z; auto.
  rewrite perm_swap. now constructor.
Qed.
Lemma isort_perm l : Permutation l (isort l).
Proof. induction l as [|x l IH]; cbn; auto. rewrite <- ins_perm. now constructor. Qed.
Lemma ins_sorted x l : StronglySorted (fun a b => (fst a <= fst b)%Z) l -> StronglySorted (fun a b => (fst a <= fst b)%Z) (ins x l).
Proof.
  induction 1 as [|y l H IH F]; cbn.
  - repeat constructor.
  - destruct (Z.ltb_spec (fst y) (fst x)).
    + constructor; auto. rewrite Forall_forall in *. intros z Hz.
      apply (Permutation_in _ (Permutation_sym (ins_perm x l))) in Hz. destruct Hz as [<-|Hz]; [lia|auto].
    + constructor; [constructor; auto|]. constructor; [lia|]. rewrite Forall_forall in *. intros z Hz.
      specialize (F z Hz). lia.
Qed.
Lemma isort_sorted l : StronglySorted (fun a b => (fst a <= fst b)%Z) (isort l).
Proof. induction l; cbn; [constructor|]. now apply ins_sorted. Qed.
Lemma isort_ok l : sort_ok Z.ltb l (isort l).
Proof.
  split; [apply isort_perm|]. pose proof (isort_sorted l) as H. revert H. generalize (isort l) as r. clear l.
  induction 1 as [|x r H IH F]; intros i j u v Hij Hi Hj.
  - destruct i; discriminate.
  - destruct j as [|j]; [lia|]. destruct i as [|i]; cbn in *.
    + injection Hi as <-. rewrite Forall_forall in F. unfold cmpatomindex. apply Z.ltb_ge. apply F. eapply nth_error_In; eauto.
    + apply (IH i j); auto; lia.
Qed.

Definition edist (s : list Z) (i j : nat) : Z := Z.abs (nth i s 0%Z - nth j s 0%Z).
Definition near (c : ecfg) (d : Z) : bool := ((0 <? d) && (d <=? reach c))%Z.
Definition epairs (c : ecfg) (s : list Z) (i j : nat) : list (nat * nat) :=
  if near c (edist s i j) then [(i, j)] else [].
Definition excluded (c : ecfg) (i j : nat) : bool :=
  existsb (fun p => ((fst p =? i) && (snd p =? j)) || ((fst p =? j) && (snd p =? i))) (nopairs c).

Definition ediff (s0 s1 : list Z) : sdiff :=
  diff Z.eqb Z.ltb Nat.eqb Nat.eqb Nat.eqb
    (Adp 1 (Atomic s0) : adapter Z nat nat nat) (Adp 2 (Atomic s1)) (isort (satoms0 s0)) (isort (satoms1 s1)).

Definition EK : calc (list Z) ecfg (nat * nat) Z := {|
  zero := 0%Z; add := Z.add; nsites := @length Z;
  gen := fun c s i sel => flat_map (epairs c s i) sel;
  site1 := snd;
  hasmask := fun c => match nopairs c with [] => false | _ => true end;
  haspairmask := fun c => match nopairs c with [] => false | _ => true end;
  mask := fun c s i j => negb (excluded c i j);
  contrib := fun c s b z => (z * (edist s (fst b) (snd b)) ^ 2)%Z;
  custom := fun s c => (c, false);
  sdif := ediff;
  outer_ok := fun ncpu cnt => 10 * ncpu <=? cnt + 9;
  has_stash := true; restash := fun v => v; finish := fun _ v => v
|}.

Definition ew (c : ecfg) (_ : unit) (z : Z) (i : nat) (a : Z) (j : nat) (b : Z) : Z :=
  if excluded c i j then 0%Z else if near c (Z.abs (a - b)) then (z * (Z.abs (a - b)) ^ 2)%Z else 0%Z.

Lemma excluded_sym c i j : excluded c i j = excluded c j i.
Proof. unfold excluded. induction (nopairs c) as [|p l IH]; cbn; auto. rewrite IH. f_equal. apply orb_comm. Qed.

Lemma Z_strict_total : strict_total Z.ltb.
Proof. split; intros *; [apply Z.ltb_irrefl| |]; rewrite ?Z.ltb_lt, ?Z.ltb_ge; lia. Qed.

Theorem EK_ok : calc_ok EK Z.opp epairs (fun s => s) (fun _ => tt) ew.
Proof.
  split; cbn -[Z.mul Z.add Z.pow ediff]; auto; try (intros; lia).
  - intros c s i j b. unfold epairs. destruct (near _ _); cbn; [intros [<-|[]]; auto|intros []].
  - intros c s i j. unfold excluded. destruct (nopairs c); [reflexivity|discriminate].
  - intros c s z i j a b Ha Hb. unfold pair_value, ew. cbn [mask EK negb]. destruct (excluded c i j); [reflexivity|]. cbn [negb].
    unfold epairs, edist. rewrite (nth_error_nth _ _ 0%Z Ha), (nth_error_nth _ _ 0%Z Hb).
    destruct (near c (Z.abs (a - b))); [|reflexivity]. unfold sum. cbn [map fold_right contrib EK fst snd add zero].
    unfold edist. rewrite (nth_error_nth _ _ 0%Z Ha), (nth_error_nth _ _ 0%Z Hb). lia.
  - intros s0 s1. apply (diff_is_exact Z.eqb Z.ltb Z.eqb_eq Z_strict_total Nat.eqb Nat.eqb Nat.eqb
      (Adp 1 (Atomic s0)) (Adp 2 (Atomic s1))); [split; [discriminate|exact I]| |]; apply isort_ok.
Qed.
Theorem EK_two_way : two_way ew.
Proof. intros c e z i a j b. unfold ew. rewrite excluded_sym. replace (Z.abs (b - a)) with (Z.abs (a - b)) by lia. reflexivity. Qed.
Theorem EK_index_free : index_free EK ew.
Proof.
  intros c e z i a j b i' j'. cbn. unfold ew, excluded. destruct (nopairs c); [reflexivity|discriminate].
Qed.
Theorem EK_doubling : doubling EK.
Proof. intros c s b. cbn -[Z.mul Z.add Z.pow]. lia. Qed.
