(** Specification of what evaluators must compute (C09, C10, C12-C14, C48, C52, C53). *)
From Verif Require Import Base StructDiff StructDiffSpec Evaluator.
Open Scope nat_scope.

Section Spec.
  Context {stru cfg bond V : Type} (K : calc stru cfg bond V).
  Context (opp : V -> V).
  (** [pairs c s i j]: the bonds from site [i] to site [j], in any order. *)
  Context (pairs : cfg -> stru -> nat -> nat -> list bond).

  Definition sum (l : list V) : V := fold_right (add K) (zero K) l.

  (** Contribution of the ordered pair of sites (i, j) at scale [z]: all its bonds, or nothing when the pair
      is masked out. *)
  Definition pair_value (c : cfg) (s : stru) (z : Z) (i j : nat) : V :=
    if mask K c s i j then sum (map (fun b => contrib K c s b z) (pairs c s i j)) else zero K.

  (** The full sum over ordered pairs, and the sum over unordered pairs with double weight. *)
  Definition full_total (c : cfg) (s : stru) : V :=
    sum (map (fun i => sum (map (fun j => pair_value c s 1 i j) (seq 0 (nsites K s)))) (seq 0 (nsites K s))).
  Definition half_total (c : cfg) (s : stru) : V :=
    sum (map (fun i => add K (sum (map (fun j => pair_value c s 2 i j) (seq 0 i))) (pair_value c s 1 i i))
             (seq 0 (nsites K s))).
  Definition total (full : bool) (c : cfg) (s : stru) : V :=
    if full then full_total c s else half_total c s.

  (** What the evaluators assume of a calculator and of the structures: [atoms] and [env] (lattice, symmetry)
      determine a structure, and [w] is the pair contribution in terms of them. *)
  Record calc_ok {A E : Type} (atoms : stru -> list A) (env : stru -> E)
      (w : cfg -> E -> Z -> nat -> A -> nat -> A -> V) : Prop := {
    add_comm : forall a b, add K a b = add K b a;
    add_assoc : forall a b c, add K a (add K b c) = add K (add K a b) c;
    add_zero : forall a, add K (zero K) a = a;
    add_opp : forall a, add K a (opp a) = zero K;
    sites_ok : forall s, nsites K s = length (atoms s);
    gen_ok : forall c s i sel, i < nsites K s -> NoDup sel -> (forall j, In j sel -> j < nsites K s) ->
      Permutation (gen K c s i sel) (flat_map (pairs c s i) sel);
    site1_ok : forall c s i j b, In b (pairs c s i j) -> site1 K b = j;
    mask_ok : forall c s i j, hasmask K c = false -> mask K c s i j = true;
    odd_ok : forall c s b z, contrib K c s b (- z) = opp (contrib K c s b z);
    weight_ok : forall c s z i j a b, nth_error (atoms s) i = Some a -> nth_error (atoms s) j = Some b ->
      pair_value c s z i j = w c (env s) z i a j b;
    custom_ok : forall s c, snd (custom K s c) = false -> fst (custom K s c) = c;
    restash_ok : forall v, restash K v = v;
    finish_ok : forall p v, finish K p v = v;
    diff_ok : forall s0 s1, diff_exact (atoms s0) (atoms s1) (sdif K s0 s1);
    diff_env : forall s0 s1, diffmethod (sdif K s0 s1) <> NONE -> env s0 = env s1
  }.

  (** Pair contributions do not depend on where the atoms are stored, unless there is a pair mask. *)
  Definition index_free {A E} (w : cfg -> E -> Z -> nat -> A -> nat -> A -> V) : Prop :=
    forall c e z i a j b i' j', haspairmask K c = false -> w c e z i a j b = w c e z i' a j' b.

  (** Pair contributions are the same in both directions. *)
  Definition two_way {A E} (w : cfg -> E -> Z -> nat -> A -> nat -> A -> V) : Prop :=
    forall c e z i a j b, w c e z i a j b = w c e z j b i a.

  (** Contributions are linear in the scale. *)
  Definition doubling : Prop := forall c s b, contrib K c s b 2 = add K (contrib K c s b 1) (contrib K c s b 1).

  (** All the work of one evaluation: every bond of every anchor site whose pair is not masked, with weight 2
      when only one of the two directions is visited. *)
  Definition serial_work (c : cfg) (s : stru) (full : bool) : list (bond * Z) :=
    flat_map (fun i =>
      map (fun b => (b, if full then 1%Z else if i =? site1 K b then 1%Z else 2%Z))
          (filter (fun b => mask K c s i (site1 K b))
                  (gen K c s i (seq 0 (if full then nsites K s else S i)))))
      (seq 0 (nsites K s)).

  (** Operations that keep the promise of C13; see C14 and C53 for the others. *)
  Definition safe_op (o : op stru cfg) : Prop :=
    match o with OpSetStructure _ | OpParallel _ _ => False | _ => True end.
  Definition no_mode_change (o : op stru cfg) : Prop :=
    match o with OpFullSum _ => False | _ => True end.
  (** Half sums need contributions that are the same in both directions; switching between half and full sums
      needs also that they are linear in the scale. *)
  Definition mode_ok {A E} (w : cfg -> E -> Z -> nat -> A -> nat -> A -> V) (full : bool) (ops : list (op stru cfg)) : Prop :=
    (full = true \/ two_way w) /\ (Forall no_mode_change ops \/ (two_way w /\ doubling)).
  Definition is_eval (o : op stru cfg) : Prop :=
    match o with OpEval _ | OpEvalCurrent => True | _ => False end.
End Spec.
