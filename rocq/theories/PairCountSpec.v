(** Specification for C84: numbers of pairs. *)
From Coq Require Import String.
From Verif Require Import RBase R3 Trig Lattice Crystal StructDiff Evaluator AList Masks MasksSpec BondGen BondGenSpec World WorldSpec PairCount.
Import ListNotations.
Open Scope R_scope.
Notation length := List.length.

(** Number of (atom i, image of atom j) with an unmasked pair, for the neighbours [P]. *)
Definition ordered_pairs (c : kcfg) (x : adp) (P : nat -> nat -> list image) : nat :=
  let n := length (atoms_of x) in
  list_sum (map (fun i => list_sum (map (fun j =>
    if shown_mask (k_pq c) i (c_type (atom_at x i)) j (c_type (atom_at x j)) then length (P i j) else 0%nat) (seq 0 n))) (seq 0 n)).
(** Pairs of indices i < j < n. *)
Definition pairs_below (n : nat) : list (nat * nat) := flat_map (fun j => map (fun i => (i, j)) (seq 0 j)) (seq 0 n).
(** Atoms i and j of an isolated group count: unmasked, not at one position, and their distance is in the limits. *)
Definition counts (c : kcfg) (l : list catom) (p : nat * nat) : bool :=
  let a := nth (fst p) l catom0 in let b := nth (snd p) l catom0 in
  let d := vdist (c_xyz a) (c_xyz b) in
  shown_mask (k_pq c) (fst p) (c_type a) (snd p) (c_type b) && Rltb (/ 67108864) d && Rleb (k_rmin c) d && Rleb d (k_rmax c).
(** No contradicting masks with "all" *)
Definition no_conflict (s : pq) (l : list catom) : Prop :=
  (forall i j m m', In (i, m) (siteall s) -> In (j, m') (siteall s) -> m = m') /\
  (forall a b, In a l -> In b l -> ~ type_conflict s (c_type a) (c_type b)).
