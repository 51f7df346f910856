(** Specification for C90: bond valence sums of the atoms of a structure. *)
From Coq Require Import String.
From Verif Require Import RBase R3 Sums Lattice Crystal StructDiff StructDiffSpec Evaluator BondGen BondGenSpec World WorldSpec OrbitSpec Visited VisitedSpec Bvs BvsSpec BvsWorld.
Import ListNotations.
Open Scope R_scope.
Notation length := List.length.

(** valence of the bonds from atom i to all images of atom j in the limits of [P]; the parameters are those of the table *)
Definition valence_to (c : bvs) (x : adp) (P : nat -> nat -> list image) (i j : nat) : R :=
  let (cls, M) := createBondGenerator x in
  sumf (fun y => BvsSpec.bond c (bvs_view x) i j (image_distance cls M i [j] y)) (P i j).
(** the bond valence sum of atom k: all its neighbours that are not masked out, with their occupancies *)
Definition valence_sum (c : bvs) (x : adp) (mask : nat -> nat -> bool) (P : nat -> nat -> list image) (k : nat) : R :=
  sgn (valence c (bvs_view x) k) * sumf (fun j => if mask k j then c_occ (atom_at x j) * valence_to c x P k j else 0) (seq 0 (length (atoms_of x))).
(** the same with a factor for each neighbour *)
Definition weighted_sum (c : bvs) (x : adp) (mask : nat -> nat -> bool) (P : nat -> nat -> list image) (f : nat -> R) (k : nat) : R :=
  sgn (valence c (bvs_view x) k) * sumf (fun j => if mask k j then f j * (c_occ (atom_at x j) * valence_to c x P k j) else 0) (seq 0 (length (atoms_of x))).
(** all pairs of atoms can be looked up in either order *)
Definition ordered_pairs (c : bvs) (x : adp) : Prop :=
  forall i j, (i < length (atoms_of x))%nat -> (j < length (atoms_of x))%nat -> ordered_pair c (bvs_view x) i j.
Definition site_mult (x : adp) (i : nat) : nat := multiplicity (env_of x) (atom_at x i).
