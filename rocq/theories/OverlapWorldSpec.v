(** Specification for C91: overlaps of atoms in a structure. *)
From Coq Require Import String Relations.
From Verif Require Import RBase R3 Sums Lattice Crystal StructDiff StructDiffSpec Evaluator BondGen BondGenSpec World WorldSpec OrbitSpec Visited VisitedSpec.
Import ListNotations.
Open Scope R_scope.
Notation length := List.length.

Section Spec.
  (** the structure, the radii of its atoms, the pairs that take part, and the neighbours [P i j] of atom i that are images of atom j *)
  Context (x : adp) (r : nat -> R) (mask : nat -> nat -> bool) (P : nat -> nat -> list image).
  Notation n := (length (atoms_of x)).
  Notation occ j := (c_occ (atom_at x j)).
  (** sum over the neighbours of atom i that are images of j, with f(distance) *)
  Definition over_images (f : R -> R) (i j : nat) : R :=
    let (cls, M) := createBondGenerator x in sumf (fun y => f (image_distance cls M i [j] y)) (P i j).
  (** the spheres of two atoms at distance d touch; squared depth of their overlap *)
  Definition touch (i j : nat) (d : R) : R := if Rltb d (r i + r j) then 1 else 0.
  Definition depth2 (i j : nat) (d : R) : R := (Rmax 0 (r i + r j - d))².
  (** number of overlapping neighbours of atom i, with their occupancies *)
  Definition coordination_number (i : nat) : R := sumf (fun j => if mask i j then occ j * over_images (touch i j) i j else 0) (seq 0 n).
  (** those of one type *)
  Definition coordination_type (tp : string) (i : nat) : R :=
    sumf (fun j => if mask i j && (if string_dec (c_type (atom_at x j)) tp then true else false) then occ j * over_images (touch i j) i j else 0) (seq 0 n).
  (** squared overlaps of atom i, each shared by two atoms *)
  Definition square_at (i : nat) : R := sumf (fun j => if mask i j then occ j * over_images (depth2 i j) i j else 0) (seq 0 n) / 2.
  (** all atoms of the unit cell: an atom of multiplicity m stands for m of them *)
  Definition square_cell : R := sumf (fun i => INR (multiplicity (env_of x) (atom_at x i)) * occ i * square_at i) (seq 0 n).
  Definition square_mean : R := if Rltb 0 (cell_occ x) then square_cell / cell_occ x else 0.
  (** atom i overlaps with some image of atom j *)
  Definition overlaps_with (i j : nat) : Prop :=
    mask i j = true /\ exists y, In y (P i j) /\ let (cls, M) := createBondGenerator x in image_distance cls M i [j] y < r i + r j.
  (** a chain of overlaps connects two atoms *)
  Definition chained : nat -> nat -> Prop := clos_refl_sym_trans nat (fun i j => (i < n)%nat /\ (j < n)%nat /\ overlaps_with i j).
End Spec.
(** the radius in the table for the type of an atom *)
Definition table_radius (lk : string -> R) (x : adp) (i : nat) : R := lk (c_type (atom_at x i)).
(** the radii of two atoms exchanged *)
Definition exchanged (r : nat -> R) (i j k : nat) : R := if (k =? i)%nat then r j else if (k =? j)%nat then r i else r k.
(** the cell total when atom [k] and its images are moved by [v]; both ends of a bond may move *)
Definition moved_cell (x : adp) (r : nat -> R) (mask : nat -> nat -> bool) (P : nat -> nat -> list image) (k : nat) (v : vec) : R :=
  let (cls, M) := createBondGenerator x in
  let n := length (atoms_of x) in
  let step i := if (i =? k)%nat then v else vzero in
  sumf (fun i => sumf (fun j => if mask i j then
    sumf (fun y => c_occ (atom_at x i) * c_occ (atom_at x j) * (Rmax 0 (r i + r j - vnorm (vadd (b_r01 (bond_at cls M i [j] y)) (vsub (step j) (step i)))))²) (P i j)
    else 0) (seq 0 n)) (seq 0 n) / 2.
