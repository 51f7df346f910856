(** Specification for C92: the list of bonds of a structure. *)
From Coq Require Import String.
From Verif Require Import RBase R3 Lattice Crystal StructDiff StructDiffSpec Evaluator BondGen BondGenSpec World WorldSpec BondCalc BondCalcSpec BondWorld.
Import ListNotations.
Open Scope R_scope.
Notation length := List.length.

(** A bond: from atom i to an image of atom j, that is to a symmetry equivalent of it, translated by lattice vectors. *)
Definition bond_to : Type := nat * nat * image.
Definition bond_vector (x : adp) (b : bond_to) : vec :=
  let '(i, j, y) := b in let (cls, M) := createBondGenerator x in vsub (image_pos cls M (nth (fst (fst y)) [j] O) (snd (fst y)) (snd y)) (home cls M i 0).
(** It is listed when both atoms exist, its length is within rmin..rmax and above 2^-26, the pair is not masked out, and its
    direction is accepted by the cone filters in force. *)
Definition listed (c : bsettings) (x : adp) (b : bond_to) : Prop :=
  let '(i, j, y) := b in
  (i < length (atoms_of x))%nat /\ (j < length (atoms_of x))%nat /\
  image_ok (fst (createBondGenerator x)) (snd (createBondGenerator x)) [j] y /\
  b_rmin c <= vnorm (bond_vector x b) <= b_rmax c /\ / 67108864 < vnorm (bond_vector x b) /\
  (b_masked c = true -> b_mask c i (atom_at x i) j (atom_at x j) = true) /\
  accepted (active (b_cones c)) (bond_vector x b).
(** the row of the result for a bond: its length, atoms and vector *)
Definition bond_row (x : adp) (b : bond_to) : bentry :=
  let v := bond_vector x b in {| e_dist := vnorm v; e_s0 := fst (fst b); e_s1 := snd (fst b); e_d0 := vx v; e_d1 := vy v; e_d2 := vz v |}.
(** [l] has one row for every listed bond, in order. *)
Definition bond_table (c : bsettings) (x : adp) (l : list bentry) : Prop :=
  in_order l /\ exists bs, NoDup bs /\ (forall b, In b bs <-> listed c x b) /\ l = map (bond_row x) bs.
