(** Specification for FpBonds.v: exact distances of the atoms, and by how much the machine's may differ. *)
From Flocq Require Import Core.
From Verif Require Import RBase R3 Fp FpGrid FpAngle FpSphere FpSphereSpec FpBonds.
Import ListNotations.
Open Scope R_scope.
Notation length := List.length.

(** the lattice vector T, without rounding, for base vectors that are the rows of mbase *)
Definition lattice_vec (S : fp_stru) (T : Z * Z * Z) : vec := let '(m, n, o) := T in vm (V3 (IZR m) (IZR n) (IZR o)) (p_base S).
Section Spec.
  Context (S : fp_stru).
  (** from atom [a] to the image of atom [j] in the cell T, without rounding; the atoms of the first cell are where the machine has them *)
  Definition apart (a j : nat) (T : Z * Z * Z) : vec := vadd (lattice_vec S T) (vsub (fp_home true S j) (fp_home true S a)).
  (** the sum of the sizes of all the numbers that enter the distance *)
  Definition size1 (v : vec) : R := Rabs (vx v) + Rabs (vy v) + Rabs (vz v).
  Definition extent (a j : nat) (T : Z * Z * Z) : R :=
    let '(m, n, o) := T in
    Rabs (IZR m) * size1 (row0 (p_base S)) + Rabs (IZR n) * size1 (row1 (p_base S)) + Rabs (IZR o) * size1 (row2 (p_base S)) +
    size1 (fp_home true S j) + size1 (fp_home true S a).
  (** 2^-47 of it *)
  Definition tol (a j : nat) (T : Z * Z * Z) : R := / 140737488355328 * (extent a j T + bpow radix2 (-300)).
  (** What the loop shows for the image of the k-th selected site in the cell T *)
  Definition shown (a : nat) (sel : list nat) (x : nat * (Z * Z * Z)) (b : fbond) : Prop :=
    let '(k, T) := x in let j := nth k sel O in let d := apart a j T in let t := tol a j T in
    b_site1 b = j /\ Rabs (b_dist b - vnorm d) <= t /\
    Rabs (vx (b_r01 b) - vx d) <= t /\ Rabs (vy (b_r01 b) - vy d) <= t /\ Rabs (vz (b_r01 b) - vz d) <= t.
  (** the range of distances, made narrower by t on both sides (wider for negative t); 2^-26 for the atom itself *)
  Definition within (t rmin rmax d : R) : Prop := rmin + t <= d <= rmax - t /\ / 67108864 + t < d.
  (** The sphere is made for the same lattice as mbase, up to rounding. *)
  Definition same_lattice : Prop :=
    par_ok (p_sph S) /\ forall T, ints T -> let q := vdot (lattice_vec S T) (lattice_vec S T) in
    Rabs (len2 (p_sph S) T - q) <= / 1099511627776 * q.
  (** Two atoms in the first cell are not at opposite corners: their distance is smaller than the longest diagonal by a small part of the radius
      of the sphere. *)
  Definition roomy (rmin rmax : R) (a j : nat) : Prop :=
    let Q := vnorm (vsub (fp_home true S j) (fp_home true S a)) in let D := fp_maxdiag S in
    Q + / 16384 * (rmax + D) <= D \/ (rmin <= D /\ Q + / 268435456 * (rmax + D) <= D).
End Spec.
(** [l]: what "for (bnds.rewind(); !bnds.finished(); bnds.next())" shows, whatever was done with the generator before *)
Definition loop_shows (periodic : bool) (S : fp_stru) (a : nat) (sel : list nat) (rmin rmax : R) (pts : list (Z * Z * Z)) (l : list fbond) : Prop :=
  forall g, exists f0, forall f, (f0 <= f)%nat -> fp_bonds periodic S a sel rmin rmax pts f g = Some l.
(** A diagonal of the cell, in units of the base vectors *)
Definition corner (w : vec) : Prop := (vx w = 1 \/ vx w = -1) /\ (vy w = 1 \/ vy w = -1) /\ (vz w = 1 \/ vz w = -1).
(** its squared length, from the products of the base vectors *)
Definition quad (M : metrics) (w : vec) : R :=
  vx w * vx w * g00 M + vy w * vy w * g11 M + vz w * vz w * g22 M + 2 * (vx w * vy w * g01 M + vx w * vz w * g02 M + vy w * vz w * g12 M).
Definition msize (M : metrics) : R := Rabs (g00 M) + Rabs (g11 M) + Rabs (g22 M) + 2 * (Rabs (g01 M) + Rabs (g02 M) + Rabs (g12 M)).
