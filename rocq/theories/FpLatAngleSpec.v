(** Specification of the angle of two vectors of a lattice. *)
From Coq Require Import Reals.
From Verif Require Import RBase R3 FpAngle.
Open Scope R_scope.

(** a^T M b *)
Definition mdot (M : metrics) (a b : vec) : R :=
  g00 M * vx a * vx b + g11 M * vy a * vy b + g22 M * vz a * vz b +
  g01 M * (vx a * vy b + vy a * vx b) + g02 M * (vx a * vz b + vz a * vx b) + g12 M * (vy a * vz b + vz a * vy b).
Definition entries (M : metrics) (G : R) : Prop := Rabs (g00 M) <= G /\ Rabs (g11 M) <= G /\ Rabs (g22 M) <= G /\ Rabs (g01 M) <= G /\ Rabs (g02 M) <= G /\ Rabs (g12 M) <= G.
Definition within (a : vec) (A : R) : Prop := Rabs (vx a) <= A /\ Rabs (vy a) <= A /\ Rabs (vz a) <= A.

