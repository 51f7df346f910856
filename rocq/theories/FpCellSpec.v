(** Specification of PointsInSphere for a cell of any angles. *)
From Flocq Require Import Core.
From Coq Require Import Reals.
From Verif Require Import RBase Fp FpSphere FpSphereSpec.
Open Scope R_scope.

(** the squared length of a lattice vector of the cell with edges a, b, c and angles al, be, ga (radians) *)
Definition cell2 (a b c al be ga : R) (p : Z * Z * Z) : R :=
  let '(m, n, o) := p in
  (IZR m * a) ^ 2 + (IZR n * b) ^ 2 + (IZR o * c) ^ 2 +
  2 * (IZR m * a) * (IZR n * b) * cos ga + 2 * (IZR m * a) * (IZR o * c) * cos be + 2 * (IZR n * b) * (IZR o * c) * cos al.
(** the squared volume of the cell with these angles and unit edges *)
Definition unit_volume2 (al be ga : R) : R := 1 + 2 * cos al * cos be * cos ga - cos al ^ 2 - cos be ^ 2 - cos ga ^ 2.
(** an edge that is not extremely long or short *)
Definition usual_edge (a : R) : Prop := bpow radix2 (-200) <= a <= bpow radix2 200.
(** what a math library returns for the cosine and sine of an angle between 0 and 180 degrees *)
Definition good_trig (t c s : R) : Prop := 0 < sin t /\ Rabs (c - cos t) <= bpow radix2 (-50) /\ Rabs (s - sin t) <= bpow radix2 (-50).
