(** Specification for FpSphere.v. *)
From Flocq Require Import Core.
From Verif Require Import RBase Fp FpSphere.
Import ListNotations.
Open Scope R_scope.

(** The squared length of the lattice vector (m, n, o), without rounding, in the lattice that the constants of init() describe: distance of the
    plane m from the origin, of the line (m, n) from the foot of the plane, of the point from the foot of the line. *)
Definition len2 (L : fp_par) (p : Z * Z * Z) : R :=
  let '(m, n, o) := p in
  let dn := IZR n - IZR m * dn0dm L in
  let do := IZR o - (IZR m * do0dm L + dn * do0dn L) in
  (IZR m / ar L) ^ 2 + (dn / b2r L) ^ 2 + (do / c1r L) ^ 2.
(** A lattice that is not too oblique (the foot of a plane or line is at most 64 times as far from the axis as the plane or line from the origin)
    and not microscopic. *)
Record par_ok (L : fp_par) : Prop := {
  ok_a : bpow radix2 (-300) <= ar L; ok_b : bpow radix2 (-300) <= b2r L; ok_c : bpow radix2 (-300) <= c1r L;
  ok_n : Rabs (dn0dm L) * ar L <= 64 * b2r L;
  ok_o : Rabs (do0dm L) * ar L <= 64 * c1r L;
  ok_l : Rabs (do0dn L) * b2r L <= 64 * c1r L }.
(** indices in the range of int *)
Definition ints (p : Z * Z * Z) : Prop :=
  let '(m, n, o) := p in (Z.abs m < 2 ^ 31 /\ Z.abs n < 2 ^ 31 /\ Z.abs o < 2 ^ 31)%Z.
(** relative margin of the squared length, 2^-30 *)
Definition margin : R := / 1073741824.

(** A cell with right angles and edges a, b, c: the squared length of a lattice vector, and the constants of the iterator for it (cosd(90) = 0 and
    sind(90) = 1 are exact). *)
Definition box2 (a b c : R) (p : Z * Z * Z) : R :=
  let '(m, n, o) := p in (IZR m * a) ^ 2 + (IZR n * b) ^ 2 + (IZR o * c) ^ 2.
Definition box (a b c : R) : fp_par := fp_init (fp_update a b c 0 0 0 1 1 1).
Definition edge (a : R) : Prop := dbl a /\ 0 < a <= bpow radix2 299.
(** the order of the visits *)
Definition lex (p q : Z * Z * Z) : Prop :=
  let '(m, n, o) := p in let '(m', n', o') := q in
  (m < m' \/ (m = m' /\ (n < n' \/ (n = n' /\ o < o'))))%Z.
(** [l]: what "for (sph.rewind(); !sph.finished(); sph.next())" visits *)
Definition visits (Rmin Rmax : R) (L : fp_par) (l : list (Z * Z * Z)) : Prop :=
  exists f0, forall f, (f0 <= f)%nat -> points Rmin Rmax L f = Some l.
