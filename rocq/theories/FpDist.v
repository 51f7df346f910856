(** The distance that the iterator of lattice points reports, in machine arithmetic: every operation on doubles rounds, an operation on ints that
    overflows is undefined. Overflow of doubles is left out. Source: src/diffpy/srreal/PointsInSphere.cpp. *)
From Flocq Require Import Core.
From Coq Require Import Reals.
From Verif Require Import RBase Fp FpGrid.
Open Scope R_scope.

(** the range of int (PointsInSphere.cpp:162-177: m(), n() and o() are ints) *)
Definition int_ok (k : Z) : bool := ((- 2 ^ 31 <=? k) && (k <? 2 ^ 31))%Z.
(** PointsInSphere.cpp:184-185: the products of ints in r(), left to right *)
Definition r_defined (p : Z * Z * Z) : bool :=
  let '(m, n, o) := p in
  (int_ok (m * m) && int_ok (n * n) && int_ok (o * o) && int_ok (2 * m) && int_ok (2 * m * n) && int_ok (2 * m * o) && int_ok (2 * n) && int_ok (2 * n * o))%bool.
(** PointsInSphere.cpp:180-186 r(), given what cosd returns for the three angles *)
Definition fp_r2 (a b c ca cb cg : R) (p : Z * Z * Z) : R :=
  let '(m, n, o) := p in
  let t1 := rnd (rnd (IZR (m * m) * a) * a) in
  let t2 := rnd (rnd (IZR (n * n) * b) * b) in
  let t3 := rnd (rnd (IZR (o * o) * c) * c) in
  let t4 := rnd (rnd (rnd (IZR (2 * m * n) * a) * b) * cg) in
  let t5 := rnd (rnd (rnd (IZR (2 * m * o) * a) * c) * cb) in
  let t6 := rnd (rnd (rnd (IZR (2 * n * o) * b) * c) * ca) in
  rnd (rnd (rnd (rnd (rnd (t1 + t2) + t3) + t4) + t5) + t6).
(** [None]: undefined behaviour *)
Definition fp_r (a b c ca cb cg : R) (p : Z * Z * Z) : option R :=
  if r_defined p then Some (rnd (sqrt (fp_r2 a b c ca cb cg p))) else None.
(** PointsInSphere.cpp:353-356 ReflectionsInQminQmax::Q(): the iterator runs over the reciprocal lattice *)
Definition fp_Q (r : option R) : option R := match r with Some r => Some (rnd (rnd (2 * FP_PI) * r)) | None => None end.
(** PointsInSphere.cpp:359-362 d() *)
Definition fp_d (r : option R) : option R := match r with Some r => Some (rnd (1 / r)) | None => None end.
