(** Comparisons with tolerance and other tests in double arithmetic. Source: src/diffpy/mathutils.ipp, Lattice.cpp, StructureDifference.cpp. *)
From Flocq Require Import Core.
From Verif Require Import RBase Trig Fp FpGrid.
Open Scope R_scope.

(** Lattice.cpp:208-217 ucvFractional, one component; floor of a double is exact *)
Definition fp_ucv (x : R) : R := let r := rnd (x - IZR (Rfloor x)) in if fp_eps_eq r 1 FP_SQRT_EPS then 0 else r.
(** StructureDifference.cpp:62-67 allowsfastupdate: [n0] sites in the old structure, [p] of them go; the ints are exact as doubles *)
Definition fp_allowsfast (n0 p : nat) : bool := Rltb (INR p) (rnd (rnd (1 - rnd (sqrt (/ 2))) * INR n0)).
(** mathutils.ipp:70-74 sind: the difference is rounded; cosd as in Trig.v *)
Definition fp_sind (x : R) : R := cosd (rnd (90 - x)).
