(** Angles and cone filters in double arithmetic. [ac] is the acos of the math library, which returns NaN outside of [-1, 1]; a comparison with NaN
    is false. Overflow is left out. Source: src/diffpy/srreal/R3linalg.hpp, BondCalculator.cpp, Lattice.hpp, src/diffpy/mathutils.ipp. *)
From Flocq Require Import Core.
From Verif Require Import RBase R3 Trig Fp FpGrid BondCalc BondCalcSpec.
Import ListNotations.
Open Scope R_scope.

Definition vdbl (v : vec) : Prop := dbl (vx v) /\ dbl (vy v) /\ dbl (vz v).
(** R3linalg.hpp:231-235 dot *)
Definition fp_dot (u v : vec) : R := rnd (rnd (rnd (vx u * vx v) + rnd (vy u * vy v)) + rnd (vz u * vz v)).
(** R3linalg.hpp:213-217 norm *)
Definition fp_norm (v : vec) : R := rnd (sqrt (fp_dot v v)).
(** BondCalculator.cpp:216 r01 / distance and :173 coneaxis /= nmconeaxis: each element divided (boost ublas) *)
Definition fp_over (v : vec) (d : R) : vec := V3 (rnd (vx v / d)) (rnd (vy v / d)) (rnd (vz v / d)).

Section Acos.
  Context (ac : R -> R).
  (** acos of the math library; [None]: NaN *)
  Definition fp_acos (x : R) : option R := if Rleb (Rabs x) 1 then Some (ac x) else None.
  (** mathutils.ipp:77-92 acosd; remainder is exact *)
  Definition fp_acosd (x : R) : option R :=
    let other := option_map (fun a => rnd (rnd (a / FP_PI) * 180)) (fp_acos x) in
    if is_multiple x (1/2) then
      match Rround (x / (1/2)) with
      | 0%Z => Some 90 | 1%Z => Some 60 | (-1)%Z => Some 120 | 2%Z => Some 0 | (-2)%Z => Some 180
      | _ => other
      end
    else other.

  (** mfilter_directions and mfilter_degrees *)
  Definition fp_cones := list (vec * R).
  (** BondCalculator.cpp:168-177 filterCone; a short axis throws and changes nothing (validators.hpp:45-55) *)
  Definition fp_filterCone (axis : vec) (deg : R) (l : fp_cones) : fp_cones :=
    let n := fp_norm axis in if fp_eps_gt n 0 FP_SQRT_EPS then l ++ [(fp_over axis n, deg)] else l.
  (** calls of filterCone and filterOff (BondCalculator.cpp:180-185) *)
  Definition fp_cone_step (l : fp_cones) (o : cone_op) : fp_cones := match o with FilterCone ax deg => fp_filterCone ax deg l | FilterOff => [] end.
  Definition fp_cone_run (ops : list cone_op) : fp_cones := fold_left fp_cone_step ops [].
  (** BondCalculator.cpp:278-292 checkConeFilters *)
  Fixpoint fp_cone_loop (ru : vec) (l : fp_cones) : bool :=
    match l with
    | [] => false
    | (ax, deg) :: r =>
        if Rleb 180 deg then true
        else match fp_acos (fp_dot ru ax) with
             | Some a => if Rleb (rnd (rnd (180 / FP_PI) * a)) deg then true else fp_cone_loop ru r
             | None => fp_cone_loop ru r
             end
    end.
  (** BondCalculator.cpp:214-217 the filter in addPairContribution; BaseBondGenerator.cpp:234-240: the distance of a bond that is not farther than
      rmax is the norm of r01. r01 itself is what the machine has. *)
  Definition fp_passes (l : fp_cones) (r01 : vec) : bool :=
    match l with [] => true | _ => fp_cone_loop (fp_over r01 (fp_norm r01)) l end.

  (** Lattice.hpp:467-479 dot; the metrics matrix is what the machine has: its elements 00, 11, 22, 01, 02, 12 *)
  Record metrics := { g00 : R; g11 : R; g22 : R; g01 : R; g02 : R; g12 : R }.
  Definition fp_ldot (M : metrics) (a b : vec) : R :=
    let t0 := rnd (rnd (vx a * vx b) * g00 M) in
    let t1 := rnd (rnd (vy a * vy b) * g11 M) in
    let t2 := rnd (rnd (vz a * vz b) * g22 M) in
    let t3 := rnd (rnd (rnd (vx a * vy b) + rnd (vy a * vx b)) * g01 M) in
    let t4 := rnd (rnd (rnd (vx a * vz b) + rnd (vz a * vx b)) * g02 M) in
    let t5 := rnd (rnd (rnd (vz a * vy b) + rnd (vy a * vz b)) * g12 M) in
    rnd (rnd (rnd (rnd (rnd (t0 + t1) + t2) + t3) + t4) + t5).
  (** Lattice.hpp:482-486 norm *)
  Definition fp_lnorm (M : metrics) (a : vec) : R := rnd (sqrt (fp_ldot M a a)).
  (** Lattice.hpp:500-514 angledeg, anglerad *)
  Definition fp_lcos (M : metrics) (a b : vec) : R := rnd (fp_ldot M a b / rnd (fp_lnorm M a * fp_lnorm M b)).
  Definition fp_anglerad (M : metrics) (a b : vec) : option R := fp_acos (fp_lcos M a b).
  Definition fp_angledeg (M : metrics) (a b : vec) : option R := fp_acosd (fp_lcos M a b).
End Acos.
