(** Specification for C106: directions inside of a cone up to rounding. *)
From Verif Require Import RBase R3 Fp BondCalc BondCalcSpec FpAngle.
Open Scope R_scope.

(** [v] makes an angle of at most [deg] degrees, plus [tol], with [axis], for a cosine that may be off by 2^-49. *)
Definition near_cone (tol : R) (v axis : vec) (deg : R) : Prop :=
  exists t, 0 <= t <= PI /\ Rabs (vdot v axis - vnorm v * vnorm axis * cos t) <= / 562949953421312 * (vnorm v * vnorm axis) /\ t * 180 / PI <= deg + tol.
(** [v] is inside of the cone with that much to spare, and not parallel to the axis up to the same error of the cosine. *)
Definition deep_in_cone (tol : R) (v axis : vec) (deg : R) : Prop :=
  vdot v axis <= (1 - / 562949953421312) * (vnorm v * vnorm axis) /\
  exists t, 0 <= t <= PI /\ vnorm v * vnorm axis * cos t <= vdot v axis - / 562949953421312 * (vnorm v * vnorm axis) /\ t * 180 / PI <= deg - tol.
(** a math library whose acos is accurate up to [eps] *)
Definition good_acos (eps : R) (ac : R -> R) : Prop := forall x, dbl x -> Rabs x <= 1 -> Rabs (ac x - acos x) <= eps.
(** the axes of all filters are doubles and not shorter than 2^-25 *)
Definition ordinary (ops : list cone_op) : Prop := forall ax deg, In (FilterCone ax deg) ops -> vdbl ax /\ / 33554432 <= vnorm ax.
