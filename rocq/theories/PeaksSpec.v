(** Specification of peak profiles, written without the model of GaussianProfile. *)
From Coq Require Import Reals Lra List.
Import ListNotations.
Open Scope R_scope.

(** The precision a profile works with after the given setPrecision calls: the last request, but
    never below 2^-52, which is also what a new profile uses. *)
Definition precision_after (es : list R) : R := Rmax (last es 0) (/ 2 ^ 52).

(** The normal density with standard deviation [s]. *)
Definition normal_density (s x : R) : R := / (s * sqrt (2 * PI)) * exp (- (x * x) / (2 * (s * s))).
(** The standard deviation of a normal density of full width at half maximum [w]. *)
Definition sigma_of (w : R) : R := w / (2 * sqrt (2 * ln 2)).

(** [A] is the integral of [f] between [a] and [b]: there is a function with derivative [f] inside,
    continuous up to the ends, which grows by [A]. *)
Definition has_area (f : R -> R) (a b A : R) : Prop :=
  exists F : R -> R, (forall x, a < x < b -> derivable_pt_lim F x (f x)) /\ continuity_pt F a /\ continuity_pt F b /\ F b - F a = A.
