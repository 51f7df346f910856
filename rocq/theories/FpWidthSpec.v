(** Specification of peak widths in machine arithmetic. *)
From Coq Require Import Reals Lra List.
From Flocq Require Import Core.
From Verif Require Import RBase R3 PeakWidth PeakWidthSpec Fp FpAngle.
Open Scope R_scope.

(** a tensor, valid and with diagonal elements up to [m]; one that is flagged isotropic is a multiple of the unit *)
Definition tensor_up_to (m : R) (U : mat) (aniso : bool) : Prop :=
  valid_tensor U /\ x00 U <= m /\ x11 U <= m /\ x22 U <= m /\ (aniso = false -> spherical U).
(** a bond of two such atoms that is not extremely short *)
Definition bond_up_to (m : R) (b : ubond) : Prop :=
  vdbl (b_r01 b) /\ bpow radix2 (-400) <= vnorm (b_r01 b) /\ tensor_up_to m (b_U0 b) (b_a0 b) /\ tensor_up_to m (b_U1 b) (b_a1 b).

(** the mean square displacement of the two atoms along the bond: s^T (U0 + U1) s / s^2, and the full width at half maximum of a Gaussian
    of that variance *)
Definition spread (b : ubond) : R :=
  let s := b_r01 b in vdot s (vadd (mv (b_U0 b) s) (mv (b_U1 b) s)) / vdot s s.
Definition width_of (msd : R) : R := sqrt (8 * ln 2 * msd).

(** the same bond from the other atom *)
Definition reversed (b : ubond) : ubond := mkUB (vscale (-1) (b_r01 b)) (b_U1 b) (b_a1 b) (b_U0 b) (b_a0 b).
