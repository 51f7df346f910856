(** Specification of peak widths, without the model's definitions of them. *)
From Coq Require Import Reals Lra List.
From Verif Require Import RBase R3 PeakWidth.
Open Scope R_scope.

(** [b] is a bond of a structure with the sites [l]: its first tensor is that of a site; its second that of a
    site turned by an orthogonal [Q], the Cartesian part of a symmetry operation ([Q] is the identity in
    structures without symmetry). *)
Definition orthogonal (Q : mat) : Prop := mm (tr Q) Q = mid.
Definition bond_of (l : list usite) (Q : mat) (b : ubond) : Prop :=
  orthogonal Q /\ exists s0 s1, In s0 l /\ In s1 l /\
    b_U0 b = s_U s0 /\ b_a0 b = s_aniso s0 /\ b_U1 b = mm Q (mm (s_U s1) (tr Q)) /\ b_a1 b = s_aniso s1 /\ 0 < b_dist b.

(** displacement tensors *)
Definition spherical (U : mat) : Prop := exists u, U = mscale u mid.
Definition diagonal (U : mat) : Prop := x01 U = 0 /\ x02 U = 0 /\ x10 U = 0 /\ x12 U = 0 /\ x20 U = 0 /\ x21 U = 0.
(** symmetric with non-negative displacement in each direction *)
Definition valid_tensor (U : mat) : Prop := tr U = U /\ forall v, 0 <= vdot v (mv U v).

(** The claim: [maxw rmin rmax] is not below the width [calc b] of a bond within [rmin, rmax]. *)
Definition bounds_width (maxw : R -> R -> R) (calc : ubond -> R) (b : ubond) : Prop :=
  forall rmin rmax, 0 <= rmin -> rmin <= b_dist b <= rmax -> calc b <= maxw rmin rmax.

(** The full width at half maximum of a constant peak width, from the isotropic displacement parameter U of the two
    atoms (the displacements add up to 2U; a negative U stands for a negative width), and B = 8 pi^2 U. *)
Definition fwhm_of_uiso (u : R) : R := if Rle_dec 0 u then sqrt (16 * ln 2 * u) else - sqrt (16 * ln 2 * - u).
Definition b_of_u (u : R) : R := 8 * PI ^ 2 * u.
