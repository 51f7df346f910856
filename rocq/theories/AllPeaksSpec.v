(** Specification for C98: which peaks PDFCalculator takes into account. *)
From Coq Require Import String.
From Verif Require Import RBase R3 Trig Sums Lattice Crystal CrystalSpec StructDiff StructDiffSpec PeakWidth PeakWidthSpec PdfGrid PdfSpec BondGen BondGenSpec World WorldSpec OrbitSpec Visited VisitedSpec.
Import ListNotations.
Open Scope R_scope.
Notation length := List.length.

(** Profiles whose cutoff bounds are around zero and grow with the width. *)
Definition widening (pk : profile) : Prop :=
  forall a b, a <= b -> xboundlo pk b <= xboundlo pk a <= 0 /\ 0 <= xboundhi pk a <= xboundhi pk b.
(** Displacements that do not depend on the direction, or tensors without off-diagonal elements that no symmetry operation turns. *)
Definition steady (x : adp) : Prop :=
  (orderly true x /\ forall a, In a (atoms_of x) -> spherical (c_uij a)) \/
  (~ has_symmetry (env_of x) /\ forall a, In a (atoms_of x) -> c_anis a = true -> diagonal (c_uij a)).
(** Widths that do not grow with the distance. *)
Definition tame (w : pwmodel) (x : adp) : Prop :=
  match w with
  | PWConstant _ => True
  | PWDebyeWaller => steady x
  | PWJeong j => steady x /\ 0 <= j_delta1 j /\ 0 <= j_delta2 j /\ j_qbroad j = 0 /\ j_qbroad_sep j = 0
  end.
(** The extension of the range fits in its maximum. *)
Definition room (c : conf) (s : pstru) : Prop := ripple_width c + tail_width c s <= c_maxext c.
(** Points not within one step of the ends of the range extended for ripples; the lower end does not matter when the whole
    extension goes to zero. *)
Definition interior (c : conf) (s : pstru) (r : R) : Prop :=
  (c_rmin c <= whole_extension c s \/ c_rmin c + c_rstep c <= r + ripple_width c) /\ r + c_rstep c <= c_rmax c + ripple_width c.
