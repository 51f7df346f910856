(** Specification for C20, C21, C23: what a consistent lattice object is. *)
From Verif Require Import RBase R3 Trig Sphere SphereSpec Lattice.
Open Scope R_scope.

(** Lattice parameters describe a cell: positive lengths, angles between 0 and 180 degrees, positive volume. *)
Definition good_params (a b c al be ga : R) : Prop :=
  0 < a /\ 0 < b /\ 0 < c /\ 0 < al < 180 /\ 0 < be < 180 /\ 0 < ga < 180 /\
  let x := cos (al / 180 * PI) in let y := cos (be / 180 * PI) in let z := cos (ga / 180 * PI) in
  0 < 1 + 2 * x * y * z - x * x - y * y - z * z.
(** Base vectors that setLatBase documents as acceptable: right-handed, volume at least 1e-8. *)
Definition good_base (va vb vc : vec) : Prop := / 100000000 <= vdot va (vcross vb vc).

Definition good_op (o : lat_op) : Prop :=
  match o with SetPar a b c al be ga => good_params a b c al be ga | SetBase va vb vc => good_base va vb vc end.
(** Any base vectors may be tried; lattice parameters must describe a cell. *)
Definition admissible (o : lat_op) : Prop :=
  match o with SetPar a b c al be ga => good_params a b c al be ga | SetBase _ _ _ => True end.

(** The angle between two vectors, in degrees. *)
Definition vangle (u v : vec) : R := acos (vdot u v / (vnorm u * vnorm v)) / PI * 180.

(** Everything a user reads from a lattice fits together. *)
Record consistent (L : lattice) : Prop := {
  k_inv1 : forall u, fractional L (cartesian L u) = u;
  k_inv2 : forall u, cartesian L (fractional L u) = u;
  k_dot : forall u v, ldot L u v = vdot (cartesian L u) (cartesian L v);
  k_norm : forall u, lnorm L u = vnorm (cartesian L u);
  k_dist : forall u v, ldist L u v = vdist (cartesian L u) (cartesian L v);
  k_mat1 : forall M, fractionalMatrix L (cartesianMatrix L M) = M;
  k_mat2 : forall M, cartesianMatrix L (fractionalMatrix L M) = M;
  k_va : cartesian L (V3 1 0 0) = Lva L;
  k_vb : cartesian L (V3 0 1 0) = Lvb L;
  k_vc : cartesian L (V3 0 0 1) = Lvc L;
  k_a : vnorm (Lva L) = la (sc L);
  k_b : vnorm (Lvb L) = lb (sc L);
  k_c : vnorm (Lvc L) = lc (sc L);
  k_alpha : vangle (Lvb L) (Lvc L) = alpha L;
  k_beta : vangle (Lva L) (Lvc L) = beta L;
  k_gamma : vangle (Lva L) (Lvb L) = gamma L;
  k_vol : volume L = vdot (Lva L) (vcross (Lvb L) (Lvc L));
  k_vol_pos : 0 < volume L;
  k_rec : vdot (Lva L) (Lvar L) = 1 /\ vdot (Lva L) (Lvbr L) = 0 /\ vdot (Lva L) (Lvcr L) = 0 /\
          vdot (Lvb L) (Lvar L) = 0 /\ vdot (Lvb L) (Lvbr L) = 1 /\ vdot (Lvb L) (Lvcr L) = 0 /\
          vdot (Lvc L) (Lvar L) = 0 /\ vdot (Lvc L) (Lvbr L) = 0 /\ vdot (Lvc L) (Lvcr L) = 1;
  k_ar : vnorm (Lvar L) = ar (sc L);
  k_br : vnorm (Lvbr L) = br (sc L);
  k_cr : vnorm (Lvcr L) = cr (sc L);
  k_rot : base L = mm (stdbase L) (baserot L) /\ mm (baserot L) (tr (baserot L)) = mid /\ det (baserot L) = 1
}.
