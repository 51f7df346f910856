(** Specification for C86: pair quantities of crystals whose operations form a space group. *)
From Coq Require Import String.
From Verif Require Import RBase R3 Trig Sphere Lattice Crystal CrystalSpec StructDiff StructDiffSpec Evaluator EvaluatorSpec BondGen BondGenSpec World WorldSpec.
Import ListNotations.
Open Scope R_scope.
Notation length := List.length.

(** The operations keep lengths and the lattice, and form a group modulo lattice translations. *)
Record space_group (L : lattice) (ops : list symop) : Prop := {
  sg_length : forall o, In o ops -> forall u, vnorm (cartesian L (mv (op_R o) u)) = vnorm (cartesian L u);
  sg_lattice : forall o, In o ops -> forall i j k, exists i' j' k', mv (op_R o) (iv i j k) = iv i' j' k';
  sg_mult : forall o o', In o ops -> In o' ops -> exists q, In q ops /\ forall u, same_site (op_image o (op_image o' u)) (op_image q u);
  sg_inverse : forall o, In o ops -> exists q, In q ops /\ (forall u, same_site (op_image q (op_image o u)) u) /\ (forall u, same_site (op_image o (op_image q u)) u)
}.
(** Exactly special or clearly general positions, whose images are not in the zone where ucvFractional snaps to 0. *)
Definition no_snap (x : R) : Prop := x - IZR (Rfloor x) < 1 - / 67108864.
Definition exact_site (L : lattice) (eps : R) (ops : list symop) (a : catom) : Prop :=
  let imgs := images ops (fractional L (c_xyz a)) in
  separated L eps imgs /\ forall u, In u imgs -> no_snap (vx u) /\ no_snap (vy u) /\ no_snap (vz u).
(** The tensors of equivalent atoms turn with the operations, and the first is the one that was given. *)
Definition tensors_follow (L : lattice) (eps : R) (ops : list symop) (a : catom) : Prop :=
  let eqs := expand_site L ops eps a in
  (forall o N s s' p p', In o ops -> cart_part L (op_R o) N -> nth_error eqs s = Some p -> nth_error eqs s' = Some p' ->
     same_site (op_image o (fractional L (c_xyz p))) (fractional L (c_xyz p')) -> c_uij p' = mm N (mm (c_uij p) (tr N))) /\
  (forall p, nth_error eqs 0 = Some p -> c_uij p = c_uij a).

(** siteMultiplicity *)
Definition multiplicity (e : envt) (a : catom) : nat := match e with Symmetric L p ops => length (expand_site L ops p a) | _ => 1%nat end.
Definition times {cfg V} (Q : quantity cfg V) (n : nat) (v : V) : V := qsum Q (repeat v n).
(** Contributions [h] of two atoms times the multiplicity of the first. [h] depends on the vector between the atoms and
    their tensors, is the same from both ends and does not change when all is turned by an isometry. *)
Record invariant_pairs {cfg V} (Q : quantity cfg V) (h : cfg -> envt -> Z -> catom -> catom -> vec -> mat -> mat -> V) : Prop := {
  ip_form : forall c e z a b r u, q_contrib Q c e z a b r (vnorm r) u = times Q (multiplicity e a) (h c e z a b r (c_uij a) u);
  ip_flip : forall c e z a b r u0 u1, h c e z a b r u0 u1 = h c e z b a (vscale (-1) r) u1 u0;
  ip_turn : forall c e z a b r u0 u1 N, (forall w, vnorm (mv N w) = vnorm w) ->
    h c e z a b (mv N r) (mm N (mm u0 (tr N))) (mm N (mm u1 (tr N))) = h c e z a b r u0 u1;
  ip_double : forall c e a b r d u, q_contrib Q c e 2%Z a b r d u = q_add Q (q_contrib Q c e 1%Z a b r d u) (q_contrib Q c e 1%Z a b r d u);
  ip_mask : forall c i a j b, q_mask Q c i a j b = q_mask Q c j b i a
}.
(** [h] does not look at the tensors *)
Definition no_tensors {cfg V} (h : cfg -> envt -> Z -> catom -> catom -> vec -> mat -> mat -> V) : Prop :=
  forall c e z a b r u0 u1 u0' u1', h c e z a b r u0 u1 = h c e z a b r u0' u1'.
(** A structure for them: without symmetry operations, or with a space group and exact positions. *)
Definition orderly (tensors : bool) (x : adp) : Prop :=
  match env_of x with
  | Symmetric L p ops => space_group L ops /\ forall a, In a (atoms_of x) -> exact_site L p ops a /\ (tensors = true -> tensors_follow L p ops a)
  | _ => True
  end.
(** Tensors that are given right: each is unchanged by the operations that leave its atom where it is. *)
Definition site_symmetric (L : lattice) (ops : list symop) (a : catom) : Prop :=
  forall o N, In o ops -> cart_part L (op_R o) N -> same_site (op_image o (fractional L (c_xyz a))) (fractional L (c_xyz a)) -> mm N (mm (c_uij a) (tr N)) = c_uij a.
