(** Specification for C89: the structure that an ObjCryst crystal or molecule describes. *)
From Coq Require Import String.
From Verif Require Import RBase R3 Trig Sphere Lattice LatticeSpec BondGen Crystal CrystalSpec ObjCryst.
Import ListNotations.
Open Scope R_scope.
Notation length := List.length.

(** All operations of the space group: each of its operations followed by each centring translation, and, when there is an
    inversion centre, all these followed by the inversion. *)
Definition translated (t : vec) (o : symop) : symop := mkOp (op_R o) (vadd (op_t o) t).
Definition centred (g : spacegroup) : list symop := flat_map (fun t => map (translated t) (sg_symops g)) (sg_trans g).
(** x is carried to the other side of the centre *)
Definition through (c : vec) (u : vec) : vec := vsub c (vsub u c).
Definition inverted (c : vec) (o o' : symop) : Prop := forall u, op_image o' u = through c (op_image o u).
(** GetNbSymmetrics counts them; the first translation is zero *)
Definition plain_group (g : spacegroup) : Prop :=
  sg_nbtran g = length (sg_trans g) /\ (exists r, sg_trans g = vzero :: r) /\ sg_nbsym g = (length (sg_symops g) * length (sg_trans g))%nat.
Definition centrosymmetric_group (g : spacegroup) : Prop :=
  sg_nbtran g = length (sg_trans g) /\ (exists r, sg_trans g = vzero :: r) /\ sg_nbsym g = (2 * (length (sg_symops g) * length (sg_trans g)))%nat.

(** lattice parameters with angles in radians *)
Definition crystal_cell (c : ocrystal) (L : lattice) : Prop :=
  consistent L /\ la (sc L) = oc_a c /\ lb (sc L) = oc_b c /\ lc (sc L) = oc_c c /\
  vangle (Lvb L) (Lvc L) = oc_al c / PI * 180 /\ vangle (Lva L) (Lvc L) = oc_be c / PI * 180 /\ vangle (Lva L) (Lvb L) = oc_ga c / PI * 180.
Definition good_cell (c : ocrystal) : Prop := good_params (oc_a c) (oc_b c) (oc_c c) (180 / PI * oc_al c) (180 / PI * oc_be c) (180 / PI * oc_ga c).
(** mean square displacement along w of an atom with the scattering power sp, for axes n1, n2, n3 (unit vectors times |a*||a| ...);
    B = 8 pi^2 U *)
Definition b_form (sp : scattpow) (n1 n2 n3 w : vec) : R :=
  if sp_iso sp then sp_biso sp * vdot w w
  else let p := vdot n1 w in let q := vdot n2 w in let r := vdot n3 w in let B := sp_bij sp in
    B 1%nat 1%nat * p * p + B 2%nat 2%nat * q * q + B 3%nat 3%nat * r * r + 2 * B 1%nat 2%nat * p * q + 2 * B 1%nat 3%nat * p * r + 2 * B 2%nat 3%nat * q * r.
Definition recip_scaled (v vr : vec) : vec := vscale (vnorm vr) v.
(** atom [a] of the adapter for the component [c] with scattering power [sp] *)
Definition atom_for (L : lattice) (sp : scattpow) (occ : R) (u : vec) (a : catom) : Prop :=
  c_xyz a = vadd (vscale (vx u) (Lva L)) (vadd (vscale (vy u) (Lvb L)) (vscale (vz u) (Lvc L))) /\
  c_occ a = occ /\ c_type a = sp_symbol sp /\ c_anis a = negb (sp_iso sp) /\ tr (c_uij a) = c_uij a /\
  forall w, vdot w (mv (c_uij a) w) = b_form sp (recip_scaled (Lva L) (Lvar L)) (recip_scaled (Lvb L) (Lvbr L)) (recip_scaled (Lvc L) (Lvcr L)) w / (8 * PI ^ 2).
Definition molatom_for (m : molatom) (a : catom) : Prop :=
  c_xyz a = ma_xyz m /\ c_occ a = ma_occ m /\ c_type a = sp_symbol (ma_pow m) /\ c_anis a = negb (sp_iso (ma_pow m)) /\ tr (c_uij a) = c_uij a /\
  forall w, vdot w (mv (c_uij a) w) = b_form (ma_pow m) (V3 1 0 0) (V3 0 1 0) (V3 0 0 1) w / (8 * PI ^ 2).
(** components with a scattering power, in order; the others are dummies *)
Definition real_components (c : ocrystal) : list (scattpow * component) :=
  flat_map (fun s => match sc_pow s with Some p => [(p, s)] | None => [] end) (oc_comps c).
(** [l] lists the operations of the space group *)
Definition operations_of (g : spacegroup) (l : list symop) : Prop :=
  (plain_group g /\ l = centred g) \/
  (centrosymmetric_group g /\ exists l', l = centred g ++ l' /\ Forall2 (inverted (sg_center g)) (centred g) l').
(** The listed operations with the centring translations (and the inversion) make a group of isometries, modulo lattice
    translations. *)
Record complete_group (L : lattice) (g : spacegroup) : Prop := {
  cg_length : forall o, In o (sg_symops g) -> forall u, vnorm (cartesian L (mv (op_R o) u)) = vnorm (cartesian L u);
  cg_lattice : forall o, In o (sg_symops g) -> forall i j k, exists i' j' k', mv (op_R o) (iv i j k) = iv i' j' k';
  cg_add : forall t t', In t (sg_trans g) -> In t' (sg_trans g) -> exists s, In s (sg_trans g) /\ same_site (vadd t t') s;
  cg_minus : forall t, In t (sg_trans g) -> exists s, In s (sg_trans g) /\ same_site (vadd t s) vzero;
  cg_turn : forall o t, In o (sg_symops g) -> In t (sg_trans g) -> exists s, In s (sg_trans g) /\ same_site (mv (op_R o) t) s;
  cg_mult : forall o o', In o (sg_symops g) -> In o' (sg_symops g) ->
    exists q t, In q (sg_symops g) /\ In t (sg_trans g) /\ forall u, same_site (op_image o (op_image o' u)) (vadd (op_image q u) t);
  cg_inverse : forall o, In o (sg_symops g) ->
    exists q t, In q (sg_symops g) /\ In t (sg_trans g) /\ forall u, same_site (op_image q (op_image o u)) (vadd u t)
}.
Definition inversion_fits (g : spacegroup) : Prop := forall o, In o (sg_symops g) ->
  exists q t, In q (sg_symops g) /\ In t (sg_trans g) /\ forall u, same_site (op_image o (through (sg_center g) u)) (through (sg_center g) (vadd (op_image q u) t)).
