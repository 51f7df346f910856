(** Theorems for C46: symmetry expansion of a crystal. Definitions of the terms are in CrystalSpec.v. *)
From Coq Require Import String.
From Verif Require Import RBase R3 Trig TrigProofs Sphere Lattice LatticeSpec LatticeProofs BondGen BondGenSpec BondGenMain Sums
  Crystal CrystalSpec CrystalProofs CrystalMain CrystalSep CrystalCell CrystalExample CrystalBonds.
Import ListNotations.
Open Scope R_scope.
Notation length := List.length.

(** C46, for every list of operations, atom and sensible precision: the images of the atom are split in groups, one
    for each returned atom. An image is within the precision of the first image of its group; first images of
    different groups are farther apart. The returned position is the mean of the group's images reduced to the
    unit cell, the tensor is R U R^T of the group's first operation, the other attributes are those of the atom. *)
Theorem C46_groups : forall L eps a ops, consistent L -> fine L eps -> ops <> [] ->
  exists g, let imgs := images ops (c_xyz a) in let out := expandLatticeAtom L ops eps a in
  grouping L eps imgs g /\ (forall k, (k < length out)%nat <-> In k g) /\
  forall k, (k < length out)%nat -> exists f o, leader g k f /\ nth_error ops f = Some o /\
    nth_error out k = Some (mkCA (mean (map ucvFractional (members g k imgs))) (mm (op_R o) (mm (c_uij a) (tr (op_R o))))
                                 (c_type a) (c_occ a) (c_anis a)).
Proof. exact expand_groups. Qed.
Print Assumptions C46_groups.
(** C46, for exactly special or clearly general positions (images coincide modulo the lattice or are farther apart
    than the precision): the returned positions are the images reduced to the unit cell, all of them and nothing
    else; any two are apart by the precision, up to the rounding of ucvFractional (2^-26 of each axis for each). *)
Theorem C46_positions : forall L eps a ops, consistent L -> fine L eps -> ops <> [] -> separated L eps (images ops (c_xyz a)) ->
  let out := map c_xyz (expandLatticeAtom L ops eps a) in
  (forall u, In u (images ops (c_xyz a)) -> In (ucvFractional u) out) /\
  (forall p, In p out -> exists u, In u (images ops (c_xyz a)) /\ p = ucvFractional u) /\
  (forall i j p q, i <> j -> nth_error out i = Some p -> nth_error out j = Some q ->
     ~ near L (eps - / 33554432 * (la (sc L) + lb (sc L) + lc (sc L))) p q).
Proof.
  intros L eps a ops C F NE SEP. cbv zeta. split; [|split].
  - intros u H. now apply (sep_cover L eps a ops).
  - intros p H. now apply (sep_sound L eps a ops).
  - now apply sep_distinct.
Qed.
Print Assumptions C46_positions.
(** C46, same positions: the number of returned atoms is the number of different images modulo the lattice. *)
Theorem C46_multiplicity : forall L eps a ops, consistent L -> fine L eps -> ops <> [] -> separated L eps (images ops (c_xyz a)) ->
  forall reps, distinct_sites (images ops (c_xyz a)) reps -> length (expandLatticeAtom L ops eps a) = length reps.
Proof. exact sep_count. Qed.
Print Assumptions C46_multiplicity.
(** C46: siteMultiplicity of all sites adds up to the number of atoms in the unit cell. [cell] lists for each site
    its different images modulo the lattice. *)
Theorem C46_cell_content : forall c cell, consistent (x_lat c) -> fine (x_lat c) (x_prec c) -> x_ops c <> [] ->
  Forall2 (fun a reps => separated (x_lat c) (x_prec c) (images (x_ops c) (fractional (x_lat c) (c_xyz a))) /\
                         distinct_sites (images (x_ops c) (fractional (x_lat c) (c_xyz a))) reps) (x_atoms c) cell ->
  let c' := fst (xstep c XUpdate) in
  map (fun i => snd (xstep c' (XMult i))) (seq 0 (length (x_atoms c))) = map (fun reps => XInt (length reps)) cell.
Proof.
  intros c cell C F NE H. cbv zeta. cbn [xstep fst]. 
  assert (X : forall i, snd (xstep (updateSymmetryPositions c) (XMult i)) = XInt (length (nth i (map (expand_site (x_lat c) (x_ops c) (x_prec c)) (x_atoms c)) []))).
  { intros i. cbn [xstep snd]. unfold ensureSymmetry. cbn [updateSymmetryPositions x_cached x_sym x_atoms]. rewrite map_length, Nat.eqb_refl. reflexivity. }
  rewrite (map_ext _ _ X). clear X. revert C F NE H. generalize (x_lat c) (x_ops c) (x_prec c) (x_atoms c). intros L ops eps atoms C F NE H.
  induction H as [|a reps atoms cell [S D] H IH]; [reflexivity|]. cbn [map length seq]. f_equal.
  - f_equal. cbn [nth]. unfold expand_site. rewrite map_length. now apply sep_count.
  - rewrite <- seq_shift, map_map. exact IH.
Qed.
Print Assumptions C46_cell_content.
(** C46, positions away from the faces of the unit cell, special or not: every image is within twice the precision of
    a returned position, every returned position is within the precision of an image. (Missing for the full claim:
    the faces, see C46_boundary_refuted, and that returned positions are apart, see C46_close_orbit_refuted.) *)
Theorem C46_cover_partial : forall L eps a ops, consistent L -> fine L eps -> ops <> [] ->
  (forall u, In u (images ops (c_xyz a)) -> interior L eps u) ->
  let out := map c_xyz (expandLatticeAtom L ops eps a) in
  (forall u, In u (images ops (c_xyz a)) -> exists p, In p out /\ near L (2 * eps) u p) /\
  (forall p, In p out -> exists u, In u (images ops (c_xyz a)) /\ near L eps p u).
Proof. exact interior_cover. Qed.
Print Assumptions C46_cover_partial.
(** C46: there is at least one and at most one atom per operation, all of them in the unit cell. *)
Theorem C46_in_cell : forall L eps a ops, consistent L -> fine L eps -> ops <> [] ->
  expandLatticeAtom L ops eps a <> [] /\ (length (expandLatticeAtom L ops eps a) <= length ops)%nat /\
  forall b, In b (expandLatticeAtom L ops eps a) -> let q := c_xyz b in 0 <= vx q < 1 /\ 0 <= vy q < 1 /\ 0 <= vz q < 1.
Proof. exact expand_cell. Qed.
Print Assumptions C46_in_cell.
(** C46 and C17: a bond generator over a crystal with symmetry operations visits exactly the bonds to the
    equivalent atoms in all cells. *)
Theorem C46_bonds : forall c sph, lattice_made (x_lat c) -> fine (x_lat c) (x_prec c) -> x_ops c <> [] -> sphere_of (x_lat c) sph ->
  forall f g ops a, grun GCrystal (stru_of c) sph f (gen0 (stru_of c)) ops = BDone g ->
  let X := settings_of (stru_of c) ops in s_anchor X = Some a ->
  exists v, NoDup v /\
    (forall y, In y v <-> image_ok GCrystal (stru_of c) (s_sites X) y /\
       in_range (s_rmin X) (s_rmax X) (image_distance GCrystal (stru_of c) a (s_sites X) y)) /\
    exists f0, forall f', (f0 <= f')%nat -> bonds GCrystal (stru_of c) sph f' g = Some (map (bond_at GCrystal (stru_of c) a (s_sites X)) v).
Proof. intros c sph LM F NE SP. apply bonds_main; [now apply crystal_stru_ok|exact SP]. Qed.
Print Assumptions C46_bonds.

(** C46 fails at the cell boundary: merged images on both sides of a face are averaged after the reduction to the
    unit cell. Inversion centre at the origin, atom 1e-6 from it, default precision: the only position returned is
    at x = 1/2, at least 0.4 from every image. *)
Theorem C46_boundary_refuted : consistent lattice0 /\ fine lattice0 (x_prec crystal0) /\
  exists ops a p, expandLatticeAtom lattice0 ops (x_prec crystal0) a = [p] /\ length ops = 2%nat /\
  forall u, In u (images ops (c_xyz a)) -> ~ near lattice0 (2 / 5) (c_xyz p) u.
Proof.
  split; [apply lattice0_consistent|]. split; [apply fine0; cbn [x_prec crystal0]; lra|].
  exists inversion, off_origin, (mkCA (V3 (1 / 2) 0 0) mid "C"%string 1 true). split; [exact off_expand|]. split; [reflexivity|]. exact off_far.
Qed.
Print Assumptions C46_boundary_refuted.
(** C46 fails for nearly special positions: images are compared with the first of each group and the position
    returned is the mean. Atom 3e-5 from a fourfold axis: two atoms are returned, closer than the precision. *)
Theorem C46_close_orbit_refuted : exists ops a p q, expandLatticeAtom lattice0 ops (x_prec crystal0) a = [p; q] /\
  near lattice0 (x_prec crystal0) (c_xyz p) (c_xyz q) /\ c_xyz p <> c_xyz q.
Proof.
  destruct ax_expand as (p & q & H & Hp & Hq). exists fourfold, off_axis, p, q. split; [exact H|]. rewrite Hp, Hq. split.
  - exists 0%Z, 0%Z, 0%Z. unfold vdist. rewrite !cart0. apply norm_le_sq; [cbn [x_prec crystal0]; lra|].
    unfold vdot, vsub, vadd, iv, dsq. cbn [vx vy vz x_prec crystal0]. lra.
  - intros E. injection E as E. revert E. unfold dsq. lra.
Qed.
Print Assumptions C46_close_orbit_refuted.
(** C46 needs symmetry operations: without any, atoms are left outside of the unit cell and bonds are lost. Atoms at
    x = 0 and 7.5 in a cubic cell of side 1, rmax = 1: the loop shows no bond between them, but there is one of length
    1/2 (to the second atom moved by -7 cells). *)
Theorem C46_no_symops_refuted : let c := xrun crystal0 [XAtoms far_atoms] in
  (let y := (1%nat, 0%nat, (-7, 0, 0)%Z) in
   image_ok GCrystal (stru_of c) [0%nat; 1%nat] y /\ image_distance GCrystal (stru_of c) 0 [0%nat; 1%nat] y = 1 / 2) /\
  forall sph, sphere_of lattice0 sph ->
  exists g, grun GCrystal (stru_of c) sph 0 (gen0 (stru_of c)) [SelAnchor 0; SetRmax 1] = BDone g /\
  exists f0, forall f, (f0 <= f)%nat -> exists l, bonds GCrystal (stru_of c) sph f g = Some l /\ forall b, In b l -> b_site1 b <> 1%nat.
Proof. split; [exact far_missing|exact far_nobond]. Qed.
Print Assumptions C46_no_symops_refuted.

(** The hypotheses are met: an atom at a general position and one on the inversion centre, default lattice and precision. *)
Definition general_atom : catom := mkCA (V3 (1 / 4) 0 0) mid "C"%string 1 true.
Definition special_atom : catom := mkCA (V3 (1 / 2) 0 0) mid "C"%string 1 true.
Lemma inv_images x : images inversion x = [x; vscale (-1) x].
Proof. unfold images, inversion. cbn [map op_R op_t]. destruct x as [x1 x2 x3]. repeat f_equal; vring. Qed.
Lemma gen_apart : ~ near lattice0 prec0 (V3 (1 / 4) 0 0) (vscale (-1) (V3 (1 / 4) 0 0)).
Proof.
  intros (m & n & o & K). unfold vdist in K. rewrite cart_sub in K.
  destruct (comp_bound lattice0 (vsub (V3 (1 / 4) 0 0) (vadd (vscale (-1) (V3 (1 / 4) 0 0)) (iv m n o))) lattice0_consistent) as (B & _ & _).
  rewrite (proj1 recip0), Rmult_1_r in B. unfold vsub, vadd, iv, vscale in B, K. cbn [vx vy vz] in B, K. unfold prec0 in K.
  assert (- (5 / 100000) <= 1 / 4 - (-1 * (1 / 4) + IZR m) <= 5 / 100000) by (revert B K; unfold Rabs; destruct (Rcase_abs _); lra).
  assert ((m < 1)%Z) by (apply lt_IZR; lra). assert ((0 < m)%Z) by (apply lt_IZR; lra). lia.
Qed.
Lemma near_flip u v : near lattice0 prec0 u v -> near lattice0 prec0 v u.
Proof. apply near_sym. Qed.
Example C46_nonvacuous :
  let c := xrun crystal0 [XAddOp (mkOp mid vzero); XAddOp (mkOp (mscale (-1) mid) vzero); XAtoms [general_atom; special_atom]] in
  lattice_made (x_lat c) /\ consistent (x_lat c) /\ fine (x_lat c) (x_prec c) /\ x_ops c <> [] /\
  Forall2 (fun a reps => separated (x_lat c) (x_prec c) (images (x_ops c) (fractional (x_lat c) (c_xyz a))) /\
                         distinct_sites (images (x_ops c) (fractional (x_lat c) (c_xyz a))) reps) (x_atoms c)
    [[V3 (1 / 4) 0 0; vscale (-1) (V3 (1 / 4) 0 0)]; [V3 (1 / 2) 0 0]].
Proof.
  cbv zeta. cbn [xrun fold_left xstep fst crystal0 x_lat x_prec x_ops x_atoms app]. fold inversion. fold prec0.
  split; [now left|]. split; [apply lattice0_consistent|]. split; [apply fine0; unfold prec0; lra|]. split; [discriminate|].
  assert (N0 : forall u : vec, same_site u u) by (intros [u1 u2 u3]; exists 0%Z, 0%Z, 0%Z; unfold iv; vring).
  constructor; [|constructor; [|constructor]]; rewrite frac0, inv_images; cbn [general_atom special_atom c_xyz].
  - split.
    + intros u v [<-|[<-|[]]] [<-|[<-|[]]]; try (left; apply N0); right; [apply gen_apart|intros H; apply gen_apart, near_flip, H].
    + split; [apply incl_refl|]. split; [intros u H; exists u; auto|]. constructor; [|constructor; [constructor|constructor]]. constructor; [|constructor].
      intros (m & n & o & E). injection E as E _ _. assert (E' : IZR (2 * m) = 1) by (rewrite mult_IZR; lra). apply eq_IZR in E'. lia.
  - assert (SS : same_site (vscale (-1) (V3 (1 / 2) 0 0)) (V3 (1 / 2) 0 0)) by (exists (-1)%Z, 0%Z, 0%Z; unfold vscale, vadd, iv; cbn [vx vy vz]; f_equal; lra).
    assert (SS' : same_site (V3 (1 / 2) 0 0) (vscale (-1) (V3 (1 / 2) 0 0))) by (exists 1%Z, 0%Z, 0%Z; unfold vscale, vadd, iv; cbn [vx vy vz]; f_equal; lra).
    split.
    + intros u v [<-|[<-|[]]] [<-|[<-|[]]]; left; auto.
    + split; [intros u [<-|[]]; now left|]. split; [intros u [<-|[<-|[]]]; eexists; split; [now left|auto|now left|auto]|].
      constructor; constructor.
Qed.
