(** Property C17: the loop over a bond generator visits every bond in the limits exactly once. *)
From Verif Require Import RBase R3 Trig Sphere Lattice LatticeSpec LatticeProofs BondGen BondGenSpec BondGenProofs BondGenMain.
Open Scope R_scope.

(** C17: after any history of calls on a generator of an isolated, periodic or crystal structure, the loop
    "for (rewind(); !finished(); next())" shows, each exactly once and with the right sites, positions, distance
    and displacement tensor, the images of the selected sites at a distance between rmin and rmax from the anchor
    (the anchor itself excluded) - in a crystal or periodic structure out of all the infinitely many images. *)
Theorem C17_bonds_exact : forall cls S sph, stru_ok cls S -> sphere_of (slat S) sph ->
  forall f g ops a, grun cls S sph f (gen0 S) ops = BDone g ->
  let X := settings_of S ops in s_anchor X = Some a ->
  exists v, NoDup v /\
    (forall y, In y v <-> image_ok cls S (s_sites X) y /\ in_range (s_rmin X) (s_rmax X) (image_distance cls S a (s_sites X) y)) /\
    exists f0, forall f', (f0 <= f')%nat -> bonds cls S sph f' g = Some (map (bond_at cls S a (s_sites X)) v).
Proof. exact bonds_main. Qed.
Print Assumptions C17_bonds_exact.
(** C17: every call of every history ends. *)
Theorem C17_calls_end : forall cls S sph, stru_ok cls S -> forall ops, exists f0 r, r <> BFuel /\ forall f, (f0 <= f)%nat -> grun cls S sph f (gen0 S) ops = r.
Proof. exact grun_total. Qed.
Print Assumptions C17_calls_end.
(** The points of a PointsInSphere exist for every valid lattice. *)
Theorem C17_sphere_exists : forall L, lattice_made L -> exists sph, sphere_of L sph.
Proof. exact sphere_exists. Qed.
Print Assumptions C17_sphere_exists.
(** C17 needs a selected anchor: site0() is 0 in a new generator, but r0() is the origin. A single isolated atom at
    (1, 0, 0) then has a bond with itself, of length 1. *)
Theorem C17_without_anchor_refuted : forall sph, exists g f0, grun GAtomic lone sph 0 (gen0 lone) [SetRmax 2] = BDone g /\
  forall f, (f0 <= f)%nat ->
  exists b, bonds GAtomic lone sph f g = Some [b] /\ b_site0 b = O /\ b_site1 b = O /\ b_r0 b = vzero /\ b_distance b = 1.
Proof. exact lone_bond. Qed.
Print Assumptions C17_without_anchor_refuted.

(** The hypotheses are met: one atom in the default cubic lattice, limits changed during a loop, and the bond to
    the next cell. *)
Definition cub : stru := {| spos := [V3 (1/2) (1/2) (1/2)]; suij := [mid]; slat := lattice0; ssym := [] |}.
Example C17_nonvacuous : stru_ok GPeriodic cub /\ (exists sph, sphere_of (slat cub) sph) /\
  (let X := settings_of cub [SelAnchor 0; Rewind; SetRmax 1; Rewind] in s_anchor X = Some O /\
   image_ok GPeriodic cub (s_sites X) (0%nat, 0%nat, (1, 0, 0)%Z) /\
   in_range (s_rmin X) (s_rmax X) (image_distance GPeriodic cub 0 (s_sites X) (0%nat, 0%nat, (1, 0, 0)%Z))).
Proof.
  split; [left; reflexivity|]. split; [apply sphere_exists; left; reflexivity|].
  cbv zeta. split; [reflexivity|]. split; [cbn; lia|].
  assert (ED : image_distance GPeriodic cub 0 [O] (0%nat, 0%nat, (1, 0, 0)%Z) = 1).
  { unfold image_distance, image_pos. cbn [nth]. set (h := home GPeriodic cub 0 0). change (slat cub) with lattice0.
    replace (vdist (vadd (translation lattice0 (1, 0, 0)%Z) h) h) with (vnorm (Lva lattice0)).
    - rewrite (k_a _ lattice0_consistent). reflexivity.
    - unfold translation. generalize (Lva lattice0) (Lvb lattice0) (Lvc lattice0) h. intros a b c [h0 h1 h2]. unfold vdist, vnorm. f_equal. vring. }
  change (s_sites (settings_of cub [SelAnchor 0; Rewind; SetRmax 1; Rewind])) with [O]. rewrite ED. cbn. unfold in_range. lra.
Qed.
