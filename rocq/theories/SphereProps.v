(** Properties C18, C19, C22 (PointsInSphere.cpp part): lattice points in a spherical shell, reciprocal cell. *)
From Verif Require Import RBase Sphere SphereSpec SphereProofs SphereGeom SphereRecip SphereMain.
From Coq Require Import Sorting.Sorted.
Open Scope R_scope.

(** C18: the loop "for (sph.rewind(); !sph.finished(); sph.next())" ends and visits lexicographically ordered,
    hence pairwise different points. *)
Theorem C18_sphere_total : forall (C : cell), cell_ok C -> forall Rmin Rmax, exists l,
  (exists f0, forall f, (f0 <= f)%nat -> points Rmin Rmax (lp C) f = Some l) /\ StronglySorted lex l /\ NoDup l.
Proof. exact sphere_total. Qed.
Print Assumptions C18_sphere_total.

(** C18: every visited point is closer than Rmax. *)
Theorem C18_sphere_inside : forall (C : cell), cell_ok C -> forall Rmin Rmax f l p,
  points Rmin Rmax (lp C) f = Some l -> In p l -> sqrt (norm2 C p) < Rmax.
Proof. exact sphere_inside. Qed.
Print Assumptions C18_sphere_inside.

(** C18: no lattice point with Rmin <= r < Rmax is missed. *)
Theorem C18_sphere_complete : forall (C : cell), cell_ok C -> forall Rmin Rmax f l p,
  points Rmin Rmax (lp C) f = Some l -> Rmin <= sqrt (norm2 C p) < Rmax -> In p l.
Proof. exact sphere_complete. Qed.
Print Assumptions C18_sphere_complete.

(** C18: sph.r() is the length of the lattice vector. *)
Theorem C18_r_is_length : forall (C : cell) p, r_of (lp C) p = sqrt (norm2 C p).
Proof. exact r_of_norm. Qed.
Print Assumptions C18_r_is_length.

(** C19: provided that no lattice point lies exactly at Rmin, the visited points are exactly those with
    Rmin <= r < Rmax. *)
Theorem C19_shell_partial : forall (C : cell), cell_ok C -> forall Rmin Rmax f l,
  points Rmin Rmax (lp C) f = Some l -> (forall q, sqrt (norm2 C q) <> Rmin) ->
  forall p, In p l <-> Rmin <= sqrt (norm2 C p) < Rmax.
Proof. exact sphere_excl. Qed.
Print Assumptions C19_shell_partial.

(** C19: without that proviso the visited set is described exactly by this: a point closer than Rmin is visited
    if and only if a lattice point with smaller o in its (m, n) line lies exactly at Rmin. *)
Theorem C19_shell_exact : forall (C : cell), cell_ok C -> forall Rmin Rmax f l p,
  points Rmin Rmax (lp C) f = Some l ->
  (In p l <-> sqrt (norm2 C p) < Rmax /\
     (Rmin <= sqrt (norm2 C p) \/ exists o', (o' < snd p)%Z /\ sqrt (norm2 C (fst p, o')) = Rmin)).
Proof. exact sphere_exact. Qed.
Print Assumptions C19_shell_exact.

(** C19 as stated is false: the cubic lattice a = 1 with Rmin = 1, Rmax = 2 visits the origin. *)
Theorem C19_inner_bound_refuted : exists (C : cell) (Rmin Rmax : R), cell_ok C /\ 0 < Rmin < Rmax /\
  exists f0, forall f, (f0 <= f)%nat -> exists l p, points Rmin Rmax (lp C) f = Some l /\ In p l /\ sqrt (norm2 C p) < Rmin.
Proof. exact sphere_excl_refuted. Qed.
Print Assumptions C19_inner_bound_refuted.

(** The hypotheses are met: a monoclinic cell and a point in the shell 5 <= r < 7. *)
Example C18_nonvacuous : cell_ok cell_ex /\ sqrt (norm2 cell_ex (1, 1, 0)%Z) < 7 /\ 5 <= sqrt (norm2 cell_ex (1, 1, 0)%Z).
Proof.
  split; [apply cell_ex_ok|]. assert (E : norm2 cell_ex (1, 1, 0)%Z = 9 + 16 + 72/5) by (unfold norm2; cbn; field). rewrite E.
  split.
  - apply sqrt_lt_iff; lra.
  - apply sqrt_ge_iff; lra.
Qed.

(** C22: LatticeParameters::reciprocal() twice gives the original object, all cached values included. *)
Theorem C22_reciprocal_involution : forall L, reciprocal (reciprocal L) = L.
Proof. exact reciprocal_inv. Qed.
Print Assumptions C22_reciprocal_involution.

(** C22: the reciprocal object, obtained by exchanging cached values, is what the constructor computes for the
    reciprocal cell, so every method works with consistent data. *)
Theorem C22_reciprocal_recomputed : forall C, cell_ok C -> reciprocal (lp C) = lp (rec_cell C).
Proof. exact reciprocal_lp. Qed.
Print Assumptions C22_reciprocal_recomputed.

(** C22: that cell is a valid cell whose metric tensor is the inverse of the direct one, i.e. the base vectors are dual. *)
Theorem C22_reciprocal_dual : forall C, cell_ok C -> reciprocal_cells C (rec_cell C).
Proof. exact rec_metric. Qed.
Print Assumptions C22_reciprocal_dual.
Theorem C22_reciprocal_valid : forall C, cell_ok C -> cell_ok (rec_cell C).
Proof. exact rec_ok. Qed.
Print Assumptions C22_reciprocal_valid.

(** C56: ReflectionsInQminQmax visits each reflection once, all have Q < Qmax, none with Qmin <= Q < Qmax is
    missed, and none has Q < Qmin unless a reflection has Q = Qmin exactly. *)
Theorem C56_reflections_Q : forall C, cell_ok C -> forall qmin qmax, exists l,
  (exists f0, forall f, (f0 <= f)%nat -> reflections qmin qmax (lp C) f = Some l) /\ NoDup l /\
  (forall h, In h l -> Q_of (lp C) h < qmax) /\
  (forall h, qmin <= Q_of (lp C) h < qmax -> In h l) /\
  ((forall h, Q_of (lp C) h <> qmin) -> forall h, In h l -> qmin <= Q_of (lp C) h).
Proof. exact reflections_spec. Qed.
Print Assumptions C56_reflections_Q.

(** C56: Q() is 2 pi times the length of the reciprocal lattice vector and Q d = 2 pi. *)
Theorem C56_Q_value : forall C, cell_ok C -> forall h, Q_of (lp C) h = 2 * PI * sqrt (norm2 (rec_cell C) h).
Proof. exact Q_of_norm. Qed.
Print Assumptions C56_Q_value.
Theorem C56_Q_d : forall C, cell_ok C -> forall h, h <> (0, 0, 0)%Z -> Q_of (lp C) h * d_of (lp C) h = 2 * PI.
Proof. exact Qd. Qed.
Print Assumptions C56_Q_d.

(** C56: ReflectionsInDmaxDmin. *)
Theorem C56_reflections_d : forall C, cell_ok C -> forall dmax dmin, 0 < dmin -> 0 < dmax -> exists l,
  (exists f0, forall f, (f0 <= f)%nat -> reflections_d dmax dmin (lp C) f = Some l) /\ NoDup l /\
  forall h, h <> (0, 0, 0)%Z ->
    (In h l -> dmin < d_of (lp C) h) /\ (dmin < d_of (lp C) h <= dmax -> In h l).
Proof. exact reflections_d_spec. Qed.
Print Assumptions C56_reflections_d.
Example C22_nonvacuous : cell_ok (rec_cell cell_ex) /\ c_a (rec_cell cell_ex) = 5/12.
Proof.
  split; [apply rec_ok, cell_ex_ok|]. cbn. replace (sqrt (gram cell_ex)) with (4/5); [field|].
  symmetry. apply sqrt_is; [lra|]. unfold gram; cbn; field.
Qed.
