(** Properties C20, C21, C23 (and C22 for class Lattice). *)
From Verif Require Import RBase R3 Trig Sphere SphereSpec Lattice LatticeSpec LatticeProofs.
Open Scope R_scope.

(** C20: after any sequence of setLatPar (with parameters of a cell) and setLatBase (any vectors, rejected or not)
    calls, if the last call was accepted, the lattice is consistent: the conversions are inverse, dot, norm and distance
    on fractional coordinates are those of the Cartesian images, tensors convert back and forth, lengths, angles, volume
    and reciprocal vectors describe the base vectors. *)
Theorem C20_lattice_consistent : forall ops o, Forall admissible ops -> good_op o -> consistent (lat_run (ops ++ [o])).
Proof. exact lattice_consistent. Qed.
Print Assumptions C20_lattice_consistent.
Theorem C20_default_consistent : consistent lattice0.
Proof. exact lattice0_consistent. Qed.
Print Assumptions C20_default_consistent.
(** C20: the setters store what they were given. *)
Theorem C20_setLatPar_params : forall L a b c al be ga,
  let L' := setLatPar L a b c al be ga in
  la (sc L') = a /\ lb (sc L') = b /\ lc (sc L') = c /\ alpha L' = al /\ beta L' = be /\ gamma L' = ga.
Proof. exact setLatPar_params. Qed.
Print Assumptions C20_setLatPar_params.
Theorem C20_setLatBase_base : forall L va vb vc, good_base va vb vc ->
  exists L', setLatBase L va vb vc = Ok L' /\ Lva L' = va /\ Lvb L' = vb /\ Lvc L' = vc /\ base L' = rows va vb vc.
Proof. exact setLatBase_base. Qed.
Print Assumptions C20_setLatBase_base.

(** C20: the angle of two fractional vectors is the angle of their Cartesian images, in radians and in degrees. *)
Theorem C20_angles : forall L, consistent L -> forall u v, cartesian L u <> vzero -> cartesian L v <> vzero ->
  0 <= anglerad L u v <= PI /\
  vdot (cartesian L u) (cartesian L v) = vnorm (cartesian L u) * vnorm (cartesian L v) * cos (anglerad L u v) /\
  angledeg L u v = anglerad L u v / PI * 180 /\ angledeg L u v = vangle (cartesian L u) (cartesian L v).
Proof. exact lattice_angles. Qed.
Print Assumptions C20_angles.

(** A left-handed base is rejected, then a rotated base and after it monoclinic parameters are set. *)
Example C20_nonvacuous :
  Forall admissible [SetBase (V3 0 1 0) (V3 1 0 0) (V3 0 0 1); SetBase (V3 0 2 0) (V3 0 1 3) (V3 4 0 0)] /\
  good_op (SetBase (V3 0 2 0) (V3 0 1 3) (V3 4 0 0)) /\ ~ good_op (SetBase (V3 0 1 0) (V3 1 0 0) (V3 0 0 1)) /\
  good_op (SetPar 3 4 5 90 60 90) /\
  cartesian lattice0 (V3 1 2 0) <> vzero.
Proof.
  assert (HI : 0 < / 100000000 < 1) by lra.
  split; [repeat constructor|]. cbn. unfold good_base, vdot, vcross. cbn.
  split; [lra|]. split; [lra|].
  split; [|intros E; pose proof (k_inv1 _ lattice0_consistent (V3 1 2 0)) as H; rewrite E in H; unfold fractional, vm, vzero in H; cbn [vx vy vz] in H; injection H; intros; lra].
  repeat split; try lra. cbn zeta.
  replace (90 / 180 * PI) with (PI / 2) by field. replace (60 / 180 * PI) with (PI / 3) by field. rewrite cos_PI2, cos_PI3. lra.
Qed.

(** C21: ucvFractional gives coordinates in [0, 1), is idempotent, and differs from a lattice translation of the input
    by at most the tolerance in every coordinate. *)
Theorem C21_ucvFractional : forall u,
  in_cell (ucvFractional u) /\ ucvFractional (ucvFractional u) = ucvFractional u /\
  exists i j k : Z, let w := vsub u (V3 (IZR i) (IZR j) (IZR k)) in
    Rabs (vx (ucvFractional u) - vx w) <= SQRT_DOUBLE_EPS /\ Rabs (vy (ucvFractional u) - vy w) <= SQRT_DOUBLE_EPS /\
    Rabs (vz (ucvFractional u) - vz w) <= SQRT_DOUBLE_EPS.
Proof. exact ucv_spec. Qed.
Print Assumptions C21_ucvFractional.
(** C21: it is an exact lattice translation unless a coordinate is within the tolerance below an integer. *)
Theorem C21_ucv_exact : forall u, (forall x, In x [vx u; vy u; vz u] -> x - IZR (Rfloor x) < 1 - SQRT_DOUBLE_EPS) ->
  exists i j k : Z, ucvFractional u = vsub u (V3 (IZR i) (IZR j) (IZR k)).
Proof. exact ucv_exact. Qed.
Print Assumptions C21_ucv_exact.
Theorem C21_ucvCartesian : forall L, consistent L -> forall u,
  ucvCartesian L (ucvCartesian L u) = ucvCartesian L u /\ in_cell (fractional L (ucvCartesian L u)).
Proof. exact ucvCartesian_idem. Qed.
Print Assumptions C21_ucvCartesian.
Example C21_nonvacuous : ucvFractional (V3 (-1/4) 7 (5/2)) = V3 (3/4) 0 (1/2).
Proof.
  assert (HE : 0 < SQRT_DOUBLE_EPS < 1/8) by (unfold SQRT_DOUBLE_EPS; split; [apply Rinv_0_lt_compat; lra|]; apply (Rmult_lt_reg_r 67108864); [lra|]; rewrite Rinv_l; lra).
  assert (H : forall x (k : Z) y, IZR k <= x < IZR k + 1 -> y = x - IZR k -> y < 1 - SQRT_DOUBLE_EPS -> snap x = y).
  { intros x k y Hk -> Hy. unfold snap. replace (Rfloor x) with k.
    - destruct (eps_eq _ _ _) eqn:E; auto. unfold eps_eq in E. apply Rleb_true in E. rewrite Rabs_left in E by lra. lra.
    - destruct (Rfloor_spec x). assert ((Rfloor x < k + 1)%Z) by (apply lt_IZR; rewrite plus_IZR; lra).
      assert ((k < Rfloor x + 1)%Z) by (apply lt_IZR; rewrite plus_IZR; lra). lia. }
  unfold ucvFractional. cbn [vx vy vz]. rewrite (H (-1/4) (-1)%Z (3/4)), (H 7 7%Z 0), (H (5/2) 2%Z (1/2)) by lra. reflexivity.
Qed.
(** C58: two points of the unit cell are closer than ucMaxDiagonalLength(). *)
Theorem C58_max_diagonal : forall L, consistent L -> forall u v, in_cell u -> in_cell v ->
  vdist (cartesian L u) (cartesian L v) < ucMaxDiagonalLength L.
Proof. exact cell_diff_lt. Qed.
Print Assumptions C58_max_diagonal.

(** C23: setLatBase throws invalid_argument exactly for bases that are not right-handed with volume at least 1e-8. *)
Theorem C23_setLatBase_throws : forall L va vb vc,
  (exists L', setLatBase L va vb vc = Throw InvalidArgument L') <-> ~ good_base va vb vc.
Proof. exact setLatBase_throws. Qed.
Print Assumptions C23_setLatBase_throws.
(** C23: a rejected call leaves everything but the base matrix as it was ... *)
Theorem C23_throw_state_partial : forall L va vb vc L', setLatBase L va vb vc = Throw InvalidArgument L' ->
  base L' = rows va vb vc /\
  sc L' = sc L /\ recbase L' = recbase L /\ metrics L' = metrics L /\ baserot L' = baserot L /\ stdbase L' = stdbase L /\
  (Lva L', Lvb L', Lvc L', Lvar L', Lvbr L', Lvcr L') = (Lva L, Lvb L, Lvc L, Lvar L, Lvbr L, Lvcr L).
Proof. exact setLatBase_throw_state. Qed.
Print Assumptions C23_throw_state_partial.
(** ... so the lattice is not as before: cartesian uses the rejected base, fractional and norm do not. *)
Theorem C23_throw_keeps_state_refuted : exists va vb vc L',
  setLatBase lattice0 va vb vc = Throw InvalidArgument L' /\
  exists u, fractional L' (cartesian L' u) <> u /\ lnorm L' u <> vnorm (cartesian L' u).
Proof. exact setLatBase_throw_broken. Qed.
Print Assumptions C23_throw_keeps_state_refuted.
