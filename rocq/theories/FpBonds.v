(** Bond generators in double arithmetic: every operation on doubles rounds its exact result (Fp.v); overflow is left out. The calls of the setters
    and their order are in BondGen.v; here the anchor, the selected sites and the limits are given and the loop of a user is run.
    Source: src/diffpy/srreal/BaseBondGenerator.cpp, PeriodicStructureAdapter.cpp, Lattice.cpp, R3linalg.hpp. *)
From Flocq Require Import Core.
From Verif Require Import RBase R3 Fp FpGrid FpTol FpAngle FpSphere.
Import ListNotations.
Open Scope R_scope.

(** R3linalg.hpp:261-269 mxvecproduct(u, M) *)
Definition fp_vm (u : vec) (M : mat) : vec :=
  let row a b c := rnd (rnd (rnd (vx u * a) + rnd (vy u * b)) + rnd (vz u * c)) in
  V3 (row (x00 M) (x10 M) (x20 M)) (row (x01 M) (x11 M) (x21 M)) (row (x02 M) (x12 M) (x22 M)).
(** What a generator reads from its structure: site positions (AtomicStructureAdapter::siteCartesianPosition), and for periodic structures the
    members mbase, mrecbase and mmetrics of the lattice and what PointsInSphere is made from. All are what the machine has. *)
Record fp_stru := { p_pos : list vec; p_base : mat; p_rec : mat; p_met : metrics; p_sph : fp_par }.
(** [true]: the generator of a periodic structure (PeriodicStructureAdapter.cpp:47-52), [false]: of an isolated one *)
Section FpBonds.
  Context (periodic : bool) (S : fp_stru).
  Definition fp_pos (i : nat) : vec := nth i (p_pos S) vzero.
  (** Lattice.cpp:201-218 ucvCartesian, ucvFractional; each element as in FpTol.v; Lattice.cpp:187-199 fractional and cartesian *)
  Definition fp_ucvFractional (u : vec) : vec := V3 (fp_ucv (vx u)) (fp_ucv (vy u)) (fp_ucv (vz u)).
  Definition fp_ucvCartesian (u : vec) : vec := fp_vm (fp_ucvFractional (fp_vm u (p_rec S))) (p_base S).
  (** PeriodicStructureAdapter.cpp:135-150 mcartesian_positions_uc; BaseBondGenerator.cpp:79-85 and PeriodicStructureAdapter.cpp:172-176 mr0 *)
  Definition fp_home (i : nat) : vec := if periodic then fp_ucvCartesian (fp_pos i) else fp_pos i.
  (** Lattice.cpp:236-267 ucMaxDiagonal, ucMaxDiagonalLength: the largest norm of four diagonals *)
  Definition fp_maxdiag : R :=
    fold_left (fun m u => let x := fp_lnorm (p_met S) u in if Rltb m x then x else m)
      [V3 1 1 1; V3 (-1) 1 1; V3 1 (-1) 1; V3 1 1 (-1)] (-1).

  Context (anchor : nat) (sel : list nat) (rmin rmax : R).
  Definition fp_site (k : nat) : nat := nth k sel O.
  (** PeriodicStructureAdapter.cpp:154-169 the radii of the sphere *)
  Definition fp_sphmin : R := rnd (rmin - fp_maxdiag).
  Definition fp_sphmax : R := rnd (rmax + fp_maxdiag).
  (** the points that the sphere visits (FpSphere.v) *)
  Context (pts : list (Z * Z * Z)).

  (** BaseBondGenerator.hpp:72-85, PeriodicStructureAdapter.hpp:93-96: position in the selection, points of the sphere from the current one on,
      mrcsphere, mr1, mr01, mdistance *)
  Record fgen := { cur : nat; rest : list (Z * Z * Z); rc : vec; r1 : vec; r01 : vec; dist : R }.
  Definition at_end (g : fgen) : bool := (length sel <=? cur g)%nat.
  Definition move (g : fgen) (c : nat) : fgen := {| cur := c; rest := rest g; rc := rc g; r1 := r1 g; r01 := r01 g; dist := dist g |}.
  Definition to_point (g : fgen) (l : list (Z * Z * Z)) (v : vec) : fgen :=
    {| cur := cur g; rest := l; rc := v; r1 := r1 g; r01 := r01 g; dist := dist g |}.
  Definition with_r1 (g : fgen) (v : vec) : fgen := {| cur := cur g; rest := rest g; rc := rc g; r1 := v; r01 := r01 g; dist := dist g |}.
  Definition with_dist (g : fgen) (v : vec) (d : R) : fgen := {| cur := cur g; rest := rest g; rc := rc g; r1 := r1 g; r01 := v; dist := d |}.

  (** BaseBondGenerator.cpp:234-240 updateDistance *)
  Definition fp_updateDistance (g : fgen) : fgen :=
    let r0 := fp_home anchor in
    let x := rnd (vx (r1 g) - vx r0) in
    let y := rnd (vy (r1 g) - vy r0) in
    let z := rnd (vz (r1 g) - vz r0) in
    if Rltb rmax (Rabs x) then with_dist g (V3 x (vy (r01 g)) (vz (r01 g))) (Rabs x)
    else if Rltb rmax (Rabs y) then with_dist g (V3 x y (vz (r01 g))) (Rabs y)
    else if Rltb rmax (Rabs z) then with_dist g (V3 x y z) (Rabs z)
    else with_dist g (V3 x y z) (fp_norm (V3 x y z)).
  (** PeriodicStructureAdapter.cpp:229-233 updater1 *)
  Definition fp_updater1 (g : fgen) : fgen :=
    let h := fp_home (fp_site (cur g)) in
    fp_updateDistance (with_r1 g (V3 (rnd (vx (rc g) + vx h)) (rnd (vy (rc g) + vy h)) (rnd (vz (rc g) + vz h)))).
  (** PeriodicStructureAdapter.cpp:199-201 and 209-210 *)
  Definition fp_rc (l : list (Z * Z * Z)) : vec :=
    match l with [] => vzero | (m, n, o) :: _ => fp_vm (V3 (IZR m) (IZR n) (IZR o)) (p_base S) end.
  (** PeriodicStructureAdapter.cpp:196-203, BaseBondGenerator.cpp:212-215 iterateSymmetry *)
  Definition fp_iterateSymmetry (g : fgen) : fgen * bool :=
    if periodic then let l := tl (rest g) in (to_point g l (fp_rc l), match l with [] => false | _ => true end) else (g, false).
  (** PeriodicStructureAdapter.cpp:206-212, BaseBondGenerator.cpp:218-222 rewindSymmetry *)
  Definition fp_rewindSymmetry (g : fgen) : fgen :=
    if periodic then fp_updater1 (to_point g pts (fp_rc pts)) else fp_updateDistance (with_r1 g (fp_pos (fp_site (cur g)))).
  (** PeriodicStructureAdapter.cpp:215-225, BaseBondGenerator.cpp:225-231 getNextBond *)
  Definition fp_getNextBond (g : fgen) : fgen :=
    if periodic then
      let g1 := move g (cur g + 1) in
      let g2 := if at_end g1 then let (g', more) := fp_iterateSymmetry g1 in if more then move g' 0 else g' else g1 in
      if at_end g2 then g2 else fp_updater1 g2
    else
      let (g1, more) := fp_iterateSymmetry g in
      if more then g1
      else let g2 := move g1 (cur g1 + 1) in if at_end g2 then g2 else fp_rewindSymmetry g2.
  (** BaseBondGenerator.cpp:255-267 bondOutOfRange, atSelfPair *)
  Definition fp_outOfRange (g : fgen) : bool := Rltb (dist g) rmin || Rltb rmax (dist g).
  Definition fp_atSelfPair (g : fgen) : bool := fp_eps_eq (dist g) 0 FP_SQRT_EPS.
  (** BaseBondGenerator.cpp:244-251 advanceWhileInvalid: [None] when [fuel] iterations are not enough *)
  Fixpoint fp_advance (fuel : nat) (g : fgen) : option fgen :=
    match fuel with
    | O => None
    | Datatypes.S f => if negb (at_end g) && (fp_outOfRange g || fp_atSelfPair g) then fp_advance f (fp_getNextBond g) else Some g
    end.
  (** BaseBondGenerator.cpp:55-62 rewind *)
  Definition fp_rewind (fuel : nat) (g : fgen) : option fgen :=
    let g1 := move g 0 in if at_end g1 then Some g1 else fp_advance fuel (fp_rewindSymmetry g1).
  (** BaseBondGenerator.cpp:65-69 next *)
  Definition fp_next (fuel : nat) (g : fgen) : option fgen := fp_advance fuel (fp_getNextBond g).
  (** site1(), r01() and distance() at the current bond *)
  Record fbond := { b_site1 : nat; b_r01 : vec; b_dist : R }.
  Definition fp_bond (g : fgen) : fbond := {| b_site1 := fp_site (cur g); b_r01 := r01 g; b_dist := dist g |}.
  (** for (bnds.rewind(); !bnds.finished(); bnds.next()) *)
  Fixpoint fp_collect (fuel : nat) (g : fgen) : option (list fbond) :=
    match fuel with
    | O => None
    | Datatypes.S f =>
        if at_end g then Some []
        else match fp_next fuel g with
             | None => None
             | Some g' => match fp_collect f g' with None => None | Some l => Some (fp_bond g :: l) end
             end
    end.
  Definition fp_bonds (fuel : nat) (g : fgen) : option (list fbond) :=
    match fp_rewind fuel g with None => None | Some g' => fp_collect fuel g' end.
End FpBonds.
