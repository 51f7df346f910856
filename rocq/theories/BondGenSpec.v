(** Specification for C17: the bonds that a bond generator has to visit. *)
From Verif Require Import RBase R3 Trig Sphere Lattice LatticeSpec BondGen.
Open Scope R_scope.

(** A lattice object that a user can hold after setting valid parameters or base vectors. *)
Definition lattice_made (L : lattice) : Prop :=
  L = lattice0 \/ exists ops o, Forall admissible ops /\ good_op o /\ L = lat_run (ops ++ [o]).

(** An image of a site: (position k in the site selection, equivalent atom s, lattice translation T). *)
Definition image := (nat * nat * (Z * Z * Z))%type.
Definition translation (L : lattice) (T : Z * Z * Z) : vec :=
  let '(m, n, o) := T in vadd (vscale (IZR m) (Lva L)) (vadd (vscale (IZR n) (Lvb L)) (vscale (IZR o) (Lvc L))).

Section Spec.
  Context (cls : gclass) (S : stru).
  Definition site_pos (i : nat) : vec := nth i (spos S) vzero.
  Definition equivalents (i : nat) : list (vec * mat) := nth i (ssym S) [].
  (** the images that exist: isolated atoms have one, periodic atoms one per translation, atoms in a crystal one
      per symmetry equivalent and translation *)
  Definition image_ok (sites : list nat) (x : image) : Prop :=
    let '(k, s, T) := x in (k < length sites)%nat /\
    match cls with
    | GAtomic => s = O /\ T = (0, 0, 0)%Z
    | GPeriodic => s = O
    | GCrystal => (s < length (equivalents (nth k sites O)))%nat
    end.
  (** where an atom is drawn: as given, moved to the first unit cell, at its first equivalent position *)
  Definition home (i s : nat) : vec :=
    match cls with
    | GAtomic => site_pos i
    | GPeriodic => ucvCartesian (slat S) (site_pos i)
    | GCrystal => fst (nth s (equivalents i) (vzero, mid))
    end.
  Definition image_pos (i s : nat) (T : Z * Z * Z) : vec :=
    match cls with GAtomic => home i s | _ => vadd (translation (slat S) T) (home i s) end.
  Definition image_u (i s : nat) : mat :=
    match cls with GCrystal => snd (nth s (equivalents i) (vzero, mid)) | _ => nth i (suij S) mid end.
  Definition image_distance (a : nat) (sites : list nat) (x : image) : R :=
    let '(k, s, T) := x in vdist (image_pos (nth k sites O) s T) (home a 0).
  (** what the generator shows at that image *)
  Definition bond_at (a : nat) (sites : list nat) (x : image) : bond :=
    let '(k, s, T) := x in
    let i := nth k sites O in
    {| b_site0 := a; b_site1 := i; b_r0 := home a 0; b_r1 := image_pos i s T; b_r01 := vsub (image_pos i s T) (home a 0);
       b_distance := vdist (image_pos i s T) (home a 0); b_u1 := image_u i s |}.
  (** bonds of length rmin..rmax, not the atom itself (length at most 2^-26) *)
  Definition in_range (rmin rmax d : R) : Prop := rmin <= d <= rmax /\ / 67108864 < d.

  (** the settings in force after some calls: anchor, selected sites, limits *)
  Record settings := { s_anchor : option nat; s_sites : list nat; s_rmin : R; s_rmax : R }.
  Definition settings0 : settings := {| s_anchor := None; s_sites := seq 0 (length (spos S)); s_rmin := 0; s_rmax := 0 |}.
  Definition set_step (x : settings) (o : gop) : settings :=
    match o with
    | SelAnchor a => {| s_anchor := Some a; s_sites := s_sites x; s_rmin := s_rmin x; s_rmax := s_rmax x |}
    | SelSites l => {| s_anchor := s_anchor x; s_sites := l; s_rmin := s_rmin x; s_rmax := s_rmax x |}
    | SelRange a b => {| s_anchor := s_anchor x; s_sites := seq a (b - a); s_rmin := s_rmin x; s_rmax := s_rmax x |}
    | SetRmin v => {| s_anchor := s_anchor x; s_sites := s_sites x; s_rmin := v; s_rmax := s_rmax x |}
    | SetRmax v => {| s_anchor := s_anchor x; s_sites := s_sites x; s_rmin := s_rmin x; s_rmax := v |}
    | Rewind | Next => x
    end.
  Definition settings_of (ops : list gop) : settings := fold_left set_step ops settings0.

  (** Structures covered: equivalent positions are given for every site, and drawn in the first unit cell. *)
  Definition stru_ok : Prop :=
    match cls with
    | GAtomic => True
    | GPeriodic => lattice_made (slat S)
    | GCrystal => lattice_made (slat S) /\ length (ssym S) = length (spos S) /\
        forall i, (i < length (spos S))%nat -> equivalents i <> [] /\
        forall p u, In (p, u) (equivalents i) -> let q := fractional (slat S) p in
          0 <= vx q < 1 /\ 0 <= vy q < 1 /\ 0 <= vz q < 1
    end.
End Spec.

(** [sph a b] lists the points visited by the loop over a PointsInSphere of radii a, b on lattice L. *)
Definition sphere_of (L : lattice) (sph : R -> R -> list (Z * Z * Z)) : Prop :=
  forall a b, exists f, points a b (latpar_of L) f = Some (sph a b).
