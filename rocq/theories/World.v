(** Pair quantities on structures: the evaluators of Evaluator.v over the adapters of StructDiff.v, with the bond
    generators of BondGen.v. Source: src/diffpy/srreal/PQEvaluator.cpp, PairQuantity.cpp, the createBondGenerator methods. *)
From Coq Require Import String.
From Verif Require Import RBase R3 Trig Sphere SphereProofs Lattice Crystal StructDiff StructDiffSpec Evaluator BondGen BondGenProofs BondGenMain.
Import ListNotations.
Open Scope R_scope.
Notation length := List.length.

(** Structure adapters with real coordinates: lattice, symmetry precision, symmetry operations. *)
Notation adp := (adapter catom lattice R (list symop)).
Notation envt := (environment lattice R (list symop)).

(** AtomicStructureAdapter.cpp:37-62 operator< and 65-75 operator== of Atom *)
Definition vlist (u : vec) : list R := [vx u; vy u; vz u].
Definition mlist (m : mat) : list R := [x00 m; x01 m; x02 m; x10 m; x11 m; x12 m; x20 m; x21 m; x22 m].
Definition enc (a : catom) : atom string R :=
  {| atomtype := c_type a; xyz_cartn := vlist (c_xyz a); occupancy := c_occ a; anisotropy := c_anis a; uij_cartn := mlist (c_uij a) |}.
Definition catom_ltb (a b : catom) : bool := atom_lt String.ltb Rltb (enc a) (enc b).
Fixpoint leqb (l m : list R) : bool :=
  match l, m with [], [] => true | x :: l', y :: m' => Reqb x y && leqb l' m' | _, _ => false end.
Definition catom_eqb (a b : catom) : bool :=
  String.eqb (c_type a) (c_type b) && leqb (vlist (c_xyz a)) (vlist (c_xyz b)) && Reqb (c_occ a) (c_occ b) &&
  Bool.eqb (c_anis a) (c_anis b) && leqb (mlist (c_uij a)) (mlist (c_uij b)).
(** Lattice.cpp:271-275 operator==: only the base matrices are compared *)
Definition lat_eqb (L M : lattice) : bool := leqb (mlist (base L)) (mlist (base M)).
(** CrystalStructureAdapter.hpp:53-57 operator== of SymOpRotTrans, and of vectors of them *)
Fixpoint ops_eqb (l m : list symop) : bool :=
  match l, m with
  | [], [] => true
  | x :: l', y :: m' => leqb (mlist (op_R x)) (mlist (op_R y)) && leqb (vlist (op_t x)) (vlist (op_t y)) && ops_eqb l' m'
  | _, _ => false
  end.

(** the structure that a BaseBondGenerator reads; it never looks at the lattice *)
Definition plain (l : list catom) : stru := {| spos := map c_xyz l; suij := map c_uij l; slat := lattice0; ssym := [] |}.
(** createBondGenerator: AtomicStructureAdapter.cpp:108-112, PeriodicStructureAdapter.cpp:47-52,
    CrystalStructureAdapter.cpp:61-67, EmptyStructureAdapter.cpp:53-56, NoMetaStructureAdapter.cpp:58-62,
    NoSymmetryStructureAdapter.cpp:61-65: the class of the generator and what it reads *)
Fixpoint createBondGenerator (x : adp) : gclass * stru :=
  match x with
  | Adp _ b =>
      match b with
      | Empty => (GAtomic, plain [])
      | Atomic l => (GAtomic, plain l)
      | Periodic L l => (GPeriodic, {| spos := map c_xyz l; suij := map c_uij l; slat := L; ssym := [] |})
      | StructDiff.Crystal L p ops l => (GCrystal, stru_of (mkCr l L ops p [] false))
      | NoMeta s => createBondGenerator s
      | NoSym s => (GAtomic, plain (atoms_of s))
      end
  end.

(** The points of a PointsInSphere on this lattice (SphereProofs.points_all: the loop shows them, given enough fuel). *)
Definition sphere_points (L : lattice) (a b : R) : list (Z * Z * Z) := all_points a b (latpar_of L).
(** PQEvaluator.cpp:101-118, 216-235, 262-285: a generator with the limits of the calculator, selectAnchorSite(i),
    selectSites(sel) or selectSiteRange, and the bonds of the loop "for (rewind(); !finished(); next())". The evaluators use one
    generator for many anchors; that its earlier calls make no difference is C85_history. The fuel is what the loop needs. *)
Definition shown (x : adp) (lo hi : R) (i : nat) (sel : list nat) : list bond :=
  let '(cls, M) := createBondGenerator x in
  let sph := sphere_points (slat M) in
  match grun cls M sph 0 (gen0 M) [SetRmin lo; SetRmax hi; SelAnchor i; SelSites sel] with
  | BDone g => match bonds cls M sph (Datatypes.S (length (all_images cls M sph (sphered cls M g)))) g with Some l => l | None => [] end
  | _ => []
  end.

(** A pair quantity whose addPairContribution(bnds, scale) adds a value that depends on the configuration, the two
    atoms and their surroundings (siteMultiplicity), and r01(), distance(), Ucartesian1() of the bond.
    PairQuantity.cpp:355-359 configureBondGenerator passes [q_rmin], [q_rmax] (PDFCalculator.cpp extends them);
    PairQuantity.cpp getPairMask looks at indices and atom types. *)
Record quantity (cfg V : Type) := {
  q_zero : V; q_add : V -> V -> V;
  q_rmin : cfg -> R; q_rmax : cfg -> R;
  q_hasmask : cfg -> bool; q_haspairmask : cfg -> bool;
  q_mask : cfg -> nat -> catom -> nat -> catom -> bool;
  q_contrib : cfg -> envt -> Z -> catom -> catom -> vec -> R -> mat -> V;
  q_outer : nat -> nat -> bool; q_stash : bool
}.
Arguments q_zero {cfg V}. Arguments q_add {cfg V}. Arguments q_rmin {cfg V}. Arguments q_rmax {cfg V}. Arguments q_hasmask {cfg V}.
Arguments q_haspairmask {cfg V}. Arguments q_mask {cfg V}. Arguments q_contrib {cfg V}. Arguments q_outer {cfg V}. Arguments q_stash {cfg V}.

Section World.
  (** [objs]: the structures that a program makes; [sortf]: a std::sort with operator< of atoms *)
  Context (objs : adp -> Prop) (sortf : list (catom * Z) -> list (catom * Z)).
  Definition wstru : Type := { x : adp | objs x }.
  Definition wadp (s : wstru) : adp := proj1_sig s.
  Definition watoms (s : wstru) : list catom := atoms_of (wadp s).
  Definition catom0 : catom := mkCA vzero (M3 0 0 0 0 0 0 0 0 0) "" 1 false.
  Definition watom (s : wstru) (i : nat) : catom := nth i (watoms s) catom0.

  (** the calculator as the evaluators see it. No adapter of the library overrides customPQConfig with an effect
      (StructureAdapter.hpp:92-94, NoMetaStructureAdapter.cpp:114-117, NoSymmetryStructureAdapter.cpp:111-114). *)
  Definition pair_calc {cfg V} (Q : quantity cfg V) : calc wstru cfg bond V :=
    {| zero := q_zero Q; add := q_add Q;
       Evaluator.nsites := fun s => countSites (wadp s);
       Evaluator.gen := fun c s i sel => shown (wadp s) (q_rmin Q c) (q_rmax Q c) i sel;
       Evaluator.site1 := b_site1;
       hasmask := q_hasmask Q; haspairmask := q_haspairmask Q;
       mask := fun c s i j => q_mask Q c i (watom s i) j (watom s j);
       contrib := fun c s b z => q_contrib Q c (env_of (wadp s)) z (watom s (b_site0 b)) (watom s (b_site1 b)) (b_r01 b) (b_distance b) (b_u1 b);
       custom := fun s c => (c, false);
       sdif := fun s0 s1 => StructDiff.diff catom_eqb catom_ltb lat_eqb Reqb ops_eqb (wadp s0) (wadp s1) (sortf (satoms0 (watoms s0))) (sortf (satoms1 (watoms s1)));
       outer_ok := q_outer Q; has_stash := q_stash Q; restash := fun v => v; finish := fun _ v => v |}.
End World.
