(** Model of the bond generators. Source: src/diffpy/srreal/BaseBondGenerator.cpp, PeriodicStructureAdapter.cpp,
    CrystalStructureAdapter.cpp (class CrystalStructureBondGenerator). *)
From Verif Require Import RBase R3 Trig Sphere Lattice.
Open Scope R_scope.

(** What a generator reads from its structure adapter. The structure does not change while the generator is used. *)
Record stru := {
  spos : list vec;               (* siteCartesianPosition(i) *)
  suij : list mat;               (* siteCartesianUij(i) *)
  slat : lattice;                (* PeriodicStructureAdapter::getLattice *)
  ssym : list (list (vec * mat)) (* CrystalStructureAdapter::msymatoms, positions and tensors, Cartesian *)
}.
(** the class of the generator, createBondGenerator of the three adapters
    (AtomicStructureAdapter.cpp:108-112, PeriodicStructureAdapter.cpp:47-52, CrystalStructureAdapter.cpp:61-67) *)
Inductive gclass := GAtomic | GPeriodic | GCrystal.

(** BaseBondGenerator.hpp:72-85, PeriodicStructureAdapter.hpp:93-96, CrystalStructureAdapter.hpp:161-164.
    The iterators msite_first, msite_last, msite_current are the selected indices and a position in them;
    msphere is the pair of its radii; [rest] are the sphere points from the current one on. *)
Record gen := {
  anchor : nat; sel : list nat; cur : nat; rmin : R; rmax : R;
  r0 : vec; r1 : vec; r01 : vec; dist : R; uc1 : mat;
  msphere : option (R * R); rest : list (Z * Z * Z); rcsphere : vec; symidx : nat
}.

Section BondGen.
  Context (cls : gclass) (S : stru).
  (** the points visited by a PointsInSphere with given radii (Sphere.v, [points]) *)
  Context (sph : R -> R -> list (Z * Z * Z)).

  Definition nsites : nat := length (spos S).
  Definition pos (i : nat) : vec := nth i (spos S) vzero.
  Definition uij (i : nat) : mat := nth i (suij S) mid.
  (** CrystalStructureAdapter.cpp:357-362 symatoms *)
  Definition symatoms (i : nat) : list (vec * mat) := nth i (ssym S) [].
  (** PeriodicStructureAdapter.cpp:135-150 mcartesian_positions_uc *)
  Definition posuc (i : nat) : vec := ucvCartesian (slat S) (pos i).

  (** record updates *)
  Definition with_cur g c := {| anchor := anchor g; sel := sel g; cur := c; rmin := rmin g; rmax := rmax g; r0 := r0 g; r1 := r1 g;
    r01 := r01 g; dist := dist g; uc1 := uc1 g; msphere := msphere g; rest := rest g; rcsphere := rcsphere g; symidx := symidx g |}.
  Definition with_sph g l c := {| anchor := anchor g; sel := sel g; cur := cur g; rmin := rmin g; rmax := rmax g; r0 := r0 g; r1 := r1 g;
    r01 := r01 g; dist := dist g; uc1 := uc1 g; msphere := msphere g; rest := l; rcsphere := c; symidx := symidx g |}.
  Definition with_sym g k := {| anchor := anchor g; sel := sel g; cur := cur g; rmin := rmin g; rmax := rmax g; r0 := r0 g; r1 := r1 g;
    r01 := r01 g; dist := dist g; uc1 := uc1 g; msphere := msphere g; rest := rest g; rcsphere := rcsphere g; symidx := k |}.
  Definition with_msphere g ms := {| anchor := anchor g; sel := sel g; cur := cur g; rmin := rmin g; rmax := rmax g; r0 := r0 g; r1 := r1 g;
    r01 := r01 g; dist := dist g; uc1 := uc1 g; msphere := ms; rest := rest g; rcsphere := rcsphere g; symidx := symidx g |}.
  Definition with_r1 g v u := {| anchor := anchor g; sel := sel g; cur := cur g; rmin := rmin g; rmax := rmax g; r0 := r0 g; r1 := v;
    r01 := r01 g; dist := dist g; uc1 := u; msphere := msphere g; rest := rest g; rcsphere := rcsphere g; symidx := symidx g |}.
  Definition with_dist g v d := {| anchor := anchor g; sel := sel g; cur := cur g; rmin := rmin g; rmax := rmax g; r0 := r0 g; r1 := r1 g;
    r01 := v; dist := d; uc1 := uc1 g; msphere := msphere g; rest := rest g; rcsphere := rcsphere g; symidx := symidx g |}.
  Definition with_lim g a b := {| anchor := anchor g; sel := sel g; cur := cur g; rmin := a; rmax := b; r0 := r0 g; r1 := r1 g;
    r01 := r01 g; dist := dist g; uc1 := uc1 g; msphere := msphere g; rest := rest g; rcsphere := rcsphere g; symidx := symidx g |}.
  Definition with_anchor g a v := {| anchor := a; sel := sel g; cur := cur g; rmin := rmin g; rmax := rmax g; r0 := v; r1 := r1 g;
    r01 := r01 g; dist := dist g; uc1 := uc1 g; msphere := msphere g; rest := rest g; rcsphere := rcsphere g; symidx := symidx g |}.
  Definition with_sel g l := {| anchor := anchor g; sel := l; cur := cur g; rmin := rmin g; rmax := rmax g; r0 := r0 g; r1 := r1 g;
    r01 := r01 g; dist := dist g; uc1 := uc1 g; msphere := msphere g; rest := rest g; rcsphere := rcsphere g; symidx := symidx g |}.

  (** BaseBondGenerator.cpp:72-75 finished, 150-153 site1, 270-273 setFinishedFlag *)
  Definition finished (g : gen) : bool := (length (sel g) <=? cur g)%nat.
  Definition site1 (g : gen) : nat := nth (cur g) (sel g) O.
  Definition setFinishedFlag (g : gen) : gen := with_cur g (length (sel g)).

  (** BaseBondGenerator.cpp:33-49, CrystalStructureAdapter.cpp:286-293 constructors *)
  Definition gen0 : gen :=
    {| anchor := 0; sel := seq 0 nsites; cur := nsites; rmin := 0; rmax := 0; r0 := vzero; r1 := vzero; r01 := vzero;
       dist := 0; uc1 := M3 0 0 0 0 0 0 0 0 0; msphere := None; rest := []; rcsphere := vzero; symidx := 0 |}.

  (** BaseBondGenerator.cpp:234-240 updateDistance *)
  Definition updateDistance (g : gen) : gen :=
    let x := vx (r1 g) - vx (r0 g) in
    let y := vy (r1 g) - vy (r0 g) in
    let z := vz (r1 g) - vz (r0 g) in
    if Rltb (rmax g) (Rabs x) then with_dist g (V3 x (vy (r01 g)) (vz (r01 g))) (Rabs x)
    else if Rltb (rmax g) (Rabs y) then with_dist g (V3 x y (vz (r01 g))) (Rabs y)
    else if Rltb (rmax g) (Rabs z) then with_dist g (V3 x y z) (Rabs z)
    else with_dist g (V3 x y z) (vnorm (V3 x y z)).

  (** PeriodicStructureAdapter.cpp:229-233, CrystalStructureAdapter.cpp:346-353 updater1. The tensor that
      Ucartesian1 returns is stored for all classes: siteCartesianUij(site1) for the first two
      (BaseBondGenerator.cpp:192-195), *mpuc1 for the last. *)
  Definition updater1 (g : gen) : gen :=
    match cls with
    | GCrystal => let a := nth (symidx g) (symatoms (site1 g)) (vzero, mid) in
                  updateDistance (with_r1 g (vadd (rcsphere g) (fst a)) (snd a))
    | _ => updateDistance (with_r1 g (vadd (rcsphere g) (posuc (site1 g))) (uij (site1 g)))
    end.

  (** msphere->mno() in Cartesian coordinates, or zerovector when the sphere is finished:
      PeriodicStructureAdapter.cpp:199-201 and 209-210 *)
  Definition rc_of (l : list (Z * Z * Z)) : vec :=
    match l with [] => vzero | (m, n, o) :: _ => cartesian (slat S) (V3 (IZR m) (IZR n) (IZR o)) end.
  (** PeriodicStructureAdapter.cpp:196-203 iterateSymmetry *)
  Definition iterateSphere (g : gen) : gen * bool :=
    let l := tl (rest g) in
    (with_sph g l (rc_of l), match l with [] => false | _ => true end).
  (** PeriodicStructureAdapter.cpp:206-212 rewindSymmetry *)
  Definition rewindSphere (g : gen) : gen :=
    let l := match msphere g with Some (a, b) => sph a b | None => [] end in
    updater1 (with_sph g l (rc_of l)).

  (** BaseBondGenerator.cpp:218-222, PeriodicStructureAdapter.cpp:206-212, CrystalStructureAdapter.cpp:332-337 *)
  Definition rewindSymmetry (g : gen) : gen :=
    match cls with
    | GAtomic => updateDistance (with_r1 g (pos (site1 g)) (uij (site1 g)))
    | GPeriodic => rewindSphere g
    | GCrystal => rewindSphere (with_sym g 0)
    end.
  (** BaseBondGenerator.cpp:212-215, PeriodicStructureAdapter.cpp:196-203, CrystalStructureAdapter.cpp:312-329 *)
  Definition iterateSymmetry (g : gen) : gen * bool :=
    match cls with
    | GAtomic => (g, false)
    | GPeriodic => iterateSphere g
    | GCrystal =>
        let (g1, more) := iterateSphere g in
        if more then (updater1 g1, true)
        else let g2 := with_sym g1 (symidx g1 + 1) in
             if (length (symatoms (site1 g2)) <=? symidx g2)%nat then (g2, false)
             else (rewindSphere g2, true)
    end.
  (** getNextBond: BaseBondGenerator.cpp:225-231 and CrystalStructureAdapter.cpp:340-343; PeriodicStructureAdapter.cpp:215-225 *)
  Definition getNextBond (g : gen) : gen :=
    match cls with
    | GPeriodic =>
        let g1 := with_cur g (cur g + 1) in
        let g2 := if finished g1 then
                    let (g', more) := iterateSymmetry g1 in if more then with_cur g' 0 else g'
                  else g1 in
        if finished g2 then g2 else updater1 g2
    | _ =>
        let (g1, more) := iterateSymmetry g in
        if more then g1
        else let g2 := with_cur g1 (cur g1 + 1) in
             if finished g2 then g2 else rewindSymmetry g2
    end.

  (** BaseBondGenerator.cpp:255-267 bondOutOfRange, atSelfPair *)
  Definition bondOutOfRange (g : gen) : bool := Rltb (dist g) (rmin g) || Rltb (rmax g) (dist g).
  Definition atSelfPair (g : gen) : bool := eps_eq (dist g) 0 SQRT_DOUBLE_EPS.
  (** BaseBondGenerator.cpp:244-251 advanceWhileInvalid: [None] when [fuel] iterations are not enough *)
  Fixpoint advance (fuel : nat) (g : gen) : option gen :=
    match fuel with
    | O => None
    | Datatypes.S f =>
        if negb (finished g) && (bondOutOfRange g || atSelfPair g) then advance f (getNextBond g) else Some g
    end.

  (** BaseBondGenerator.cpp:55-62 rewind and PeriodicStructureAdapter.cpp:154-169 *)
  Definition base_rewind (fuel : nat) (g : gen) : option gen :=
    let g1 := with_cur g 0 in
    if finished g1 then Some g1 else advance fuel (rewindSymmetry g1).
  Definition rewind (fuel : nat) (g : gen) : option gen :=
    match cls with
    | GAtomic => base_rewind fuel g
    | _ => let g1 := match msphere g with
                     | Some _ => g
                     | None => let buff := ucMaxDiagonalLength (slat S) in
                               with_msphere g (Some (rmin g - buff, rmax g + buff))
                     end in base_rewind fuel g1
    end.
  (** BaseBondGenerator.cpp:65-69 next *)
  Definition next (fuel : nat) (g : gen) : option gen := advance fuel (getNextBond g).

  (** selectAnchorSite: BaseBondGenerator.cpp:79-85, PeriodicStructureAdapter.cpp:172-176, CrystalStructureAdapter.cpp:297-302 *)
  Definition selectAnchorSite (g : gen) (a : nat) : gen :=
    let v := match cls with
             | GAtomic => pos a
             | GPeriodic => posuc a
             | GCrystal => fst (nth 0 (symatoms a) (vzero, mid))
             end in setFinishedFlag (with_anchor g a v).
  (** BaseBondGenerator.cpp:88-114 selectSiteRange, selectSites. The overload with iterators refers to the
      caller's indices; they are taken by value. *)
  Definition selectSites (g : gen) (l : list nat) : gen := setFinishedFlag (with_sel g l).
  Definition selectSiteRange (g : gen) (first last : nat) : gen := selectSites g (seq first (last - first)).
  (** BaseBondGenerator.cpp:117-128, PeriodicStructureAdapter.cpp:179-192 setRmin, setRmax. Base generators have no sphere. *)
  Definition setRmin (g : gen) (x : R) : gen :=
    let g1 := if Reqb (rmin g) x then g else setFinishedFlag (with_msphere g None) in with_lim g1 x (rmax g1).
  Definition setRmax (g : gen) (x : R) : gen :=
    let g1 := if Reqb (rmax g) x then g else setFinishedFlag (with_msphere g None) in with_lim g1 (rmin g1) x.

  (** A user program: calls on one generator. [BUndef]: a call outside its precondition (an index that is not a
      site, next() at the end); [BFuel]: the loop needs more fuel. *)
  Inductive gop := SelAnchor (a : nat) | SelSites (l : list nat) | SelRange (first last : nat) | SetRmin (x : R) | SetRmax (x : R)
    | Rewind | Next.
  Inductive gres := BDone (g : gen) | BUndef | BFuel.
  Definition opt (o : option gen) : gres := match o with Some g => BDone g | None => BFuel end.
  Definition gstep (fuel : nat) (g : gen) (o : gop) : gres :=
    match o with
    | SelAnchor a => if (a <? nsites)%nat then BDone (selectAnchorSite g a) else BUndef
    | SelSites l => if forallb (fun i => i <? nsites)%nat l then BDone (selectSites g l) else BUndef
    | SelRange a b => if (b <=? nsites)%nat then BDone (selectSiteRange g a b) else BUndef
    | SetRmin x => BDone (setRmin g x)
    | SetRmax x => BDone (setRmax g x)
    | Rewind => opt (rewind fuel g)
    | Next => if finished g then BUndef else opt (next fuel g)
    end.
  Fixpoint grun (fuel : nat) (g : gen) (ops : list gop) : gres :=
    match ops with
    | [] => BDone g
    | o :: r => match gstep fuel g o with BDone g' => grun fuel g' r | x => x end
    end.

  (** what can be read at the current bond: site0(), site1(), r0(), r1(), r01(), distance(), Ucartesian1() *)
  Record bond := { b_site0 : nat; b_site1 : nat; b_r0 : vec; b_r1 : vec; b_r01 : vec; b_distance : R; b_u1 : mat }.
  Definition bond_of (g : gen) : bond :=
    {| b_site0 := anchor g; b_site1 := site1 g; b_r0 := r0 g; b_r1 := r1 g; b_r01 := r01 g; b_distance := dist g; b_u1 := uc1 g |}.
  (** for (; !bnds.finished(); bnds.next())  collecting the bonds *)
  Fixpoint collect (fuel : nat) (g : gen) : option (list bond) :=
    match fuel with
    | O => None
    | Datatypes.S f =>
        if finished g then Some []
        else match next fuel g with
             | None => None
             | Some g' => match collect f g' with None => None | Some l => Some (bond_of g :: l) end
             end
    end.
  (** for (bnds.rewind(); !bnds.finished(); bnds.next()) *)
  Definition bonds (fuel : nat) (g : gen) : option (list bond) :=
    match rewind fuel g with None => None | Some g' => collect fuel g' end.
End BondGen.
