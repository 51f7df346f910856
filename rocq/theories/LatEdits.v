(** A bond generator of a crystal whose lattice is changed while the generator is in use.
    Source: src/diffpy/srreal/PeriodicStructureAdapter.cpp, CrystalStructureAdapter.cpp, BaseBondGenerator.cpp. *)
From Coq Require Import List.
From Verif Require Import RBase R3 Trig Sphere Lattice BondGen.
Import ListNotations.

Section Edits.
  (** [made]: the crystal when the generator was made; [pts L]: the points visited by a PointsInSphere of the lattice L *)
  Context (made : stru) (pts : lattice -> R -> R -> list (Z * Z * Z)).
  (** What the calls read when the lattice is [L]. CrystalStructureAdapter.cpp:297-302, 346-353 and 357-362: the Cartesian positions and tensors of
      msymatoms, which CrystalStructureAdapter.cpp:61-67 createBondGenerator brought up to date and setLatPar does not touch.
      PeriodicStructureAdapter.cpp:199-201 and 208-210: the translations are drawn with the lattice of the time of the call.
      Left out: another generator of the same crystal, or siteMultiplicity, may bring msymatoms up to date. *)
  Definition lseen (L : lattice) : stru := {| spos := spos made; suij := suij made; slat := L; ssym := ssym made |}.
  (** PeriodicStructureAdapter.cpp:154-169 rewind: msphere is made only when there is none, for the lattice of that time, of which PointsInSphere keeps
      a copy (PointsInSphere.hpp:122). [Lc]: the lattice of msphere when there is one. *)
  Definition sphere_lat (L Lc : lattice) (g : gen) : lattice := match msphere g with Some _ => Lc | None => L end.
  (** PeriodicStructureAdapter.cpp:78-83 setLatPar; a call of the generator *)
  Inductive lop := SetLat (L : lattice) | LCall (o : gop).
  Inductive lres := LDone (L Lc : lattice) (g : gen) | LUndef | LFuel.
  Definition lstep (fuel : nat) (L Lc : lattice) (g : gen) (o : lop) : lres :=
    match o with
    | SetLat L' => LDone L' (sphere_lat L Lc g) g
    | LCall o =>
        match gstep GCrystal (lseen L) (pts (sphere_lat L Lc g)) fuel g o with
        | BDone g' => LDone L (sphere_lat L Lc g) g' | BUndef => LUndef | BFuel => LFuel
        end
    end.
  Fixpoint lrun (fuel : nat) (L Lc : lattice) (g : gen) (ops : list lop) : lres :=
    match ops with
    | [] => LDone L Lc g
    | o :: r => match lstep fuel L Lc g o with LDone L' Lc' g' => lrun fuel L' Lc' g' r | x => x end
    end.
  (** the generator of [made], and a program *)
  Definition relatticed (fuel : nat) (ops : list lop) : lres := lrun fuel (slat made) (slat made) (gen0 made) ops.
  (** for (bnds->rewind(); !bnds->finished(); bnds->next()) after the program *)
  Definition lbonds (fuel : nat) (L Lc : lattice) (g : gen) : option (list bond) := bonds GCrystal (lseen L) (pts (sphere_lat L Lc g)) fuel g.
End Edits.
