(** A bond generator whose structure is edited while it is in use. The generator holds a pointer to the structure, and some of the data it needs
    are copied when it is made. Edits of the atoms are covered (insert, append, erase, assign, operator[], clear of the adapters, which change the
    positions and the tensors, not the lattice and the symmetry operations).
    Source: src/diffpy/srreal/BaseBondGenerator.cpp, PeriodicStructureAdapter.cpp, CrystalStructureAdapter.cpp, AtomicStructureAdapter.cpp. *)
From Coq Require Import List.
From Verif Require Import RBase R3 Trig Sphere Lattice BondGen.
Import ListNotations.

Section Edits.
  (** [made]: the structure when the generator was made *)
  Context (cls : gclass) (made : stru) (sph : R -> R -> list (Z * Z * Z)).
  (** What the calls of a generator read when the atoms have the positions [p] and the tensors [u].
      BaseBondGenerator.cpp:79-85 and 218-222: isolated structures are read at the time of the call.
      PeriodicStructureAdapter.cpp:135-150, 172-176 and 229-233: periodic positions are those of mcartesian_positions_uc, copied by the constructor;
      the tensors are read at the time of the call (BaseBondGenerator.cpp:186-195).
      CrystalStructureAdapter.cpp:357-362: crystals read msymatoms, which CrystalStructureAdapter.cpp:61-67 createBondGenerator brought up to date;
      an edit of the atoms does not (CrystalStructureAdapter.cpp:251-256 isSymmetryCached is not consulted by a generator). Left out: another
      generator of the same structure, or siteMultiplicity, may bring them up to date. *)
  Definition seen (p : list vec) (u : list mat) : stru :=
    match cls with
    | GAtomic => {| spos := p; suij := u; slat := slat made; ssym := ssym made |}
    | _ => {| spos := spos made; suij := u; slat := slat made; ssym := ssym made |}
    end.
  (** What a call needs. BaseBondGenerator.cpp:79-96: the asserts of selectAnchorSite and selectSiteRange use the number of sites at the time of the
      call, but the range is taken from msite_all, made by the constructor (BaseBondGenerator.cpp:44-48).
      BaseBondGenerator.cpp:218-222 rewindSymmetry reads positions of sites that must still exist. Further conditions are in [gstep]. *)
  Definition call_ok (p : list vec) (g : gen) (o : gop) : bool :=
    match o with
    | SelAnchor a => (a <? length p)%nat
    | SelRange _ b => (b <=? length p)%nat && (b <=? length (spos made))%nat
    | Rewind | Next => match cls with GAtomic => forallb (fun i => i <? length p)%nat (sel g) | _ => true end
    | _ => true
    end.
  Inductive eop := Edit (p : list vec) (u : list mat) | Call (o : gop).
  Inductive eres := EDone (p : list vec) (u : list mat) (g : gen) | EUndef | EFuel.
  Definition estep (fuel : nat) (p : list vec) (u : list mat) (g : gen) (o : eop) : eres :=
    match o with
    | Edit p' u' => EDone p' u' g
    | Call o =>
        if call_ok p g o then
          match gstep cls (seen p u) sph fuel g o with BDone g' => EDone p u g' | BUndef => EUndef | BFuel => EFuel end
        else EUndef
    end.
  Fixpoint erun (fuel : nat) (p : list vec) (u : list mat) (g : gen) (ops : list eop) : eres :=
    match ops with
    | [] => EDone p u g
    | o :: r => match estep fuel p u g o with EDone p' u' g' => erun fuel p' u' g' r | x => x end
    end.
  (** the generator of the structure [made], and a program *)
  Definition edited (fuel : nat) (ops : list eop) : eres := erun fuel (spos made) (suij made) (gen0 made) ops.
End Edits.
