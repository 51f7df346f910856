(** Model of the adapters for ObjCryst crystals and molecules. Source: src/diffpy/srreal/ObjCrystStructureAdapter.cpp.
    What the ObjCryst getters return is data; the asserts are off (release build). *)
From Coq Require Import String.
From Verif Require Import RBase R3 Trig Sphere Lattice BondGen Crystal.
Import ListNotations.
Open Scope R_scope.
Notation length := List.length.

(** ObjCryst::ScatteringPower: IsIsotropic(), GetBiso(), GetBij(i,j), GetSymbol() *)
Record scattpow := mkSP { sp_iso : bool; sp_biso : R; sp_bij : nat -> nat -> R; sp_symbol : string }.
(** ObjCryst::ScatteringComponent: mpScattPow ([None] is NULL), mOccupancy, (mX, mY, mZ) *)
Record component := mkSC { sc_pow : option scattpow; sc_occ : R; sc_xyz : vec }.
(** ObjCryst::SpaceGroup: GetSymmetryOperations() (mx by rows, tr), GetTranslationVectors(), GetNbTranslationVectors(),
    GetNbSymmetrics(), GetInversionCenter() *)
Record spacegroup := mkSG { sg_symops : list symop; sg_trans : list vec; sg_nbtran : nat; sg_nbsym : nat; sg_center : vec }.
(** ObjCryst::Crystal: GetLatticePar(0..5) (angles in radians), GetScatteringComponentList(), GetSpaceGroup() *)
Record ocrystal := mkOC { oc_a : R; oc_b : R; oc_c : R; oc_al : R; oc_be : R; oc_ga : R; oc_comps : list component; oc_sg : spacegroup }.
(** ObjCryst::MolAtom: IsDummy(), GetOccupancy(), GetScatteringPower(), (X, Y, Z) *)
Record molatom := mkMA { ma_dummy : bool; ma_occ : R; ma_pow : scattpow; ma_xyz : vec }.

(** ObjCrystStructureAdapter.cpp:42-61 getUij *)
Definition BtoU : R := 1 / (8 * PI * PI).
Definition getUij (sp : scattpow) : mat :=
  if sp_iso sp then let u := sp_biso sp * BtoU in M3 u 0 0 0 u 0 0 0 u
  else let u i j := sp_bij sp i j * BtoU in
    M3 (u 1 1)%nat (u 1 2)%nat (u 1 3)%nat (u 1 2)%nat (u 2 2)%nat (u 2 3)%nat (u 1 3)%nat (u 2 3)%nat (u 3 3)%nat.

(** [rv[k] = o] ; [None]: an index outside of the vector, undefined behaviour *)
Definition put (rv : list symop) (k : nat) (o : symop) : option (list symop) := if (k <? length rv)%nat then Some (upd k o rv) else None.
Fixpoint foldo {A B} (f : B -> A -> option B) (l : list A) (x : B) : option B :=
  match l with [] => Some x | a :: r => match f x a with Some y => foldo f r y | None => None end end.
(** ObjCrystStructureAdapter.cpp:75-80 *)
Definition copy_ops (ops : list symop) (rv : list symop) : option (list symop) :=
  foldo (fun rv i => match nth_error ops i with Some o => put rv i o | None => None end) (seq 0 (length ops)) rv.
(** ObjCrystStructureAdapter.cpp:87-98 *)
Definition shift_step (last nt : nat) (sgt : vec) (rv : list symop) (i : nat) : option (list symop) :=
  match nth_error rv i with Some o => put rv (i + nt * last) (mkOp (op_R o) (vadd (op_t o) sgt)) | None => None end.
Definition translate_ops (last : nat) (trans : list vec) (nbtran : nat) (rv : list symop) : option (list symop) :=
  foldo (fun rv nt => match nth_error trans nt with Some sgt => foldo (shift_step last nt sgt) (seq 0 last) rv | None => None end) (seq 0 nbtran) rv.
(** ObjCrystStructureAdapter.cpp:105-117 *)
Definition invert_ops (last : nat) (center : vec) (rv : list symop) : option (list symop) :=
  let tinv := vscale 2 center in
  foldo (fun rv i => match nth_error rv i with Some o => put rv (last + i) (mkOp (mscale (-1) (op_R o)) (vsub tinv (op_t o))) | None => None end) (seq 0 last) rv.
(** ObjCrystStructureAdapter.cpp:64-120 fetchSymmetryOperations; [junk]: what rv.resize(nbsym) puts in the new elements *)
Definition fetchSymmetryOperations (junk : symop) (g : spacegroup) : option (list symop) :=
  let n := length (sg_symops g) in
  match copy_ops (sg_symops g) (repeat junk (sg_nbsym g)) with
  | None => None
  | Some rv =>
      match translate_ops n (sg_trans g) (sg_nbtran g) rv with
      | None => None
      | Some rv => let last := (n * sg_nbtran g)%nat in if (last <? sg_nbsym g)%nat then invert_ops last (sg_center g) rv else Some rv
      end
  end.

(** ObjCrystStructureAdapter.cpp:147-164 one component *)
Definition crystal_atom (L : lattice) (c : component) : list catom :=
  match sc_pow c with
  | None => []
  | Some sp => let U := getUij sp in
      [mkCA (cartesian L (sc_xyz c)) (if negb (sp_iso sp) then cartesianMatrix L U else U) (sp_symbol sp) (sc_occ c) (negb (sp_iso sp))]
  end.
(** ObjCrystStructureAdapter.cpp:128-172 createStructureAdapter(const ObjCryst::Crystal&); CrystalStructureAdapter.cpp as in
    Crystal.v. Lattice::setLatPar does not throw. *)
Definition adaptCrystal (junk : symop) (c : ocrystal) : option crystal :=
  let radtodeg := 180 / PI in
  let L := setLatPar lattice0 (oc_a c) (oc_b c) (oc_c c) (radtodeg * oc_al c) (radtodeg * oc_be c) (radtodeg * oc_ga c) in
  match fetchSymmetryOperations junk (oc_sg c) with
  | None => None
  | Some ops => Some (xrun crystal0 (XLattice L :: XAtoms (flat_map (crystal_atom L) (oc_comps c)) :: map XAddOp ops ++ [XUpdate]))
  end.
(** ObjCrystStructureAdapter.cpp:178-201 createStructureAdapter(const ObjCryst::Molecule&): the atoms of the adapter *)
Definition adaptMolecule (m : list molatom) : list catom :=
  flat_map (fun a => if ma_dummy a then [] else [mkCA (ma_xyz a) (getUij (ma_pow a)) (sp_symbol (ma_pow a)) (ma_occ a) (negb (sp_iso (ma_pow a)))]) m.
