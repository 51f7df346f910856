(** Model of the adapter wrappers. Source: src/diffpy/srreal/NoMetaStructureAdapter.cpp, NoSymmetryStructureAdapter.cpp,
    EmptyStructureAdapter.cpp, StructureAdapter.cpp. *)
From Coq Require Import String.
From Verif Require Import RBase R3 Trig Sphere Lattice BondGen.
Import ListNotations.
Open Scope R_scope.
Notation length := List.length.

(** What a concrete adapter (AtomicStructureAdapter, PeriodicStructureAdapter, CrystalStructureAdapter or a user's
    class) answers: StructureAdapter.hpp:47-95. Sites are numbered from 0. [lf_config]: the attributes that
    customPQConfig sets in a calculator. [lf_class], [lf_lat], [lf_sym]: its bond generator (BondGen.v). *)
Record wsite := { w_type : string; w_pos : vec; w_mult : nat; w_occ : R; w_anis : bool; w_uij : mat }.
Record leaf := { lf_sites : list wsite; lf_density : R; lf_config : list (string * R);
                 lf_class : gclass; lf_lat : lattice; lf_sym : list (list (vec * mat)) }.

(** A pointer to an adapter. Concrete adapters live in a store and can be changed by their owner; wrappers have
    an identity and hold the pointer msrcstructure, [None] for null (NoMetaStructureAdapter.hpp:38-39, 60-63,
    NoSymmetryStructureAdapter.hpp:40-41, 62-65). [AEmpty] is the singleton of EmptyStructureAdapter.cpp:119-124. *)
Inductive adapter := AEmpty | ALeaf (p : nat) | ANoMeta (id : nat) (src : option adapter) | ANoSym (id : nat) (src : option adapter).
(** memory: the store of concrete adapters and the next unused identity *)
Record wmem := { leaves : list leaf; fresh : nat }.

(** Answers. [QThrow]: std::out_of_range; [QUndef]: undefined behavior (an index outside of the sites of a concrete
    adapter, where only an assert checks it, or a call through a null pointer). *)
Inductive qres (A : Type) := QOk (a : A) | QThrow | QUndef.
Arguments QOk {A}. Arguments QThrow {A}. Arguments QUndef {A}.
Definition qbind {A B} (x : qres A) (f : A -> qres B) : qres B := match x with QOk a => f a | QThrow => QThrow | QUndef => QUndef end.

Definition deref (M : wmem) (p : nat) : option leaf := nth_error (leaves M) p.
Definition leaf_site {A} (M : wmem) (p idx : nat) (f : wsite -> A) : qres A :=
  match deref M p with
  | Some l => match nth_error (lf_sites l) idx with Some s => QOk (f s) | None => QUndef end
  | None => QUndef
  end.
Definition leaf_get {A} (M : wmem) (p : nat) (f : leaf -> A) : qres A := match deref M p with Some l => QOk (f l) | None => QUndef end.

(** NoMetaStructureAdapter.cpp:65-68, NoSymmetryStructureAdapter.cpp:68-71, EmptyStructureAdapter.cpp:59-62 countSites *)
Fixpoint countSites (M : wmem) (a : adapter) : qres nat :=
  match a with
  | AEmpty => QOk O
  | ALeaf p => leaf_get M p (fun l => length (lf_sites l))
  | ANoMeta _ src | ANoSym _ src => match src with Some s => countSites M s | None => QUndef end
  end.
(** NoMetaStructureAdapter.cpp:77-80, NoSymmetryStructureAdapter.cpp:80-83, EmptyStructureAdapter.cpp:67-70 siteAtomType *)
Fixpoint siteAtomType (M : wmem) (a : adapter) (idx : nat) : qres string :=
  match a with
  | AEmpty => QThrow
  | ALeaf p => leaf_site M p idx w_type
  | ANoMeta _ src | ANoSym _ src => match src with Some s => siteAtomType M s idx | None => QUndef end
  end.
(** NoMetaStructureAdapter.cpp:83-87, NoSymmetryStructureAdapter.cpp:86-90, EmptyStructureAdapter.cpp:73-76 siteCartesianPosition *)
Fixpoint siteCartesianPosition (M : wmem) (a : adapter) (idx : nat) : qres vec :=
  match a with
  | AEmpty => QThrow
  | ALeaf p => leaf_site M p idx w_pos
  | ANoMeta _ src | ANoSym _ src => match src with Some s => siteCartesianPosition M s idx | None => QUndef end
  end.
(** NoMetaStructureAdapter.cpp:90-93, EmptyStructureAdapter.cpp:79-82, StructureAdapter.cpp:61-64 (reused by
    NoSymmetryStructureAdapter.hpp:50) siteMultiplicity *)
Fixpoint siteMultiplicity (M : wmem) (a : adapter) (idx : nat) : qres nat :=
  match a with
  | AEmpty => QThrow
  | ALeaf p => leaf_site M p idx w_mult
  | ANoMeta _ src => match src with Some s => siteMultiplicity M s idx | None => QUndef end
  | ANoSym _ _ => QOk 1%nat
  end.
(** NoMetaStructureAdapter.cpp:96-99, NoSymmetryStructureAdapter.cpp:93-96, EmptyStructureAdapter.cpp:85-88 siteOccupancy *)
Fixpoint siteOccupancy (M : wmem) (a : adapter) (idx : nat) : qres R :=
  match a with
  | AEmpty => QThrow
  | ALeaf p => leaf_site M p idx w_occ
  | ANoMeta _ src | ANoSym _ src => match src with Some s => siteOccupancy M s idx | None => QUndef end
  end.
(** NoMetaStructureAdapter.cpp:102-105, NoSymmetryStructureAdapter.cpp:99-102, EmptyStructureAdapter.cpp:91-94 siteAnisotropy *)
Fixpoint siteAnisotropy (M : wmem) (a : adapter) (idx : nat) : qres bool :=
  match a with
  | AEmpty => QThrow
  | ALeaf p => leaf_site M p idx w_anis
  | ANoMeta _ src | ANoSym _ src => match src with Some s => siteAnisotropy M s idx | None => QUndef end
  end.
(** NoMetaStructureAdapter.cpp:108-111, NoSymmetryStructureAdapter.cpp:105-108, EmptyStructureAdapter.cpp:97-100 siteCartesianUij *)
Fixpoint siteCartesianUij (M : wmem) (a : adapter) (idx : nat) : qres mat :=
  match a with
  | AEmpty => QThrow
  | ALeaf p => leaf_site M p idx w_uij
  | ANoMeta _ src | ANoSym _ src => match src with Some s => siteCartesianUij M s idx | None => QUndef end
  end.
(** NoMetaStructureAdapter.cpp:71-74, NoSymmetryStructureAdapter.cpp:74-77, StructureAdapter.cpp:48-51 numberDensity *)
Fixpoint numberDensity (M : wmem) (a : adapter) : qres R :=
  match a with
  | AEmpty => QOk 0
  | ALeaf p => leaf_get M p lf_density
  | ANoMeta _ src => match src with Some s => numberDensity M s | None => QUndef end
  | ANoSym _ _ => QOk 0
  end.
(** NoMetaStructureAdapter.cpp:114-117, NoSymmetryStructureAdapter.cpp:111-114, StructureAdapter.hpp:92-94 customPQConfig *)
Fixpoint customPQConfig (M : wmem) (a : adapter) : qres (list (string * R)) :=
  match a with
  | AEmpty => QOk []
  | ALeaf p => leaf_get M p lf_config
  | ANoMeta _ _ => QOk []
  | ANoSym _ src => match src with Some s => customPQConfig M s | None => QUndef end
  end.
(** StructureAdapter.cpp:35-45 totalOccupancy, with the virtual calls of the adapter itself *)
Definition totalOccupancy (M : wmem) (a : adapter) : qres R :=
  qbind (countSites M a) (fun n => fold_left (fun acc i =>
    qbind acc (fun t => qbind (siteOccupancy M a i) (fun o => qbind (siteMultiplicity M a i) (fun m => QOk (t + o * INR m))))) (seq 0 n) (QOk 0)).

(** a sequence of answers *)
Fixpoint qlist {A} (l : list (qres A)) : qres (list A) :=
  match l with [] => QOk [] | x :: r => qbind x (fun a => qbind (qlist r) (fun s => QOk (a :: s))) end.
(** The base bond generator over an adapter reads positions and tensors from it (BaseBondGenerator.cpp:33-49, 79-85,
    186-195, 218-222). *)
Definition base_generator (M : wmem) (a : adapter) : qres (gclass * stru) :=
  qbind (countSites M a) (fun n =>
  qbind (qlist (map (siteCartesianPosition M a) (seq 0 n))) (fun ps =>
  qbind (qlist (map (siteCartesianUij M a) (seq 0 n))) (fun us =>
  QOk (GAtomic, {| spos := ps; suij := us; slat := lattice0; ssym := [] |})))).
(** createBondGenerator: NoMetaStructureAdapter.cpp:58-62, NoSymmetryStructureAdapter.cpp:61-65,
    EmptyStructureAdapter.cpp:53-56. A concrete adapter of class GAtomic uses the base generator. *)
Fixpoint createBondGenerator (M : wmem) (a : adapter) : qres (gclass * stru) :=
  match a with
  | AEmpty => base_generator M a
  | ALeaf p => qbind (leaf_get M p (fun l => l)) (fun l =>
      match lf_class l with
      | GAtomic => base_generator M a
      | c => QOk (c, {| spos := map w_pos (lf_sites l); suij := map w_uij (lf_sites l); slat := lf_lat l; ssym := lf_sym l |})
      end)
  | ANoMeta _ src => match src with Some s => createBondGenerator M s | None => QUndef end
  | ANoSym _ _ => base_generator M a
  end.

(** NoMetaStructureAdapter.cpp:38-46, NoSymmetryStructureAdapter.cpp:40-48 constructors; [None] is a null pointer *)
Definition newNoMeta (M : wmem) (src : option adapter) : wmem * adapter :=
  let src1 := match src with Some (ANoMeta _ s) => s | _ => src end in
  ({| leaves := leaves M; fresh := S (fresh M) |}, ANoMeta (fresh M) (match src1 with Some s => Some s | None => Some AEmpty end)).
Definition newNoSym (M : wmem) (src : option adapter) : wmem * adapter :=
  let src1 := match src with Some (ANoSym _ s) => s | _ => src end in
  ({| leaves := leaves M; fresh := S (fresh M) |}, ANoSym (fresh M) (match src1 with Some s => Some s | None => Some AEmpty end)).
(** NoMetaStructureAdapter.cpp:152-158 nometa, NoSymmetryStructureAdapter.cpp:149-155 nosymmetry *)
Definition nometa (M : wmem) (src : option adapter) : wmem * adapter :=
  match src with Some (ANoMeta i s) => (M, ANoMeta i s) | _ => newNoMeta M src end.
Definition nosymmetry (M : wmem) (src : option adapter) : wmem * adapter :=
  match src with Some (ANoSym i s) => (M, ANoSym i s) | _ => newNoSym M src end.

(** clone: EmptyStructureAdapter.cpp:45-50; AtomicStructureAdapter.cpp:101-105, PeriodicStructureAdapter.cpp:40-44,
    CrystalStructureAdapter.cpp:54-58 (a copy); NoMetaStructureAdapter.cpp:50-55; NoSymmetryStructureAdapter.cpp:52-58.
    The new wrapper is allocated before its source is cloned. *)
Fixpoint clone (M : wmem) (a : adapter) : wmem * adapter :=
  match a with
  | AEmpty => (M, AEmpty)
  | ALeaf p => match deref M p with
               | Some l => ({| leaves := leaves M ++ [l]; fresh := fresh M |}, ALeaf (length (leaves M)))
               | None => (M, a)
               end
  | ANoMeta _ src =>
      let M1 := {| leaves := leaves M; fresh := S (fresh M) |} in
      match src with Some s => let (M2, s') := clone M1 s in (M2, ANoMeta (fresh M) (Some s')) | None => (M1, ANoMeta (fresh M) None) end
  | ANoSym _ src =>
      let M1 := {| leaves := leaves M; fresh := S (fresh M) |} in
      match src with Some s => let (M2, s') := clone M1 s in (M2, ANoSym (fresh M) (Some s')) | None => (M1, ANoSym (fresh M) None) end
  end.

(** Programs: the pointers a user holds, in order of creation, null included. [WDefault] calls the public default
    constructors (NoMetaStructureAdapter.hpp:38, NoSymmetryStructureAdapter.hpp:40), [WChange] changes a
    concrete adapter in place; indices are positions in the list of pointers held. *)
Inductive wcall :=
| WNull | WEmpty | WMake (l : leaf) | WDefault (meta : bool) | WNewMeta (k : nat) | WNewSym (k : nat)
| WNometa (k : nat) | WNosymmetry (k : nat) | WClone (k : nat) | WSource (k : nat) | WChange (p : nat) (l : leaf).
Definition wstate := (wmem * list (option adapter))%type.
Definition held (h : list (option adapter)) (k : nat) : option adapter := nth k h None.
Definition wstep (x : wstate) (c : wcall) : wstate :=
  let (M, h) := x in
  let add '(M', a) := (M', h ++ [Some a]) in
  match c with
  | WNull => (M, h ++ [None])
  | WEmpty => (M, h ++ [Some AEmpty])
  | WMake l => ({| leaves := leaves M ++ [l]; fresh := fresh M |}, h ++ [Some (ALeaf (length (leaves M)))])
  | WDefault b => ({| leaves := leaves M; fresh := S (fresh M) |}, h ++ [Some ((if b then ANoMeta else ANoSym) (fresh M) None)])
  | WNewMeta k => add (newNoMeta M (held h k))
  | WNewSym k => add (newNoSym M (held h k))
  | WNometa k => add (nometa M (held h k))
  | WNosymmetry k => add (nosymmetry M (held h k))
  | WClone k => match held h k with Some a => add (clone M a) | None => x end
  | WSource k => match held h k with Some (ANoMeta _ s) | Some (ANoSym _ s) => (M, h ++ [s]) | _ => x end
  | WChange p l => ({| leaves := upd p l (leaves M); fresh := fresh M |}, h)
  end.
Definition wrun (l : list wcall) : wstate := fold_left wstep l ({| leaves := []; fresh := O |}, []).
