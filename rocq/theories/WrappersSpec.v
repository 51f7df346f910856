(** Specification for C47: what wrappers have to answer. *)
From Coq Require Import String.
From Verif Require Import RBase R3 Trig Sphere Lattice BondGen BondGenSpec Sums Wrappers.
Import ListNotations.
Open Scope R_scope.
Notation length := List.length.

(** two adapters (each in its memory) with the same sites *)
Definition same_sites (M : wmem) (a : adapter) (M' : wmem) (b : adapter) : Prop :=
  countSites M a = countSites M' b /\ forall i,
  siteAtomType M a i = siteAtomType M' b i /\ siteCartesianPosition M a i = siteCartesianPosition M' b i /\
  siteOccupancy M a i = siteOccupancy M' b i /\ siteAnisotropy M a i = siteAnisotropy M' b i /\
  siteCartesianUij M a i = siteCartesianUij M' b i.
(** ... the same multiplicities, density and bonds *)
Definition same_symmetry (M : wmem) (a : adapter) (M' : wmem) (b : adapter) : Prop :=
  (forall i, siteMultiplicity M a i = siteMultiplicity M' b i) /\ totalOccupancy M a = totalOccupancy M' b /\
  numberDensity M a = numberDensity M' b /\ createBondGenerator M a = createBondGenerator M' b.
Definition same_all (M : wmem) (a : adapter) (M' : wmem) (b : adapter) : Prop :=
  same_sites M a M' b /\ same_symmetry M a M' b /\ customPQConfig M a = customPQConfig M' b.

Definition is_nometa (a : adapter) : Prop := match a with ANoMeta _ _ => True | _ => False end.
Definition is_nosym (a : adapter) : Prop := match a with ANoSym _ _ => True | _ => False end.
Definition source (a : adapter) : option adapter := match a with ANoMeta _ s | ANoSym _ s => s | _ => None end.
(** [b] is [a] or what it wraps, at any depth *)
Inductive within : adapter -> adapter -> Prop :=
| within_refl a : within a a
| within_src a s b : source a = Some s -> within s b -> within a b.
Fixpoint depth (a : adapter) : nat := match a with ANoMeta _ (Some s) | ANoSym _ (Some s) => S (depth s) | ANoMeta _ None | ANoSym _ None => 1 | _ => 0 end.

(** isolated atoms at the sites' positions *)
Definition isolated (M : wmem) (a : adapter) (g : gclass * stru) : Prop :=
  fst g = GAtomic /\ countSites M a = QOk (length (spos (snd g))) /\ length (suij (snd g)) = length (spos (snd g)) /\
  forall i, (i < length (spos (snd g)))%nat ->
    siteCartesianPosition M a i = QOk (nth i (spos (snd g)) vzero) /\ siteCartesianUij M a i = QOk (nth i (suij (snd g)) mid).
(** an adapter that a user can query: not a default-constructed wrapper around nothing *)
Definition usable (M : wmem) (a : adapter) : Prop := exists n, countSites M a = QOk n.
Definition change (M : wmem) (p : nat) (l : leaf) : wmem := {| leaves := upd p l (leaves M); fresh := fresh M |}.
