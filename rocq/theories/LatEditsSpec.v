(** Specification for C112. *)
From Coq Require Import List.
From Verif Require Import RBase R3 Trig Sphere Lattice LatticeSpec BondGen BondGenSpec LatEdits.
Import ListNotations.
Open Scope R_scope.

(** the calls of a program *)
Definition lcalls (ops : list lop) : list gop := flat_map (fun o => match o with LCall c => [c] | SetLat _ => [] end) ops.
(** the lattice after a program *)
Definition lat_after (L : lattice) (ops : list lop) : lattice := fold_left (fun L o => match o with SetLat L' => L' | LCall _ => L end) ops L.
(** the lattices given are made of valid parameters *)
Definition lats_made (ops : list lop) : Prop := Forall (fun o => match o with SetLat L => lattice_made L | LCall _ => True end) ops.
(** The lattice for which the next loop chooses the translations: that of the first rewind after the limits were changed for the last time
    ([c] = Some), otherwise that of now. [X]: the settings in force. *)
Fixpoint chosen_with (X : settings) (L : lattice) (c : option lattice) (ops : list lop) : lattice :=
  match ops with
  | [] => match c with Some Lc => Lc | None => L end
  | SetLat L' :: r => chosen_with X L' c r
  | LCall o :: r =>
      chosen_with (set_step X o) L
        (match o with
         | SetRmin x => if Req_EM_T (s_rmin X) x then c else None
         | SetRmax x => if Req_EM_T (s_rmax X) x then c else None
         | Rewind => Some (match c with Some Lc => Lc | None => L end)
         | _ => c
         end) r
  end.
(** the translation T is that of a lattice point of [L] from rmin - B to rmax + B, B the longest diagonal of the unit cell of [L] *)
Definition near (L : lattice) (rmin rmax : R) (T : Z * Z * Z) : Prop :=
  rmin - ucMaxDiagonalLength L <= vnorm (translation L T) < rmax + ucMaxDiagonalLength L.
(** the crystal [S] with another lattice, the Cartesian positions kept *)
Definition with_lattice (S : stru) (L : lattice) : stru := {| spos := spos S; suij := suij S; slat := L; ssym := ssym S |}.
