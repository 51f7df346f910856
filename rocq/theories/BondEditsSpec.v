(** Specification for C109. *)
From Coq Require Import List.
From Verif Require Import RBase R3 Trig Sphere Lattice BondGen BondGenSpec BondEdits.
Import ListNotations.
Open Scope R_scope.

(** the calls of a program, without the edits *)
Definition calls (ops : list eop) : list gop := flat_map (fun o => match o with Call c => [c] | Edit _ _ => [] end) ops.
(** the atoms after a program *)
Definition atoms_after (made : stru) (ops : list eop) : list vec * list mat :=
  fold_left (fun s o => match o with Edit p u => (p, u) | Call _ => s end) ops (spos made, suij made).
(** where the anchor was when it was selected for the last time *)
Fixpoint selected_at (p : list vec) (P : vec) (ops : list eop) : vec :=
  match ops with
  | [] => P
  | Edit p' _ :: r => selected_at p' P r
  | Call (SelAnchor a) :: r => selected_at p (nth a p vzero) r
  | Call _ :: r => selected_at p P r
  end.
(** the structure with other tensors *)
Definition with_tensors (S : stru) (u : list mat) : stru := {| spos := spos S; suij := u; slat := slat S; ssym := ssym S |}.
(** what an isolated structure shows for the k-th selected site, seen from the point P *)
Definition bond_from (P : vec) (a : nat) (sites : list nat) (p : list vec) (u : list mat) (k : nat) : bond :=
  let i := nth k sites O in let q := nth i p vzero in
  {| b_site0 := a; b_site1 := i; b_r0 := P; b_r1 := q; b_r01 := vsub q P; b_distance := vdist q P; b_u1 := nth i u mid |}.
(** [l]: what the loop shows *)
Definition loop_is (cls : gclass) (S : stru) (sph : R -> R -> list (Z * Z * Z)) (g : gen) (l : list bond) : Prop :=
  exists f0, forall f, (f0 <= f)%nat -> bonds cls S sph f g = Some l.
