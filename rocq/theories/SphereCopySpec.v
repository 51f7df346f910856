(** Specification for iterators and their copies (C105): what each object should do, by itself. *)
From Verif Require Import RBase Sphere SphereCopy.
Open Scope R_scope.

(** The statements that make objects: the k-th of them makes the object with number k. *)
Definition makers (l : list iop) : list iop := filter (fun a => match a with INew _ _ _ | ICopy _ => true | _ => false end) l.
(** The object with number k was made by a constructor with its own arguments. *)
Definition constructed (l : list iop) (k : nat) (rmin rmax : R) (L : latpar) : Prop := nth_error (makers l) k = Some (INew rmin rmax L).
Definition copied (l : list iop) (k : nat) : Prop := exists j, nth_error (makers l) k = Some (ICopy j).
(** No copy is advanced or rewound. *)
Definition copies_idle (l : list iop) : Prop := forall k, copied l k -> ~ In (INext k) l /\ ~ In (IRewind k) l.
(** The calls for the object with number k: true for rewind, false for next. *)
Definition calls (k : nat) (l : list iop) : list bool :=
  flat_map (fun a => match a with INext j => if (j =? k)%nat then [false] else [] | IRewind j => if (j =? k)%nat then [true] else [] | _ => [] end) l.
(** A sphere by itself (Sphere.v): the constructor rewinds. *)
Fixpoint go_on (rmin rmax : R) (L : latpar) (fuel : nat) (c : list bool) (s : sph) : option sph :=
  match c with
  | [] => Some s
  | b :: r => match (if b then rewind rmin rmax L fuel else next_o rmin rmax L fuel s) with Some s' => go_on rmin rmax L fuel r s' | None => None end
  end.
Definition alone (rmin rmax : R) (L : latpar) (fuel : nat) (c : list bool) : option sph :=
  match rewind rmin rmax L fuel with Some s => go_on rmin rmax L fuel c s | None => None end.
(** the point the object with number k shows *)
Definition shown (w : list iter) (k : nat) : option point := option_map (fun i => mno (i_data i)) (nth_error w k).
Definition at_end (w : list iter) (k : nat) : option bool := option_map (fun i => finished (i_data i)) (nth_error w k).
