(** Specification for the functions that return references: what a call should deliver, and what it may change, in terms of values only *)
From Verif Require Import RBase R3 Trig Sphere Lattice R3Ref.
Import ListNotations.
Open Scope R_scope.

(** the memory cell of a returned reference *)
Definition answer (c : call) : cell + mcell :=
  match c with
  | CFloor _ => inl SFloor | CMxVec _ _ => inl SMxVec | CVecMx _ _ => inl SVecMx
  | CCartesian _ _ | CCartesianOf _ _ => inl SCart
  | CFractional _ _ | CFractionalOf _ _ => inl SFrac
  | CUcvCartesian _ _ | CUcvCartesianOf _ _ => inl SUcvCart
  | CUcvFractional _ | CUcvFractionalOf _ => inl SUcvFrac
  | CInverse _ => inr SInverse | CCartesianMatrix _ _ => inr SCart1 | CFractionalMatrix _ _ => inr SFrac1
  | CCopy n _ => inl (Var n) | CMCopy n _ => inr (MVar n)
  end.
Definition content (r : cell + mcell) (m : mem) : vec + mat :=
  match r with inl c => inl (vecs m c) | inr c => inr (mats m c) end.
Definition floor3 (v : vec) : vec := V3 (IZR (Rfloor (vx v))) (IZR (Rfloor (vy v))) (IZR (Rfloor (vz v))).
(** the value that the arguments call for *)
Definition expected (c : call) (m : mem) : vec + mat :=
  match c with
  | CFloor v => inl (floor3 (vecs m v))
  | CMxVec M u => inl (mv (mats m M) (vecs m u))
  | CVecMx u M => inl (vm (vecs m u) (mats m M))
  | CCartesian L v => inl (cartesian L (vecs m v)) | CCartesianOf L v => inl (cartesian L v)
  | CFractional L v => inl (fractional L (vecs m v)) | CFractionalOf L v => inl (fractional L v)
  | CUcvCartesian L v => inl (ucvCartesian L (vecs m v)) | CUcvCartesianOf L v => inl (ucvCartesian L v)
  | CUcvFractional v => inl (ucvFractional (vecs m v)) | CUcvFractionalOf v => inl (ucvFractional v)
  | CInverse A => inr (minv (mats m A))
  | CCartesianMatrix L A => inr (cartesianMatrix L (mats m A))
  | CFractionalMatrix L A => inr (fractionalMatrix L (mats m A))
  | CCopy n v => inl (vecs m v) | CMCopy n A => inr (mats m A)
  end.
(** the earlier results that a call invalidates *)
Definition spoils (c : call) : list (cell + mcell) :=
  match c with
  | CFloor _ => [inl SFloor] | CMxVec _ _ => [inl SMxVec] | CVecMx _ _ => [inl SVecMx]
  | CCartesian _ _ => [inl SCart; inl SVecMx] | CCartesianOf _ _ => [inl SCart; inl SVecMx; inl SCopyCart]
  | CFractional _ _ => [inl SFrac; inl SVecMx] | CFractionalOf _ _ => [inl SFrac; inl SVecMx; inl SCopyFrac]
  | CUcvFractional _ => [inl SUcvFrac; inl SFloor] | CUcvFractionalOf _ => [inl SUcvFrac; inl SFloor; inl SCopyUcvFrac]
  | CUcvCartesian _ _ => [inl SUcvCart; inl SUcvFrac; inl SFloor; inl SCart; inl SFrac; inl SVecMx]
  | CUcvCartesianOf _ _ => [inl SUcvCart; inl SUcvFrac; inl SFloor; inl SCart; inl SFrac; inl SVecMx; inl SCopyUcvCart]
  | CInverse _ => [inr SInverse] | CCartesianMatrix _ _ => [inr SCart0; inr SCart1] | CFractionalMatrix _ _ => [inr SFrac0; inr SFrac1]
  | CCopy n _ => [inl (Var n)] | CMCopy n _ => [inr (MVar n)]
  end.
(** the result of a product used as the argument of another product of the same kind *)
Definition nested (c : call) : Prop :=
  match c with
  | CMxVec _ u => u = SMxVec
  | CVecMx u _ => u = SVecMx
  | CCartesian _ u | CFractional _ u | CUcvCartesian _ u => u = SVecMx
  | _ => False
  end.
(** the inverse of a singular matrix has no value *)
Definition defined (c : call) (m : mem) : Prop := match c with CInverse A => det (mats m A) <> 0 | _ => True end.
(** a member of the lattice passed as an argument after it has been assigned *)
Definition overwritten (xb xc : barg) : Prop := xb = OwnA \/ xc = OwnA \/ xc = OwnB.
