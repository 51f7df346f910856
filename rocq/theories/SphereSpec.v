(** Specification for C18, C19, C22, in terms of the lattice only. *)
From Verif Require Import RBase.
From Coq Require Import Sorting.Sorted.
Open Scope R_scope.

(** Lengths, cosines and sines of a lattice cell with positive volume. *)
Record cell := { c_a : R; c_b : R; c_c : R; c_ca : R; c_cb : R; c_cg : R; c_sa : R; c_sb : R; c_sg : R }.
Definition gram (C : cell) : R :=
  1 + 2 * c_ca C * c_cb C * c_cg C - c_ca C * c_ca C - c_cb C * c_cb C - c_cg C * c_cg C.
Record cell_ok (C : cell) : Prop := {
  pos_a : 0 < c_a C; pos_b : 0 < c_b C; pos_c : 0 < c_c C;
  sin_a : 0 < c_sa C; sin_b : 0 < c_sb C; sin_g : 0 < c_sg C;
  pyt_a : c_sa C * c_sa C + c_ca C * c_ca C = 1;
  pyt_b : c_sb C * c_sb C + c_cb C * c_cb C = 1;
  pyt_g : c_sg C * c_sg C + c_cg C * c_cg C = 1;
  pos_V : 0 < gram C
}.

(** Squared length of the lattice vector m a + n b + o c. *)
Definition norm2 (C : cell) (p : Z * Z * Z) : R :=
  let '(m, n, o) := p in
  let x := IZR m in let y := IZR n in let z := IZR o in
  (x * c_a C) ^ 2 + (y * c_b C) ^ 2 + (z * c_c C) ^ 2
  + 2 * x * y * (c_a C * c_b C * c_cg C) + 2 * x * z * (c_a C * c_c C * c_cb C)
  + 2 * y * z * (c_b C * c_c C * c_ca C).

Definition lex (p q : Z * Z * Z) : Prop :=
  let '(m, n, o) := p in let '(m', n', o') := q in
  (m < m' \/ (m = m' /\ (n < n' \/ (n = n' /\ o < o'))))%Z.

(** The reciprocal cell: a* . a = 1 etc., i.e. the usual formulas. *)
Definition rec_cell (C : cell) : cell :=
  let V := sqrt (gram C) in
  {| c_a := c_sa C / (c_a C * V); c_b := c_sb C / (c_b C * V); c_c := c_sg C / (c_c C * V);
     c_ca := (c_cb C * c_cg C - c_ca C) / (c_sb C * c_sg C);
     c_cb := (c_ca C * c_cg C - c_cb C) / (c_sa C * c_sg C);
     c_cg := (c_ca C * c_cb C - c_cg C) / (c_sa C * c_sb C);
     c_sa := V / (c_sb C * c_sg C); c_sb := V / (c_sa C * c_sg C); c_sg := V / (c_sa C * c_sb C) |}.

(** Entries of the metric tensor G_ij = a_i . a_j of a cell. *)
Definition metric (C : cell) (i j : nat) : R :=
  match i, j with
  | O, O => c_a C * c_a C
  | O, S O | S O, O => c_a C * c_b C * c_cg C
  | O, _ | _, O => c_a C * c_c C * c_cb C
  | S O, S O => c_b C * c_b C
  | S O, _ | _, S O => c_b C * c_c C * c_ca C
  | _, _ => c_c C * c_c C
  end.
(** The reciprocal lattice in the crystallographer's sense: metric tensors are inverse to each other. *)
Definition reciprocal_cells (C D : cell) : Prop :=
  forall i j, (i < 3)%nat -> (j < 3)%nat ->
    metric C i 0 * metric D 0 j + metric C i 1 * metric D 1 j + metric C i 2 * metric D 2 j = if (i =? j)%nat then 1 else 0.

(** A concrete triclinic-like cell: a=3, b=4, c=5, cos = 0, 0, 3/5 *)
Definition cell_ex : cell := {| c_a := 3; c_b := 4; c_c := 5; c_ca := 0; c_cb := 0; c_cg := 3/5; c_sa := 1; c_sb := 1; c_sg := 4/5 |}.
Definition cell_cubic : cell := {| c_a := 1; c_b := 1; c_c := 1; c_ca := 0; c_cb := 0; c_cg := 0; c_sa := 1; c_sb := 1; c_sg := 1 |}.
