(** Model of R3linalg: vectors and 3x3 matrices over R. Source: src/diffpy/srreal/R3linalg.hpp, R3linalg.cpp.
    determinant() and inverse() use GSL's LU decomposition; they are modelled by the determinant and by the inverse
    matrix they compute in exact arithmetic. Functions returning a reference to a static are modelled by value. *)
From Verif Require Import RBase.
Open Scope R_scope.

Record vec := V3 { vx : R; vy : R; vz : R }.
Record mat := M3 { x00 : R; x01 : R; x02 : R; x10 : R; x11 : R; x12 : R; x20 : R; x21 : R; x22 : R }.

Definition vadd u v := V3 (vx u + vx v) (vy u + vy v) (vz u + vz v).
Definition vsub u v := V3 (vx u - vx v) (vy u - vy v) (vz u - vz v).
Definition vscale (k : R) v := V3 (k * vx v) (k * vy v) (k * vz v).
Definition vzero := V3 0 0 0.
(** R3linalg.hpp:231-235 dot *)
Definition vdot u v := vx u * vx v + vy u * vy v + vz u * vz v.
(** R3linalg.hpp:213-217 norm *)
Definition vnorm u := sqrt (vdot u u).
(** R3linalg.hpp:220-228 distance *)
Definition vdist u v := vnorm (vsub u v).
(** R3linalg.hpp:238-246 cross *)
Definition vcross u v := V3 (vy u * vz v - vz u * vy v) (vz u * vx v - vx u * vz v) (vx u * vy v - vy u * vx v).
(** R3linalg.hpp:249-257 mxvecproduct(M, u) *)
Definition mv (M : mat) u := V3 (x00 M * vx u + x01 M * vy u + x02 M * vz u) (x10 M * vx u + x11 M * vy u + x12 M * vz u)
  (x20 M * vx u + x21 M * vy u + x22 M * vz u).
(** R3linalg.hpp:260-268 mxvecproduct(u, M) *)
Definition vm u (M : mat) := V3 (vx u * x00 M + vy u * x10 M + vz u * x20 M) (vx u * x01 M + vy u * x11 M + vz u * x21 M)
  (vx u * x02 M + vy u * x12 M + vz u * x22 M).
(** ublas prod, trans, row, column *)
Definition mm (A B : mat) : mat := M3
  (x00 A * x00 B + x01 A * x10 B + x02 A * x20 B) (x00 A * x01 B + x01 A * x11 B + x02 A * x21 B) (x00 A * x02 B + x01 A * x12 B + x02 A * x22 B)
  (x10 A * x00 B + x11 A * x10 B + x12 A * x20 B) (x10 A * x01 B + x11 A * x11 B + x12 A * x21 B) (x10 A * x02 B + x11 A * x12 B + x12 A * x22 B)
  (x20 A * x00 B + x21 A * x10 B + x22 A * x20 B) (x20 A * x01 B + x21 A * x11 B + x22 A * x21 B) (x20 A * x02 B + x21 A * x12 B + x22 A * x22 B).
Definition tr (A : mat) : mat := M3 (x00 A) (x10 A) (x20 A) (x01 A) (x11 A) (x21 A) (x02 A) (x12 A) (x22 A).
Definition row0 A := V3 (x00 A) (x01 A) (x02 A).
Definition row1 A := V3 (x10 A) (x11 A) (x12 A).
Definition row2 A := V3 (x20 A) (x21 A) (x22 A).
Definition col0 A := V3 (x00 A) (x10 A) (x20 A).
Definition col1 A := V3 (x01 A) (x11 A) (x21 A).
Definition col2 A := V3 (x02 A) (x12 A) (x22 A).
Definition rows (u v w : vec) : mat := M3 (vx u) (vy u) (vz u) (vx v) (vy v) (vz v) (vx w) (vy w) (vz w).
Definition cols (u v w : vec) : mat := M3 (vx u) (vx v) (vx w) (vy u) (vy v) (vy w) (vz u) (vz v) (vz w).
(** R3linalg.cpp:28-32 identity *)
Definition mid : mat := M3 1 0 0 0 1 0 0 0 1.
(** R3linalg.cpp:42-59 determinant *)
Definition det (A : mat) : R :=
  x00 A * (x11 A * x22 A - x12 A * x21 A) - x01 A * (x10 A * x22 A - x12 A * x20 A) + x02 A * (x10 A * x21 A - x11 A * x20 A).
Definition adj (A : mat) : mat := M3
  (x11 A * x22 A - x12 A * x21 A) (x02 A * x21 A - x01 A * x22 A) (x01 A * x12 A - x02 A * x11 A)
  (x12 A * x20 A - x10 A * x22 A) (x00 A * x22 A - x02 A * x20 A) (x02 A * x10 A - x00 A * x12 A)
  (x10 A * x21 A - x11 A * x20 A) (x01 A * x20 A - x00 A * x21 A) (x00 A * x11 A - x01 A * x10 A).
Definition mscale (k : R) (A : mat) : mat := M3 (k * x00 A) (k * x01 A) (k * x02 A) (k * x10 A) (k * x11 A) (k * x12 A) (k * x20 A) (k * x21 A) (k * x22 A).
(** R3linalg.cpp:62-82 inverse, for det <> 0 *)
Definition minv (A : mat) : mat := mscale (/ det A) (adj A).

Ltac vext := repeat match goal with v : vec |- _ => destruct v | A : mat |- _ => destruct A end.
Ltac vring := unfold vdist, vnorm; vext; unfold vadd, vsub, vscale, vzero, vdot, vcross, mv, vm, mm, tr, row0, row1, row2, col0, col1, col2, rows, cols, mid, det, adj, mscale, minv; cbn [vx vy vz x00 x01 x02 x10 x11 x12 x20 x21 x22]; first [ring | f_equal; ring | idtac].

Lemma mm_assoc A B D : mm A (mm B D) = mm (mm A B) D. Proof. vring. Qed.
Lemma mm_id_l A : mm mid A = A. Proof. vring. Qed.
Lemma mm_id_r A : mm A mid = A. Proof. vring. Qed.
Lemma tr_mm A B : tr (mm A B) = mm (tr B) (tr A). Proof. vring. Qed.
Lemma tr_tr A : tr (tr A) = A. Proof. vring. Qed.
Lemma tr_id : tr mid = mid. Proof. vring. Qed.
Lemma vm_mm u A B : vm (vm u A) B = vm u (mm A B). Proof. vring. Qed.
Lemma vm_id u : vm u mid = u. Proof. vring. Qed.
Lemma vm_mv u A : vm u A = mv (tr A) u. Proof. vring. Qed.
Lemma det_mm A B : det (mm A B) = det A * det B. Proof. vring. Qed.
Lemma det_tr A : det (tr A) = det A. Proof. vring. Qed.
Lemma det_id : det mid = 1. Proof. vring. Qed.
Lemma dot_vm u v A : vdot (vm u A) (vm v A) = vdot u (mv (mm A (tr A)) v). Proof. vring. Qed.
Lemma vdot_comm u v : vdot u v = vdot v u. Proof. vring. Qed.
Lemma vm_vadd u v A : vm (vadd u v) A = vadd (vm u A) (vm v A). Proof. vring. Qed.
Lemma vm_vsub u v A : vm (vsub u v) A = vsub (vm u A) (vm v A). Proof. vring. Qed.
Lemma rows_eq A : rows (row0 A) (row1 A) (row2 A) = A. Proof. now destruct A. Qed.
Lemma adj_r A : mm A (adj A) = mscale (det A) mid. Proof. vring. Qed.
Lemma adj_l A : mm (adj A) A = mscale (det A) mid. Proof. vring. Qed.
Lemma mm_scale_r k A B : mm A (mscale k B) = mscale k (mm A B). Proof. vring. Qed.
Lemma mm_scale_l k A B : mm (mscale k A) B = mscale k (mm A B). Proof. vring. Qed.
Lemma mscale_mscale a b A : mscale a (mscale b A) = mscale (a * b) A. Proof. vring. Qed.
Lemma mscale_1 A : mscale 1 A = A. Proof. vring. Qed.
Lemma inv_r A : det A <> 0 -> mm A (minv A) = mid.
Proof. intros H. unfold minv. rewrite mm_scale_r, adj_r, mscale_mscale, Rinv_l by auto. apply mscale_1. Qed.
Lemma inv_l A : det A <> 0 -> mm (minv A) A = mid.
Proof. intros H. unfold minv. rewrite mm_scale_l, adj_l, mscale_mscale, Rinv_l by auto. apply mscale_1. Qed.
Lemma vdot_nonneg u : 0 <= vdot u u.
Proof. vring. nra. Qed.
Lemma vnorm_nonneg u : 0 <= vnorm u. Proof. apply sqrt_pos. Qed.
Lemma vnorm_sq u : vnorm u * vnorm u = vdot u u. Proof. apply sqrt_sqrt, vdot_nonneg. Qed.
Lemma cauchy u v : vdot u v * vdot u v <= vdot u u * vdot v v.
Proof.
  enough (0 <= vdot (vcross u v) (vcross u v)) by (replace (vdot u u * vdot v v) with (vdot u v * vdot u v + vdot (vcross u v) (vcross u v)) by vring; lra).
  apply vdot_nonneg.
Qed.
Lemma norm_triangle u v : vnorm (vadd u v) <= vnorm u + vnorm v.
Proof.
  assert (E : vdot (vadd u v) (vadd u v) = vdot u u + 2 * vdot u v + vdot v v) by vring.
  pose proof (vnorm_nonneg u). pose proof (vnorm_nonneg v). pose proof (vnorm_nonneg (vadd u v)).
  pose proof (vnorm_sq u). pose proof (vnorm_sq v). pose proof (vnorm_sq (vadd u v)).
  pose proof (cauchy u v) as HC.
  assert (HP : 0 <= vnorm u * vnorm v) by nra.
  assert (HQ : (vnorm u * vnorm v) * (vnorm u * vnorm v) = vdot u u * vdot v v) by (rewrite <- H2, <- H3; ring).
  assert (HB : vdot u v <= vnorm u * vnorm v) by (apply Rnot_lt_le; intros HL; nra). nra.
Qed.
Lemma vnorm_opp u : vnorm (vsub vzero u) = vnorm u.
Proof. unfold vnorm. f_equal. vring. Qed.
