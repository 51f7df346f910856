(** Proofs about the symmetry expansion. *)
From Coq Require Import String.
From Verif Require Import RBase R3 Trig Sphere Lattice LatticeSpec LatticeProofs Crystal CrystalSpec.
Import ListNotations.
Open Scope R_scope.
Notation length := List.length.

Lemma cart_sub L u v : vsub (cartesian L u) (cartesian L v) = cartesian L (vsub u v).
Proof. unfold cartesian. now rewrite vm_vsub. Qed.
Lemma cart_lin L u : consistent L -> cartesian L u = vadd (vscale (vx u) (Lva L)) (vadd (vscale (vy u) (Lvb L)) (vscale (vz u) (Lvc L))).
Proof.
  intros C. rewrite <- (k_va _ C), <- (k_vb _ C), <- (k_vc _ C). unfold cartesian. generalize (base L). intros M. vring.
Qed.
Lemma cs u v : Rabs (vdot u v) <= vnorm u * vnorm v.
Proof.
  pose proof (vnorm_nonneg u). pose proof (vnorm_nonneg v).
  apply Rsqr_incr_0; [|apply Rabs_pos|now apply Rmult_le_pos].
  rewrite <- Rsqr_abs. unfold Rsqr. pose proof (cauchy u v). rewrite <- !vnorm_sq in H1. nra.
Qed.
Lemma comp_bound L u : consistent L ->
  Rabs (vx u) <= vnorm (cartesian L u) * vnorm (Lvar L) /\ Rabs (vy u) <= vnorm (cartesian L u) * vnorm (Lvbr L) /\
  Rabs (vz u) <= vnorm (cartesian L u) * vnorm (Lvcr L).
Proof.
  intros C. destruct (k_rec _ C) as (H1 & H2 & H3 & H4 & H5 & H6 & H7 & H8 & H9). pose proof (cart_lin L u C) as E.
  assert (D : forall w, vdot (cartesian L u) w = vx u * vdot (Lva L) w + vy u * vdot (Lvb L) w + vz u * vdot (Lvc L) w).
  { intros w. rewrite E. generalize (Lva L) (Lvb L) (Lvc L). intros. vring. }
  repeat split.
  - eapply Rle_trans; [|apply cs]. rewrite D, H1, H4, H7. right. f_equal. ring.
  - eapply Rle_trans; [|apply cs]. rewrite D, H2, H5, H8. right. f_equal. ring.
  - eapply Rle_trans; [|apply cs]. rewrite D, H3, H6, H9. right. f_equal. ring.
Qed.

Lemma Rround_near x : Rabs (x - IZR (Rround x)) <= 1 / 2.
Proof.
  unfold Rround. destruct (Rleb 0 x) eqn:E.
  - pose proof (Rfloor_spec (x + 1 / 2)). apply Rabs_le. lra.
  - pose proof (Rceil_spec (x - 1 / 2)). apply Rabs_le. lra.
Qed.
Lemma Rround_unique x k : Rabs (x - IZR k) < 1 / 2 -> Rround x = k.
Proof.
  intros H. pose proof (Rround_near x). apply Rabs_def2 in H.
  assert (-1 < IZR (Rround x) - IZR k < 1).
  { revert H0. unfold Rabs. destruct (Rcase_abs _); intros; lra. }
  rewrite <- minus_IZR in H1. destruct H1 as [A B]. apply lt_IZR in A, B. lia.
Qed.

Lemma near_round L eps u v : consistent L -> fine L eps -> lnorm L (drnd u v) <= eps <-> near L eps u v.
Proof.
  intros C (E0 & E1 & E2 & E3). rewrite (k_norm _ C). split.
  - intros H. exists (Rround (vx u - vx v)), (Rround (vy u - vy v)), (Rround (vz u - vz v)).
    unfold vdist. rewrite cart_sub. replace (vsub u _) with (drnd u v); auto. unfold drnd, iv. destruct u as [u1 u2 u3], v as [v1 v2 v3]. unfold vsub, vadd. cbn [vx vy vz]. f_equal; ring.
  - intros (m & n & o & H). unfold vdist in H. rewrite cart_sub in H.
    set (w := vsub u (vadd v (iv m n o))) in *.
    destruct (comp_bound L w C) as (A & B & D).
    pose proof (vnorm_nonneg (Lvar L)). pose proof (vnorm_nonneg (Lvbr L)). pose proof (vnorm_nonneg (Lvcr L)).
    assert (A' : Rabs (vx w) < 1 / 2) by (eapply Rle_lt_trans; [exact A|]; eapply Rle_lt_trans; [apply Rmult_le_compat_r; [assumption|exact H]|assumption]).
    assert (B' : Rabs (vy w) < 1 / 2) by (eapply Rle_lt_trans; [exact B|]; eapply Rle_lt_trans; [apply Rmult_le_compat_r; [assumption|exact H]|assumption]).
    assert (D' : Rabs (vz w) < 1 / 2) by (eapply Rle_lt_trans; [exact D|]; eapply Rle_lt_trans; [apply Rmult_le_compat_r; [assumption|exact H]|assumption]).
    replace (drnd u v) with w; auto. unfold drnd. cbv zeta.
    subst w. destruct u as [u1 u2 u3], v as [v1 v2 v3]. unfold vsub, vadd, iv in *. cbn [vx vy vz] in *.
    rewrite (Rround_unique (u1 - v1) m), (Rround_unique (u2 - v2) n), (Rround_unique (u3 - v3) o).
    + f_equal; ring.
    + replace (u3 - v3 - IZR o) with (u3 - (v3 + IZR o)) by ring. exact D'.
    + replace (u2 - v2 - IZR n) with (u2 - (v2 + IZR n)) by ring. exact B'.
    + replace (u1 - v1 - IZR m) with (u1 - (v1 + IZR m)) by ring. exact A'.
Qed.
Lemma near_sym L d u v : near L d u v -> near L d v u.
Proof.
  intros (m & n & o & H). exists (- m)%Z, (- n)%Z, (- o)%Z. eapply Rle_trans; [|exact H]. right. unfold vdist. rewrite !cart_sub.
  rewrite <- (vnorm_opp (cartesian L _)). f_equal. unfold iv. rewrite !opp_IZR. unfold cartesian. destruct u, v. generalize (base L). intros M. vring.
Qed.
Lemma near_triangle L a b u v w : near L a u v -> near L b v w -> near L (a + b) u w.
Proof.
  intros (m & n & o & H) (m' & n' & o' & H'). exists (m + m')%Z, (n + n')%Z, (o + o')%Z.
  unfold vdist in *. rewrite cart_sub in *.
  replace (vsub u (vadd w (iv (m + m') (n + n') (o + o')))) with (vadd (vsub u (vadd v (iv m n o))) (vsub v (vadd w (iv m' n' o')))).
  - unfold cartesian in *. rewrite vm_vadd. eapply Rle_trans; [apply norm_triangle|]. lra.
  - unfold iv. rewrite !plus_IZR. destruct u, v, w. vring.
Qed.
Lemma near_mono L a b u v : a <= b -> near L a u v -> near L b u v.
Proof. intros H (m & n & o & K). exists m, n, o. lra. Qed.
Lemma vnorm_0 : vnorm vzero = 0.
Proof. unfold vnorm. replace (vdot vzero vzero) with 0; [apply sqrt_0|unfold vdot, vzero; cbn; ring]. Qed.
Lemma same_near L eps u v : 0 <= eps -> same_site u v -> near L eps u v.
Proof.
  intros H (m & n & o & ->). exists m, n, o. unfold vdist. rewrite cart_sub.
  replace (vsub _ _) with vzero by (destruct v; unfold iv; vring).
  replace (cartesian L vzero) with vzero by (unfold cartesian; generalize (base L); intros; vring). now rewrite vnorm_0.
Qed.
Lemma same_refl u : same_site u u.
Proof. exists 0%Z, 0%Z, 0%Z. destruct u. unfold iv. vring. Qed.
Lemma same_sym u v : same_site u v -> same_site v u.
Proof. intros (m & n & o & ->). exists (- m)%Z, (- n)%Z, (- o)%Z. unfold iv. rewrite !opp_IZR. destruct v. vring. Qed.
Lemma same_trans u v w : same_site u v -> same_site v w -> same_site u w.
Proof. intros (m & n & o & ->) (m' & n' & o' & ->). exists (m + m')%Z, (n + n')%Z, (o + o')%Z. unfold iv. rewrite !plus_IZR. destruct w. vring. Qed.

(** ** reduction to the unit cell *)
Lemma Rfloor_shift x k : Rfloor (x + IZR k) = (Rfloor x + k)%Z.
Proof.
  pose proof (Rfloor_spec x). apply Z.le_antisymm.
  - apply Z.lt_succ_r. apply Rfloor_lt. unfold Z.succ. rewrite !plus_IZR. lra.
  - apply Rfloor_le. rewrite plus_IZR. lra.
Qed.
Lemma snap_shift x k : snap (x + IZR k) = snap x.
Proof. unfold snap. rewrite Rfloor_shift, plus_IZR. now replace (x + IZR k - (IZR (Rfloor x) + IZR k)) with (x - IZR (Rfloor x)) by ring. Qed.
Lemma ucv_same u v : same_site u v -> ucvFractional u = ucvFractional v.
Proof. intros (m & n & o & ->). unfold ucvFractional, vadd, iv. cbn [vx vy vz]. now rewrite !snap_shift. Qed.
