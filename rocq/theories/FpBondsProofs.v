(** Proofs for FpBonds.v: rounding errors of distances. *)
From Flocq Require Import Core.
From Coq Require Import Reals Lra Lia.
From Verif Require Import RBase R3 Fp FpGrid FpGridProofs FpTol FpAngle FpAngleProofs FpSphere FpSphereSpec FpSphereProofs FpBonds FpBondsLoop FpBondsSpec.
From Verif Require BondGenProofs FpTolProps.
Import ListNotations.
Open Scope R_scope.

Lemma comp_norm d : Rabs (vx d) <= vnorm d /\ Rabs (vy d) <= vnorm d /\ Rabs (vz d) <= vnorm d.
Proof. destruct d as [x y z]. exact (BondGenProofs.comp_le x y z). Qed.
Lemma norm_sum d : vnorm d <= size1 d.
Proof.
  destruct d as [x y z]. unfold size1, vnorm, vdot. cbn [vx vy vz]. pose proof (Rabs_pos x). pose proof (Rabs_pos y). pose proof (Rabs_pos z).
  rewrite <- (sqrt_Rsqr (Rabs x + Rabs y + Rabs z)) by lra. apply sqrt_le_1_alt. unfold Rsqr.
  rewrite <- (Rabs_right (x * x)), <- (Rabs_right (y * y)), <- (Rabs_right (z * z)) by (apply Rle_ge; apply sq_nonneg). rewrite !Rabs_mult. nra.
Qed.
Lemma norm_diff p q : Rabs (vnorm p - vnorm q) <= vnorm (vsub p q).
Proof.
  assert (E1 : p = vadd q (vsub p q)) by (destruct p as [p1 p2 p3], q as [q1 q2 q3]; unfold vadd, vsub; cbn [vx vy vz]; f_equal; ring).
  assert (E2 : vnorm (vsub q p) = vnorm (vsub p q)) by (unfold vnorm; f_equal; destruct p as [p1 p2 p3], q as [q1 q2 q3]; unfold vdot, vsub; cbn [vx vy vz]; ring).
  assert (E3 : q = vadd p (vsub q p)) by (destruct p as [p1 p2 p3], q as [q1 q2 q3]; unfold vadd, vsub; cbn [vx vy vz]; f_equal; ring).
  pose proof (norm_triangle q (vsub p q)) as H1. rewrite <- E1 in H1. pose proof (norm_triangle p (vsub q p)) as H2. rewrite <- E3 in H2. rewrite E2 in H2.
  apply Rabs_le. lra.
Qed.
(** the machine's norm, also of very short vectors *)
Lemma short_norm x : vnorm x <= bpow radix2 (-400) -> 0 <= fp_norm x <= bpow radix2 (-398).
Proof.
  intros H. pose proof (comp_norm x) as (C1 & C2 & C3).
  assert (Q : forall t, Rabs t <= vnorm x -> 0 <= rnd (t * t) <= bpow radix2 (-800)).
  { intros t Ht. split; [apply rnd_nonneg, sq_nonneg|]. apply rnd_le_dbl; [|apply dbl_bpow; lia].
    replace (bpow radix2 (-800)) with (bpow radix2 (-400) * bpow radix2 (-400)) by (rewrite <- bpow_plus; reflexivity).
    replace (t * t) with (Rabs t * Rabs t) by (rewrite <- Rabs_mult; apply Rabs_pos_eq, sq_nonneg). pose proof (Rabs_pos t). apply Rmult_le_compat; lra. }
  unfold fp_norm, fp_dot. pose proof (Q _ C1). pose proof (Q _ C2). pose proof (Q _ C3). clear Q.
  set (a := rnd (vx x * vx x)) in *. set (b := rnd (vy x * vy x)) in *. set (c := rnd (vz x * vz x)) in *.
  assert (E : bpow radix2 (-799) = 2 * bpow radix2 (-800)) by (change (-799)%Z with (1 + -800)%Z; rewrite bpow_plus; cbn; ring).
  assert (E' : bpow radix2 (-798) = 2 * bpow radix2 (-799)) by (change (-798)%Z with (1 + -799)%Z; rewrite bpow_plus; cbn; ring).
  assert (E'' : bpow radix2 (-796) = 4 * bpow radix2 (-798)) by (change (-796)%Z with (2 + -798)%Z; rewrite bpow_plus; cbn; ring).
  assert (AB : 0 <= rnd (a + b) <= bpow radix2 (-799)) by (split; [apply rnd_nonneg; lra|apply rnd_le_dbl; [lra|apply dbl_bpow; lia]]).
  assert (ABC : 0 <= rnd (rnd (a + b) + c) <= bpow radix2 (-798)) by (split; [apply rnd_nonneg; lra|apply rnd_le_dbl; [lra|apply dbl_bpow; lia]]).
  set (s := rnd (rnd (a + b) + c)) in *. split; [apply rnd_nonneg, sqrt_pos|]. apply rnd_le_dbl; [|apply dbl_bpow; lia].
  pose proof (bpow_ge_0 radix2 (-398)) as P. rewrite <- (sqrt_square (bpow radix2 (-398)) P), <- bpow_plus. apply sqrt_le_1_alt. change (-398 + -398)%Z with (-796)%Z.
  pose proof (bpow_ge_0 radix2 (-798)). lra.
Qed.
Lemma norm_abs x W : vdbl x -> bpow radix2 (-300) <= W -> vnorm x <= W -> Rabs (fp_norm x - vnorm x) <= 2 * v * W.
Proof.
  intros DX HW HX. pose proof (vnorm_nonneg x) as N0. destruct (Rle_lt_dec (bpow radix2 (-400)) (vnorm x)) as [H|H].
  - destruct (norm_err x DX H) as [_ E]. unfold u in E. lra.
  - destruct (short_norm x ltac:(lra)) as [A B]. assert (E : bpow radix2 (-398) <= v * bpow radix2 (-300)).
    { replace v with (bpow radix2 (-52)) by (cbn; lra). rewrite <- bpow_plus. apply bpow_le. lia. }
    assert (E2 : bpow radix2 (-400) <= bpow radix2 (-398)) by (apply bpow_le; lia). apply Rabs_le. lra.
Qed.

Lemma rb2 x M : Rabs x <= M -> bpow radix2 (-300) <= M -> Rabs (rnd x - x) <= v * M.
Proof. intros H1 H2. apply rb; [exact H1|]. apply Rle_trans with (bpow radix2 (-300)); [apply bpow_le; lia|exact H2]. Qed.
(** one component of mrcsphere + position - mr0 *)
Lemma comp_err W p q r h g : bpow radix2 (-300) <= W -> Rabs p + Rabs q + Rabs r + Rabs h + Rabs g <= W ->
  Rabs (rnd (rnd (rnd (rnd (rnd p + rnd q) + rnd r) + h) - g) - (p + q + r + (h - g))) <= 9 * v * W.
Proof.
  intros HW HS. pose proof (bpow_gt_0 radix2 (-300)) as P. pose proof (Rabs_pos p). pose proof (Rabs_pos q). pose proof (Rabs_pos r). pose proof (Rabs_pos h). pose proof (Rabs_pos g).
  assert (A1 := rb2 p W ltac:(lra) HW). assert (A2 := rb2 q W ltac:(lra) HW). assert (A3 := rb2 r W ltac:(lra) HW).
  assert (B : forall x, - Rabs x <= x <= Rabs x) by (intros x; pose proof (Rle_abs x); pose proof (Rle_abs (- x)) as Hx; rewrite Rabs_Ropp in Hx; lra).
  pose proof (B p). pose proof (B q). pose proof (B r). pose proof (B h). pose proof (B g). apply Rabs_le_inv in A1, A2, A3.
  assert (W2 : bpow radix2 (-300) <= (1 + 8 * v) * W) by lra.
  set (p' := rnd p) in *. set (q' := rnd q) in *. set (r' := rnd r) in *.
  assert (A4 := rb2 (p' + q') ((1 + 8 * v) * W) ltac:(apply Rabs_le; lra) W2). apply Rabs_le_inv in A4. set (s := rnd (p' + q')) in *.
  assert (A5 := rb2 (s + r') ((1 + 8 * v) * W) ltac:(apply Rabs_le; lra) W2). apply Rabs_le_inv in A5. set (t := rnd (s + r')) in *.
  assert (A6 := rb2 (t + h) ((1 + 8 * v) * W) ltac:(apply Rabs_le; lra) W2). apply Rabs_le_inv in A6. set (w := rnd (t + h)) in *.
  assert (A7 := rb2 (w - g) ((1 + 8 * v) * W) ltac:(apply Rabs_le; lra) W2). apply Rabs_le_inv in A7. apply Rabs_le. lra.
Qed.

Section Periodic.
  Context (S : fp_stru) (a : nat) (sel : list nat).
  Notation r01m := (i_r01 true S a sel).
  Lemma r01_err k T : let j := nth k sel O in let W := extent S a j T + bpow radix2 (-300) in let d := apart S a j T in
    Rabs (vx (r01m (k, T)) - vx d) <= 9 * v * W /\ Rabs (vy (r01m (k, T)) - vy d) <= 9 * v * W /\ Rabs (vz (r01m (k, T)) - vz d) <= 9 * v * W /\
    vnorm d <= W.
  Proof.
    cbv zeta. destruct T as [[m n] o]. unfold i_r01, i_r1. cbn [fst snd pvec]. unfold fp_site. set (j := nth k sel O).
    unfold apart, lattice_vec, extent, fp_vm, vm, row0, row1, row2. set (h := fp_home true S j). set (g := fp_home true S a).
    set (M := p_base S). unfold size1, vadd, vsub. cbn [vx vy vz].
    assert (AM : forall z x, Rabs (IZR z * x) = Rabs (IZR z) * Rabs x) by (intros; apply Rabs_mult).
    set (Mm := Rabs (IZR m)). set (Nn := Rabs (IZR n)). set (Oo := Rabs (IZR o)).
    pose proof (Rabs_pos (IZR m)) as P1. pose proof (Rabs_pos (IZR n)) as P2. pose proof (Rabs_pos (IZR o)) as P3. fold Mm in P1. fold Nn in P2. fold Oo in P3.
    assert (PP : forall z x, 0 <= z -> 0 <= z * Rabs x) by (intros; apply Rmult_le_pos; [assumption|apply Rabs_pos]).
    pose proof (PP _ (x00 M) P1). pose proof (PP _ (x01 M) P1). pose proof (PP _ (x02 M) P1).
    pose proof (PP _ (x10 M) P2). pose proof (PP _ (x11 M) P2). pose proof (PP _ (x12 M) P2).
    pose proof (PP _ (x20 M) P3). pose proof (PP _ (x21 M) P3). pose proof (PP _ (x22 M) P3).
    pose proof (Rabs_pos (vx h)). pose proof (Rabs_pos (vy h)). pose proof (Rabs_pos (vz h)).
    pose proof (Rabs_pos (vx g)). pose proof (Rabs_pos (vy g)). pose proof (Rabs_pos (vz g)).
    pose proof (bpow_ge_0 radix2 (-300)) as P.
    set (W := _ + bpow radix2 (-300)).
    assert (HW : bpow radix2 (-300) <= W) by (unfold W; lra).
    split; [apply comp_err; [exact HW|rewrite !AM; fold Mm Nn Oo; unfold W; lra]|].
    split; [apply comp_err; [exact HW|rewrite !AM; fold Mm Nn Oo; unfold W; lra]|].
    split; [apply comp_err; [exact HW|rewrite !AM; fold Mm Nn Oo; unfold W; lra]|].
    eapply Rle_trans; [apply norm_sum|]. unfold size1. cbn [vx vy vz].
    assert (T4 : forall p q r s t, Rabs (p + q + r + (s - t)) <= Rabs p + Rabs q + Rabs r + Rabs s + Rabs t).
    { intros. assert (B : forall x, - Rabs x <= x <= Rabs x) by (intros x; pose proof (Rle_abs x); pose proof (Rle_abs (- x)) as Hx; rewrite Rabs_Ropp in Hx; lra).
      pose proof (B p). pose proof (B q). pose proof (B r). pose proof (B s). pose proof (B t). apply Rabs_le. lra. }
    eapply Rle_trans; [apply Rplus_le_compat; [apply Rplus_le_compat; apply T4|apply T4]|]. rewrite !AM. fold Mm Nn Oo. unfold W. lra.
  Qed.
  Lemma extent_pos j T : 0 <= extent S a j T.
  Proof.
    destruct T as [[m n] o]. unfold extent. assert (P : forall w, 0 <= size1 w) by (intros w; unfold size1; pose proof (Rabs_pos (vx w)); pose proof (Rabs_pos (vy w)); pose proof (Rabs_pos (vz w)); lra).
    pose proof (Rmult_le_pos _ _ (Rabs_pos (IZR m)) (P (row0 (p_base S)))). pose proof (Rmult_le_pos _ _ (Rabs_pos (IZR n)) (P (row1 (p_base S)))).
    pose proof (Rmult_le_pos _ _ (Rabs_pos (IZR o)) (P (row2 (p_base S)))). pose proof (P (fp_home true S j)). pose proof (P (fp_home true S a)). lra.
  Qed.
  Lemma dist_err k T : let j := nth k sel O in Rabs (fp_norm (r01m (k, T)) - vnorm (apart S a j T)) <= tol S a j T.
  Proof.
    cbv zeta. pose proof (r01_err k T) as E. cbv zeta in E. set (j := nth k sel O) in *. pose proof (extent_pos j T) as EP. unfold tol. set (W := extent S a j T + bpow radix2 (-300)) in *.
    set (d := apart S a j T) in *. set (r := r01m (k, T)) in *. destruct E as (E1 & E2 & E3 & E4). pose proof (bpow_gt_0 radix2 (-300)) as P.
    assert (HW : bpow radix2 (-300) <= W) by (unfold W; lra).
    assert (ND : vnorm (vsub r d) <= 27 * v * W). { eapply Rle_trans; [apply norm_sum|]. unfold size1, vsub. cbn [vx vy vz]. lra. }
    pose proof (norm_diff r d) as H1. apply Rabs_le_inv in H1.
    assert (DR : vdbl r) by (repeat split; apply rnd_dbl).
    assert (H2 := norm_abs r (2 * W) DR ltac:(lra) ltac:(lra)). apply Rabs_le_inv in H2. apply Rabs_le. lra.
  Qed.
  Lemma comp_tol k T : let j := nth k sel O in let d := apart S a j T in let r := r01m (k, T) in let t := tol S a j T in
    Rabs (vx r - vx d) <= t /\ Rabs (vy r - vy d) <= t /\ Rabs (vz r - vz d) <= t.
  Proof.
    cbv zeta. pose proof (r01_err k T) as E. cbv zeta in E. set (j := nth k sel O) in *. pose proof (extent_pos j T) as EP. unfold tol. set (W := extent S a j T + bpow radix2 (-300)) in *.
    destruct E as (E1 & E2 & E3 & E4). pose proof (bpow_gt_0 radix2 (-300)) as P. assert (HW : 0 < W) by (unfold W; lra). repeat split; lra.
  Qed.
  Lemma self_test x : dbl x -> 0 <= x -> fp_eps_eq x 0 FP_SQRT_EPS = Rleb x (/ 67108864).
  Proof. intros D H. rewrite FpTolProps.C97_tolerance. unfold fp_eps_eq. rewrite Rminus_0_r, rnd_id by exact D. now rewrite Rabs_pos_eq. Qed.
  Lemma norm_ok r : dbl (fp_norm r) /\ 0 <= fp_norm r.
  Proof. split; [apply rnd_dbl|apply rnd_nonneg, sqrt_pos]. Qed.

  Theorem valid_complete rmin rmax k T : let j := nth k sel O in
    within (tol S a j T) rmin rmax (vnorm (apart S a j T)) -> i_valid true S a sel rmin rmax (k, T) = true.
  Proof.
    cbv zeta. pose proof (dist_err k T) as E. pose proof (comp_tol k T) as C. cbv zeta in E, C. set (j := nth k sel O) in *.
    set (d := apart S a j T) in *. pose proof (comp_norm d) as (C1 & C2 & C3). intros [[H1 H2] H3].
    destruct (norm_ok (r01m (k, T))) as [N1 N2]. unfold i_valid. rewrite self_test by assumption. set (r := r01m (k, T)) in *. set (t := tol S a j T) in *.
    destruct C as (G1 & G2 & G3). apply Rabs_le_inv in E.
    assert (TR : forall p q, Rabs (p - q) <= t -> Rabs q <= vnorm d -> Rabs p <= rmax).
    { intros p q A B. apply Rabs_le_inv in A, B. apply Rabs_le. lra. }
    rewrite !andb_true_iff, negb_true_iff. repeat split; try (apply Rleb_true; eauto; lra).
    destruct (Rleb (fp_norm r) (/ 67108864)) eqn:B; [|reflexivity]. apply Rleb_true in B. lra.
  Qed.
  Theorem valid_sound rmin rmax k T : let j := nth k sel O in
    i_valid true S a sel rmin rmax (k, T) = true -> within (- tol S a j T) rmin rmax (vnorm (apart S a j T)).
  Proof.
    cbv zeta. pose proof (dist_err k T) as E. cbv zeta in E. set (j := nth k sel O) in *. intros H.
    destruct (norm_ok (r01m (k, T))) as [N1 N2]. unfold i_valid in H. rewrite self_test in H by assumption. rewrite !andb_true_iff, negb_true_iff in H.
    destruct H as (((((_ & _) & _) & H1) & H2) & H3). apply Rleb_true in H1, H2.
    assert (H4 : / 67108864 < fp_norm (r01m (k, T))). { destruct (Rlt_le_dec (/ 67108864) (fp_norm (r01m (k, T)))) as [X|X]; [exact X|]. apply Rleb_true in X. congruence. }
    apply Rabs_le_inv in E. unfold within. lra.
  Qed.
End Periodic.
