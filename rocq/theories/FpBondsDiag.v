(** Bonds in double arithmetic: the longest diagonal of the cell. *)
From Flocq Require Import Core.
From Coq Require Import Reals Lra Lia Psatz.
From Verif Require Import RBase R3 Fp FpGrid FpAngle FpSphere FpSphereProofs FpBonds FpBondsSpec FpBondsExample.
Import ListNotations.
Open Scope R_scope.

Lemma six_err G a0 a1 a2 a3 a4 a5 : bpow radix2 (-300) <= G -> Rabs a0 + Rabs a1 + Rabs a2 + Rabs a3 + Rabs a4 + Rabs a5 <= G ->
  Rabs (rnd (rnd (rnd (rnd (rnd (rnd a0 + rnd a1) + rnd a2) + rnd a3) + rnd a4) + rnd a5) - (a0 + a1 + a2 + a3 + a4 + a5)) <= / 100000000000000 * G.
Proof.
  intros HG H. pose proof (bpow_gt_0 radix2 (-300)) as P. assert (HG2 : bpow radix2 (-1000) <= 2 * G). { assert (bpow radix2 (-1000) <= bpow radix2 (-300)) by (apply bpow_le; lia). lra. }
  assert (RB : forall x, - (2 * G) <= x <= 2 * G -> - (/ 2000000000000000 * G) <= rnd x - x <= / 2000000000000000 * G).
  { intros x Hx. assert (B : Rabs (rnd x - x) <= FpSphereProofs.v * (2 * G)) by (apply rb; [apply Rabs_le; lra|exact HG2]). apply Rabs_le_inv in B. lra. }
  set (w := / 2000000000000000 * G) in *. assert (W : 20 * w <= / 100000000000000 * G /\ 100 * w <= G /\ 0 <= w) by (unfold w; lra). clearbody w. destruct W as (W1 & W2 & W3).
  assert (A : forall x, - Rabs x <= x <= Rabs x /\ 0 <= Rabs x).
  { intros x. pose proof (Rle_abs x). pose proof (Rle_abs (- x)) as N. rewrite Rabs_Ropp in N. pose proof (Rabs_pos x). lra. }
  pose proof (A a0). pose proof (A a1). pose proof (A a2). pose proof (A a3). pose proof (A a4). pose proof (A a5).
  set (b0 := Rabs a0) in *. set (b1 := Rabs a1) in *. set (b2 := Rabs a2) in *. set (b3 := Rabs a3) in *. set (b4 := Rabs a4) in *. set (b5 := Rabs a5) in *. clearbody b0 b1 b2 b3 b4 b5. clear A.
  pose proof (RB a0 ltac:(lra)) as E0. pose proof (RB a1 ltac:(lra)) as E1. pose proof (RB a2 ltac:(lra)) as E2. pose proof (RB a3 ltac:(lra)) as E3. pose proof (RB a4 ltac:(lra)) as E4. pose proof (RB a5 ltac:(lra)) as E5.
  set (t0 := rnd a0) in *. set (t1 := rnd a1) in *. set (t2 := rnd a2) in *. set (t3 := rnd a3) in *. set (t4 := rnd a4) in *. set (t5 := rnd a5) in *. clearbody t0 t1 t2 t3 t4 t5.
  pose proof (RB (t0 + t1) ltac:(lra)) as F1. set (s1 := rnd (t0 + t1)) in *. clearbody s1.
  pose proof (RB (s1 + t2) ltac:(lra)) as F2. set (s2 := rnd (s1 + t2)) in *. clearbody s2.
  pose proof (RB (s2 + t3) ltac:(lra)) as F3. set (s3 := rnd (s2 + t3)) in *. clearbody s3.
  pose proof (RB (s3 + t4) ltac:(lra)) as F4. set (s4 := rnd (s3 + t4)) in *. clearbody s4.
  pose proof (RB (s4 + t5) ltac:(lra)) as F5. set (s5 := rnd (s4 + t5)) in *. clearbody s5.
  apply Rabs_le. lra.
Qed.
Lemma sign_mul s t : s = 1 \/ s = -1 -> t = 1 \/ t = -1 -> s * t = 1 \/ s * t = -1.
Proof. intros [-> | ->] [-> | ->]; lra. Qed.
Lemma sign_rnd s : s = 1 \/ s = -1 -> rnd s = s.
Proof. intros [-> | ->]; apply rnd_id, dbl_Z; lia. Qed.
Lemma sign_twice s : s = 1 \/ s = -1 -> rnd (s + s) = 2 * s.
Proof.
  intros [-> | ->].
  - replace (1 + 1) with 2 by ring. rewrite rnd_id by (apply (dbl_Z 2); lia). ring.
  - replace (-1 + -1) with (-2) by ring. rewrite rnd_id by (apply (dbl_Z (-2)); lia). ring.
Qed.
Lemma sign_abs s x : s = 1 \/ s = -1 -> Rabs (s * x) = Rabs x.
Proof. intros [-> | ->]; [now rewrite Rmult_1_l|]. replace (-1 * x) with (- x) by ring. apply Rabs_Ropp. Qed.
Lemma ldot_err M w : corner w -> bpow radix2 (-300) <= msize M -> Rabs (fp_ldot M w w - quad M w) <= / 100000000000000 * msize M.
Proof.
  intros (Hx & Hy & Hz) HG. unfold fp_ldot.
  rewrite (Rmult_comm (vy w) (vx w)), (Rmult_comm (vz w) (vx w)), (Rmult_comm (vz w) (vy w)).
  pose proof (sign_mul _ _ Hx Hy) as Sxy. pose proof (sign_mul _ _ Hx Hz) as Sxz. pose proof (sign_mul _ _ Hy Hz) as Syz.
  rewrite (sign_rnd _ (sign_mul _ _ Hx Hx)), (sign_rnd _ (sign_mul _ _ Hy Hy)), (sign_rnd _ (sign_mul _ _ Hz Hz)).
  rewrite (sign_rnd _ Sxy), (sign_rnd _ Sxz), (sign_rnd _ Syz), (sign_twice _ Sxy), (sign_twice _ Sxz), (sign_twice _ Syz).
  eapply Rle_trans; [|apply (six_err (msize M) (vx w * vx w * g00 M) (vy w * vy w * g11 M) (vz w * vz w * g22 M) (2 * (vx w * vy w) * g01 M) (2 * (vx w * vz w) * g02 M) (2 * (vy w * vz w) * g12 M) HG)].
  - unfold quad. apply Req_le. f_equal. ring.
  - unfold msize. rewrite !Rmult_assoc, (Rabs_mult 2), (Rabs_mult 2), (Rabs_mult 2), (Rabs_pos_eq 2) by lra.
    repeat rewrite sign_abs by assumption. lra.
Qed.
Definition cells : list vec := [V3 1 1 1; V3 (-1) 1 1; V3 1 (-1) 1; V3 1 1 (-1)].
Lemma cells_corner w : In w cells -> corner w.
Proof. unfold corner. cbn. intros [<-|[<-|[<-|[<-|[]]]]]; cbn [vx vy vz]; auto. Qed.
Lemma corner_cells w M : corner w -> exists w', In w' cells /\ quad M w = quad M w'.
Proof.
  destruct w as [x y z]. intros (Hx & Hy & Hz). cbn [vx vy vz] in *.
  assert (E : forall w', (vx w' = x /\ vy w' = y /\ vz w' = z) \/ (vx w' = - x /\ vy w' = - y /\ vz w' = - z) -> quad M (V3 x y z) = quad M w').
  { intros w' H. unfold quad. cbn [vx vy vz]. destruct H as [(E1 & E2 & E3)|(E1 & E2 & E3)]; rewrite E1, E2, E3; ring. }
  destruct Hx as [-> | ->], Hy as [-> | ->], Hz as [-> | ->].
  - exists (V3 1 1 1). split; [cbn; auto|apply E; cbn [vx vy vz]; lra].
  - exists (V3 1 1 (-1)). split; [cbn; auto|apply E; cbn [vx vy vz]; lra].
  - exists (V3 1 (-1) 1). split; [cbn; auto|apply E; cbn [vx vy vz]; lra].
  - exists (V3 (-1) 1 1). split; [cbn; auto|apply E; cbn [vx vy vz]; lra].
  - exists (V3 (-1) 1 1). split; [cbn; auto|apply E; cbn [vx vy vz]; lra].
  - exists (V3 1 (-1) 1). split; [cbn; auto|apply E; cbn [vx vy vz]; lra].
  - exists (V3 1 1 (-1)). split; [cbn; auto|apply E; cbn [vx vy vz]; lra].
  - exists (V3 1 1 1). split; [cbn; auto|apply E; cbn [vx vy vz]; lra].
Qed.
Lemma fold_max_in (f : vec -> R) l : forall m, (forall x, In x l -> f x <= fold_left (fun m u => let x := f u in if Rltb m x then x else m) l m) /\
  (fold_left (fun m u => let x := f u in if Rltb m x then x else m) l m = m \/ exists x, In x l /\ fold_left (fun m u => let x := f u in if Rltb m x then x else m) l m = f x).
Proof.
  induction l as [|y l IH]; intros m; [split; [intros x []|now left]|]. cbn [fold_left].
  set (m' := if Rltb m (f y) then f y else m). cbv zeta. fold m'. destruct (IH m') as [A B].
  assert (M : f y <= m'). { unfold m'. destruct (Rltb m (f y)) eqn:E; [lra|]. destruct (Rlt_le_dec m (f y)) as [X|X]; [apply Rltb_true in X; congruence|exact X]. }
  split.
  - intros x [->|I]; [|auto]. pose proof (fold_ge f l m') as G. cbv zeta in *. lra.
  - destruct B as [B|(x & I & B)]; [|right; exists x; cbn; auto]. cbv zeta in B. rewrite B. unfold m'. destruct (Rltb m (f y)); [right; exists y; cbn; auto|now left].
Qed.
Lemma lnorm_err M w : corner w -> bpow radix2 (-300) <= msize M -> / 1048576 * msize M <= quad M w ->
  Rabs (fp_lnorm M w - sqrt (quad M w)) <= / 67108864 * sqrt (quad M w).
Proof.
  intros HC HG HQ. pose proof (ldot_err M w HC HG) as E. unfold fp_lnorm. set (p := fp_ldot M w w) in *. set (q := quad M w) in *. set (G := msize M) in *.
  pose proof (bpow_gt_0 radix2 (-300)) as P. apply Rabs_le_inv in E. assert (Q : 0 < q) by lra.
  assert (E1 : (1 - / 90000000) * q <= p <= (1 + / 90000000) * q) by lra. set (s := sqrt q). assert (SS : s * s = q) by (apply sqrt_sqrt; lra).
  assert (S0 : 0 < s) by (apply sqrt_lt_R0; exact Q).
  assert (L1 : (1 - / 90000000) * s <= sqrt p).
  { rewrite <- (sqrt_square ((1 - / 90000000) * s)) by lra. apply sqrt_le_1_alt. eapply Rle_trans; [|apply (proj1 E1)]. rewrite <- SS. set (ss := s * s) in *. replace ((1 - / 90000000) * s * ((1 - / 90000000) * s)) with ((1 - / 90000000) * (1 - / 90000000) * ss) by (unfold ss; ring). lra. }
  assert (L2 : sqrt p <= (1 + / 90000000) * s).
  { rewrite <- (sqrt_square ((1 + / 90000000) * s)) by lra. apply sqrt_le_1_alt. eapply Rle_trans; [apply (proj2 E1)|]. rewrite <- SS. set (ss := s * s) in *. replace ((1 + / 90000000) * s * ((1 + / 90000000) * s)) with ((1 + / 90000000) * (1 + / 90000000) * ss) by (unfold ss; ring). lra. }
  assert (B : bpow radix2 (-1000) <= 2 * s).
  { assert (bpow radix2 (-200) <= s).
    { rewrite <- (sqrt_square (bpow radix2 (-200))) by apply bpow_ge_0. apply sqrt_le_1_alt. rewrite <- bpow_plus. change (-200 + -200)%Z with (-400)%Z.
      assert (bpow radix2 (-400) <= bpow radix2 (-20 + -300)) by (apply bpow_le; lia). rewrite bpow_plus in H. change (bpow radix2 (-20)) with (/ 1048576) in H. lra. }
    assert (bpow radix2 (-1000) <= bpow radix2 (-200)) by (apply bpow_le; lia). lra. }
  assert (R : Rabs (rnd (sqrt p) - sqrt p) <= FpSphereProofs.v * (2 * s)) by (apply rb; [rewrite Rabs_pos_eq by apply sqrt_pos; lra|exact B]).
  apply Rabs_le_inv in R. apply Rabs_le. lra.
Qed.
Theorem longest_diagonal S : let M := p_met S in bpow radix2 (-300) <= msize M -> (forall w, corner w -> / 1048576 * msize M <= quad M w) ->
  (forall w, corner w -> sqrt (quad M w) <= (1 + / 33554432) * fp_maxdiag S) /\ exists w, corner w /\ fp_maxdiag S <= (1 + / 33554432) * sqrt (quad M w).
Proof.
  intros M HG HQ. destruct (fold_max_in (fp_lnorm M) cells (-1)) as [A B]. fold cells in A, B.
  change (fold_left (fun m u => let x := fp_lnorm M u in if Rltb m x then x else m) cells (-1)) with (fp_maxdiag S) in *.
  split.
  - intros w H. destruct (corner_cells w M H) as (w' & I & ->). pose proof (lnorm_err M w' (cells_corner _ I) HG (HQ _ (cells_corner _ I))) as E. apply Rabs_le_inv in E.
    specialize (A _ I). pose proof (sqrt_pos (quad M w')). lra.
  - destruct B as [B|(w & I & B)].
    + exfalso. specialize (A (V3 1 1 1) ltac:(cbn; auto)). pose proof (rnd_nonneg (sqrt (fp_ldot M (V3 1 1 1) (V3 1 1 1))) (sqrt_pos _)) as N. unfold fp_lnorm in A. lra.
    + exists w. split; [now apply cells_corner|]. pose proof (lnorm_err M w (cells_corner _ I) HG (HQ _ (cells_corner _ I))) as E. apply Rabs_le_inv in E. rewrite B. pose proof (sqrt_pos (quad M w)). lra.
Qed.
