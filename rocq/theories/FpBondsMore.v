(** Proofs for FpBonds.v: isolated structures, positions in the first cell, cells with right angles, and a structure with an asymmetric bond. *)
From Flocq Require Import Core.
From Coq Require Import Reals Lra Lia.
From Verif Require Import RBase R3 Fp FpConcrete FpGrid FpGridProofs FpSumProofs FpTol FpAngle FpAngleProofs FpSphere FpSphereSpec FpSphereLoop FpSphereProofs FpSphereMain FpSphereMore FpBonds FpBondsLoop FpBondsSpec FpBondsProofs FpBondsMain.
From Verif Require FpTolProps.
Import ListNotations.
Open Scope R_scope.

Lemma nodup_map {A B} (f : A -> B) l : (forall x y, In x l -> In y l -> f x = f y -> x = y) -> NoDup l -> NoDup (map f l).
Proof.
  induction l as [|x l IH]; intros H N; cbn; constructor; inversion N as [|? ? N1 N2]; subst.
  - intros I. apply in_map_iff in I as (y & E & I). apply N1. rewrite (H x y); cbn; auto.
  - apply IH; auto. intros; apply H; cbn; auto.
Qed.
(** *** isolated structures *)
Definition turned (w : vec) : vec := V3 (- vx w) (- vy w) (- vz w).
Lemma norm_turned w : fp_norm (turned w) = fp_norm w.
Proof. unfold fp_norm, fp_dot, turned. cbn [vx vy vz]. now rewrite !Rmult_opp_opp. Qed.
Lemma r01_turned S a b sel k k' T T' : fp_site sel k = b -> fp_site sel k' = a -> i_r01 false S b sel (k', T') = turned (i_r01 false S a sel (k, T)).
Proof.
  intros <- <-. unfold i_r01, i_r1, turned, fp_home. cbn [fst vx vy vz].
  assert (N : forall p q, rnd (p - q) = - rnd (q - p)) by (intros; rewrite <- rnd_opp; f_equal; ring). f_equal; apply N.
Qed.
Lemma valid_turned S a b sel rmin rmax k k' T T' : fp_site sel k = b -> fp_site sel k' = a ->
  i_valid false S a sel rmin rmax (k, T) = i_valid false S b sel rmin rmax (k', T').
Proof. intros H1 H2. unfold i_valid. rewrite (r01_turned S a b sel k k' T T' H1 H2), norm_turned. unfold turned. cbn [vx vy vz]. now rewrite !Rabs_Ropp. Qed.
Lemma shows_unique b S a sel rmin rmax pts l : loop_shows b S a sel rmin rmax pts l -> l = map (i_bond b S a sel) (filter (i_valid b S a sel rmin rmax) (images b sel pts)).
Proof.
  intros H. set (g := {| cur := 0; rest := []; rc := vzero; r1 := vzero; r01 := vzero; dist := 0 |}). destruct (H g) as (f & Hf).
  destruct (bonds_all b S a sel rmin rmax pts g) as (f' & Hf'). specialize (Hf (Nat.max f f') ltac:(lia)). specialize (Hf' (Nat.max f f') ltac:(lia)). congruence.
Qed.
Theorem isolated_symmetric S a b sel rmin rmax pts la lb : loop_shows false S a sel rmin rmax pts la -> loop_shows false S b sel rmin rmax pts lb -> In a sel ->
  forall x, In x la -> b_site1 x = b -> exists y, In y lb /\ b_site1 y = a /\ b_dist y = b_dist x /\ b_r01 y = turned (b_r01 x).
Proof.
  intros HA HB IA x HX EX. rewrite (shows_unique _ _ _ _ _ _ _ _ HA) in HX. rewrite (shows_unique _ _ _ _ _ _ _ _ HB).
  apply in_map_iff in HX as ((k & T) & <- & HX). apply filter_In in HX as [HI V]. apply in_images in HI as [Hk HT]. cbn [i_bond b_site1 fst] in EX.
  destruct (In_nth sel a O IA) as (k' & Hk' & E').
  exists (i_bond false S b sel (k', T)). split.
  - apply in_map, filter_In. split; [apply in_images; auto|]. rewrite <- (valid_turned S a b sel rmin rmax k k' T T EX E'). exact V.
  - unfold i_bond. cbn [b_site1 b_dist b_r01 fst]. rewrite (r01_turned S a b sel k k' T T EX E'), norm_turned. auto.
Qed.
Definition iso_tol (d : R) : R := / 2251799813685248 * d + bpow radix2 (-300).
Lemma iso_err S a j sel k T : vdbl (fp_pos S a) -> vdbl (fp_pos S j) -> fp_site sel k = j ->
  Rabs (fp_norm (i_r01 false S a sel (k, T)) - vdist (fp_pos S j) (fp_pos S a)) <= iso_tol (vdist (fp_pos S j) (fp_pos S a)).
Proof.
  intros (A1 & A2 & A3) (B1 & B2 & B3) <-. unfold i_r01, i_r1, fp_home. cbn [fst]. set (p := fp_pos S (fp_site sel k)) in *. set (q := fp_pos S a) in *.
  unfold iso_tol, vdist. set (d := vsub p q).
  assert (E : forall x y, dbl x -> dbl y -> Rabs (rnd (x - y) - (x - y)) <= u * Rabs (x - y)) by (intros x y Dx Dy; exact (add_err x (- y) Dx (dbl_opp y Dy))).
  pose proof (E _ _ B1 A1) as E1. pose proof (E _ _ B2 A2) as E2. pose proof (E _ _ B3 A3) as E3. set (r := V3 _ _ _).
  assert (N : vnorm (vsub r d) <= u * vnorm d).
  { replace (u * vnorm d) with (sqrt (u * u * vdot d d)).
    - apply sqrt_le_1_alt. unfold vdot, vsub at 1 2 3 4 5 6, d, r. cbn [vx vy vz]. unfold vsub. cbn [vx vy vz].
      assert (Q : forall e z, Rabs e <= u * Rabs z -> e * e <= u * u * (z * z)).
      { intros e z H. assert (U : 0 < u) by (unfold u; lra). pose proof (Rabs_pos e). replace (e * e) with (Rabs e * Rabs e) by (rewrite <- Rabs_mult; apply Rabs_pos_eq, sq_nonneg).
        replace (u * u * (z * z)) with (u * Rabs z * (u * Rabs z)). { apply Rmult_le_compat; auto. }
        replace (u * Rabs z * (u * Rabs z)) with (u * u * (Rabs z * Rabs z)) by ring. f_equal. rewrite <- Rabs_mult. apply Rabs_pos_eq, sq_nonneg. }
      pose proof (Q _ _ E1). pose proof (Q _ _ E2). pose proof (Q _ _ E3). lra.
    - rewrite sqrt_mult_alt by (unfold u; lra). rewrite sqrt_square by (unfold u; lra). reflexivity. }
  pose proof (norm_diff r d) as ND. apply Rabs_le_inv in ND. pose proof (vnorm_nonneg d) as D0. pose proof (vnorm_nonneg r) as R0. pose proof (bpow_gt_0 radix2 (-300)) as P.
  assert (DR : vdbl r) by (repeat split; apply rnd_dbl).
  destruct (Rle_lt_dec (bpow radix2 (-400)) (vnorm r)) as [H|H].
  - destruct (norm_err r DR H) as [_ EE]. apply Rabs_le_inv in EE. apply Rabs_le. unfold u in *. lra.
  - destruct (short_norm r ltac:(lra)) as [X Y]. assert (EX : 4 * bpow radix2 (-398) <= bpow radix2 (-300)).
    { replace 4 with (bpow radix2 2) by (cbn; lra). rewrite <- bpow_plus. apply bpow_le. lia. }
    assert (EY : bpow radix2 (-400) <= bpow radix2 (-398)) by (apply bpow_le; lia). apply Rabs_le. unfold u in *. lra.
Qed.
Theorem isolated_bonds S a sel (rmin rmax : R) pts : (forall i, vdbl (fp_pos S i)) ->
  exists l v, loop_shows false S a sel rmin rmax pts l /\ NoDup v /\
    Forall2 (fun k b => let j := nth k sel O in let d := vdist (fp_pos S j) (fp_pos S a) in b_site1 b = j /\ Rabs (b_dist b - d) <= iso_tol d) v l /\
    (forall k, In k v -> let d := vdist (fp_pos S (nth k sel O)) (fp_pos S a) in (k < length sel)%nat /\ within (- iso_tol d) rmin rmax d) /\
    (forall k, let d := vdist (fp_pos S (nth k sel O)) (fp_pos S a) in (k < length sel)%nat -> within (iso_tol d) rmin rmax d -> In k v).
Proof.
  intros HD. set (vi := filter (i_valid false S a sel rmin rmax) (images false sel pts)).
  assert (EI : images false sel pts = row sel zero3) by (unfold images, Ts; cbn; apply app_nil_r).
  assert (ET : forall x, In x vi -> x = (fst x, zero3)).
  { intros [k T] H. apply filter_In in H as [H _]. rewrite EI in H. apply in_map_iff in H as (k' & E & _). now injection E as <- <-. }
  exists (map (i_bond false S a sel) vi), (map fst vi). split; [intros g; apply bonds_all|]. split.
  { unfold vi. rewrite EI. apply nodup_map; [|apply NoDup_filter, NoDup_row].
    intros [k T] [k' T'] H1 H2 E. rewrite <- EI in H1, H2. specialize (ET _ H1) as E1. specialize (ET _ H2) as E2. cbn in *. congruence. }
  assert (ERR : forall k T, let j := nth k sel O in let d := vdist (fp_pos S j) (fp_pos S a) in Rabs (fp_norm (i_r01 false S a sel (k, T)) - d) <= iso_tol d).
  { intros k T. apply iso_err; auto. }
  cbv zeta in ERR. split.
  { clear -ERR. induction vi as [|[k T] vi IH]; cbn; constructor; auto. cbn. split; [reflexivity|apply ERR]. }
  split.
  - intros k I. apply in_map_iff in I as ([k' T] & <- & I). pose proof (ET _ I) as E. cbn [fst] in *. injection E as ->. apply filter_In in I as [I V].
    apply in_images in I as [Hk _]. cbv zeta. split; [exact Hk|]. specialize (ERR k' zero3). destruct (norm_ok (i_r01 false S a sel (k', zero3))) as [N1 N2].
    unfold i_valid in V. rewrite self_test in V by assumption. rewrite !andb_true_iff, negb_true_iff in V.
    destruct V as (((((_ & _) & _) & V1) & V2) & V3). apply Rleb_true in V1, V2.
    assert (V4 : / 67108864 < fp_norm (i_r01 false S a sel (k', zero3))). { destruct (Rlt_le_dec (/ 67108864) (fp_norm (i_r01 false S a sel (k', zero3)))) as [X|X]; [exact X|]. apply Rleb_true in X. congruence. }
    apply Rabs_le_inv in ERR. unfold within. lra.
  - intros k d Hk [[H1 H2] H3]. apply in_map_iff. exists (k, zero3). split; [reflexivity|]. apply filter_In. split; [rewrite EI; apply in_map_iff; exists k; split; [reflexivity|apply in_seq; lia]|].
    specialize (ERR k zero3). fold d in ERR. destruct (norm_ok (i_r01 false S a sel (k, zero3))) as [N1 N2]. unfold i_valid. rewrite self_test by assumption.
    apply Rabs_le_inv in ERR. set (t := iso_tol d) in *.
    assert (CC : forall x y, dbl x -> dbl y -> Rabs (x - y) <= d -> Rabs (rnd (x - y)) <= rmax).
    { intros x y Dx Dy H. pose proof (add_err x (- y) Dx (dbl_opp y Dy)) as E. fold (x - y) in E. pose proof (Rabs_pos (x - y)).
      assert (TT : u * d <= t) by (unfold t, iso_tol, u; pose proof (bpow_gt_0 radix2 (-300)); lra).
      assert (EE : Rabs (rnd (x - y) - (x - y)) <= t) by (unfold u in *; lra). apply Rabs_le_inv in EE, H. apply Rabs_le. lra. }
    destruct (HD (nth k sel O)) as (P1 & P2 & P3). destruct (HD a) as (Q1 & Q2 & Q3).
    pose proof (comp_norm (vsub (fp_pos S (nth k sel O)) (fp_pos S a))) as (C1 & C2 & C3). fold (vdist (fp_pos S (nth k sel O)) (fp_pos S a)) in C1, C2, C3. fold d in C1, C2, C3.
    rewrite !andb_true_iff, negb_true_iff. repeat split.
    + apply Rleb_true. now apply CC.
    + apply Rleb_true. now apply CC.
    + apply Rleb_true. now apply CC.
    + apply Rleb_true. lra.
    + apply Rleb_true. lra.
    + destruct (Rleb (fp_norm (i_r01 false S a sel (k, zero3))) (/ 67108864)) eqn:B; [|reflexivity]. apply Rleb_true in B. lra.
Qed.
