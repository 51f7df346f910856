(** Proofs for FpBonds.v: positions in the first cell, cells with right angles, and a structure with a bond that only one of its atoms sees. *)
From Flocq Require Import Core.
From Coq Require Import Reals Lra Lia.
From Verif Require Import RBase R3 Fp FpConcrete FpGrid FpGridProofs FpSumProofs FpTol FpAngle FpAngleProofs FpSphere FpSphereSpec FpSphereLoop FpSphereProofs FpSphereMain FpSphereMore FpBonds FpBondsLoop FpBondsSpec FpBondsProofs FpBondsMain FpBondsMore.
From Verif Require FpTolProps.
Import ListNotations.
Open Scope R_scope.

(** *** positions in the first cell *)
Lemma dot_err f1 f2 f3 w1 w2 w3 a b c : 0 <= f1 < 1 -> 0 <= f2 < 1 -> 0 <= f3 < 1 ->
  Rabs (f1 - w1) <= / 67108863 -> Rabs (f2 - w2) <= / 67108863 -> Rabs (f3 - w3) <= / 67108863 ->
  Rabs (rnd (rnd (rnd (f1 * a) + rnd (f2 * b)) + rnd (f3 * c)) - (w1 * a + w2 * b + w3 * c)) <= / 33554432 * (Rabs a + Rabs b + Rabs c) + bpow radix2 (-300).
Proof.
  intros F1 F2 F3 E1 E2 E3. pose proof (Rabs_pos a). pose proof (Rabs_pos b). pose proof (Rabs_pos c). pose proof (bpow_gt_0 radix2 (-300)) as P.
  set (W := Rabs a + Rabs b + Rabs c + bpow radix2 (-300)).
  assert (K : forall f x, 0 <= f < 1 -> Rabs (f * x) <= Rabs x). { intros f x Hf. rewrite Rabs_mult, (Rabs_pos_eq f) by lra. pose proof (Rabs_pos x). nra. }
  pose proof (K f1 a F1) as K1. pose proof (K f2 b F2) as K2. pose proof (K f3 c F3) as K3. rewrite <- (Rabs_R0) in *. 
  assert (HW : bpow radix2 (-300) <= W) by (unfold W; rewrite Rabs_R0 in *; lra). rewrite Rabs_R0 in *.
  assert (C := comp_err W (f1 * a) (f2 * b) (f3 * c) 0 0 HW ltac:(rewrite Rabs_R0; unfold W; lra)).
  rewrite Rplus_0_r, Rminus_0_r in C. rewrite !(rnd_id (rnd _)) in C by apply rnd_dbl. rewrite Rminus_0_r, Rplus_0_r in C.
  assert (D : forall f w x, Rabs (f - w) <= / 67108863 -> Rabs (f * x - w * x) <= / 67108863 * Rabs x).
  { intros f w x Hf. replace (f * x - w * x) with ((f - w) * x) by ring. apply absmul; lra. }
  pose proof (D _ _ a E1) as D1. pose proof (D _ _ b E2) as D2. pose proof (D _ _ c E3) as D3. apply Rabs_le_inv in C, D1, D2, D3. apply Rabs_le. unfold W in C. lra.
Qed.
Theorem first_cell S i : let f := fp_vm (fp_pos S i) (p_rec S) in let B := p_base S in exists n1 n2 n3 : Z,
  let w := vm (V3 (vx f - IZR n1) (vy f - IZR n2) (vz f - IZR n3)) B in let h := fp_home true S i in
  Rabs (vx h - vx w) <= / 33554432 * size1 (col0 B) + bpow radix2 (-300) /\
  Rabs (vy h - vy w) <= / 33554432 * size1 (col1 B) + bpow radix2 (-300) /\
  Rabs (vz h - vz w) <= / 33554432 * size1 (col2 B) + bpow radix2 (-300).
Proof.
  intros f B. destruct (FpTolProps.C97_unit_cell (vx f) (rnd_dbl _)) as (A1 & _ & n1 & E1). destruct (FpTolProps.C97_unit_cell (vy f) (rnd_dbl _)) as (A2 & _ & n2 & E2).
  destruct (FpTolProps.C97_unit_cell (vz f) (rnd_dbl _)) as (A3 & _ & n3 & E3). exists n1, n2, n3. cbv zeta.
  unfold fp_home, fp_ucvCartesian, fp_ucvFractional. fold B. fold f. unfold fp_vm at 1 2 3, vm, size1, col0, col1, col2. cbn [vx vy vz].
  repeat split; now apply dot_err.
Qed.

(** *** a cell with right angles *)
Lemma right_angles_same S a a' b c : edge a -> edge b -> edge c -> Rabs (a' - a) <= / 1125899906842624 * a ->
  p_base S = M3 a' 0 0 0 b 0 0 0 c -> p_sph S = box a b c -> same_lattice S.
Proof.
  intros Ha Hb Hc Ea EB ES. unfold same_lattice. rewrite ES. split; [now apply box_ok|]. intros [[m n] o] _. cbv zeta.
  pose proof (box_len a b c (m, n, o) Ha Hb Hc) as E. unfold lattice_vec, vm. rewrite EB. cbn [x00 x01 x02 x10 x11 x12 x20 x21 x22 vx vy vz]. unfold vdot. cbn [vx vy vz].
  unfold box2 in *. set (l := len2 _ _) in *. clearbody l. destruct Ha as (_ & A0 & _).
  assert (K : Rabs ((IZR m * a') * (IZR m * a') - (IZR m * a) * (IZR m * a)) <= / 100000000000000 * ((IZR m * a) * (IZR m * a))).
  { replace ((IZR m * a') * (IZR m * a') - (IZR m * a) * (IZR m * a)) with ((IZR m * IZR m) * (a' * a' - a * a)) by ring.
    replace (/ 100000000000000 * ((IZR m * a) * (IZR m * a))) with ((IZR m * IZR m) * (/ 100000000000000 * (a * a))) by ring.
    rewrite Rabs_mult, (Rabs_pos_eq (IZR m * IZR m)) by apply sq_nonneg. apply Rmult_le_compat_l; [apply sq_nonneg|].
    assert (AA : 0 < a * a) by now apply Rmult_lt_0_compat.
    eapply Rle_trans; [apply (sq_near a' a a (/ 1125899906842624 * a) Ea); rewrite Rabs_pos_eq; lra|].
    replace (/ 1125899906842624 * a * (2 * a + / 1125899906842624 * a)) with ((/ 1125899906842624 * (2 + / 1125899906842624)) * (a * a)) by ring.
    apply Rmult_le_compat_r; lra. }
  rewrite !Rmult_0_r, !Rplus_0_r, !Rplus_0_l. 
  replace ((IZR m * a) ^ 2) with (IZR m * a * (IZR m * a)) in E by ring. replace ((IZR n * b) ^ 2) with (IZR n * b * (IZR n * b)) in E by ring.
  replace ((IZR o * c) ^ 2) with (IZR o * c * (IZR o * c)) in E by ring.
  pose proof (sq_nonneg (IZR m * a)) as Q1. pose proof (sq_nonneg (IZR n * b)) as Q2. pose proof (sq_nonneg (IZR o * c)) as Q3.
  set (A := IZR m * a * (IZR m * a)) in *. set (A' := IZR m * a' * (IZR m * a')) in *. set (BB := IZR n * b * (IZR n * b)) in *. set (CC := IZR o * c * (IZR o * c)) in *.
  clearbody A A' BB CC. apply Rabs_le_inv in E, K. apply Rabs_le. lra.
Qed.
Lemma fold_ge (f : vec -> R) l : forall m, m <= fold_left (fun m u => let x := f u in if Rltb m x then x else m) l m.
Proof.
  induction l as [|x l IH]; intros m; cbn [fold_left]; [lra|]. destruct (Rltb m (f x)) eqn:E.
  - apply Rltb_true in E. specialize (IH (f x)). cbv zeta in IH. lra.
  - apply IH.
Qed.
Lemma maxdiag_ge S : fp_lnorm (p_met S) (V3 1 1 1) <= fp_maxdiag S.
Proof.
  unfold fp_maxdiag. cbn [fold_left]. set (f := fp_lnorm (p_met S)). set (l := f (V3 1 1 1)).
  destruct (Rltb (-1) l) eqn:E.
  - apply (fold_ge f [V3 (-1) 1 1; V3 1 (-1) 1; V3 1 1 (-1)] l).
  - assert (H : l <= -1). { destruct (Rlt_le_dec (-1) l) as [X|X]; [apply Rltb_true in X; congruence|exact X]. }
    pose proof (fold_ge f [V3 (-1) 1 1; V3 1 (-1) 1; V3 1 1 (-1)] (-1)) as K. cbn [fold_left] in K. cbv zeta in *. lra.
Qed.

(** *** two atoms in the cube of edge 1, at 1 - 2^-10 and 2^-60 *)
Definition px : R := 1 - bpow radix2 (-10).
Definition py : R := bpow radix2 (-60).
Definition cube : fp_stru := {| p_pos := [V3 px 0 0; V3 py 0 0]; p_base := mid; p_rec := mid;
  p_met := {| g00 := 1; g11 := 1; g22 := 1; g01 := 0; g02 := 0; g12 := 0 |}; p_sph := box 1 1 1 |}.
Lemma b10 : bpow radix2 (-10) = / 1024. Proof. cbn. lra. Qed.
Lemma b60 : 0 < bpow radix2 (-60) < / 1000000. Proof. cbn. lra. Qed.
Lemma dbl1 : dbl 1. Proof. apply (dbl_Z 1). lia. Qed.
Lemma dblx : dbl px.
Proof. unfold px. replace (1 - bpow radix2 (-10)) with (IZR 1023 * bpow radix2 (-10)) by (cbn; lra). apply dbl_form; lia. Qed.
Lemma dbly : dbl py. Proof. apply dbl_bpow. lia. Qed.
Lemma vm_mid w : vdbl w -> fp_vm w mid = w.
Proof.
  intros (D1 & D2 & D3). destruct w as [x y z]. cbn [vx vy vz] in *. unfold fp_vm, mid. cbn [x00 x01 x02 x10 x11 x12 x20 x21 x22 vx vy vz].
  rewrite !Rmult_1_r, !Rmult_0_r, !rnd_0, !(rnd_id x), !(rnd_id y), !(rnd_id z) by assumption. rewrite !Rplus_0_l, !Rplus_0_r.
  repeat (rewrite ?(rnd_id x), ?(rnd_id y), ?(rnd_id z), ?rnd_0, ?Rplus_0_l, ?Rplus_0_r by assumption). reflexivity.
Qed.
Lemma ucv_small x : dbl x -> 0 <= x <= px -> fp_ucv x = x.
Proof.
  intros D H. unfold px in H. rewrite b10 in H. unfold fp_ucv. assert (F : Rfloor x = 0%Z) by (pose proof (Rfloor_spec x) as [F1 F2]; assert (Z1 : (Rfloor x < 1)%Z) by (apply Rfloor_lt; lra); assert (Z2 : (0 <= Rfloor x)%Z) by (apply Rfloor_le; lra); lia). rewrite F, Rminus_0_r, rnd_id by exact D. cbv zeta.
  assert (E : fp_eps_eq x 1 FP_SQRT_EPS = false).
  { rewrite FpTolProps.C97_tolerance. unfold fp_eps_eq. destruct (Rleb _ _) eqn:E; [|reflexivity]. apply Rleb_true in E.
    pose proof (add_err x (-1) D ltac:(apply (dbl_Z (-1)); lia)) as A. change (x + -1) with (x - 1) in A. rewrite (Rabs_left (x - 1)) in A by lra. unfold u in A.
    apply Rabs_le_inv in E, A. lra. }
  now rewrite E.
Qed.
Lemma home0 : fp_home true cube 0 = V3 px 0 0.
Proof.
  unfold fp_home, fp_ucvCartesian, fp_pos, cube. cbn [p_pos p_rec p_base nth]. pose proof dblx as DX. pose proof dbl_0 as D0.
  rewrite (vm_mid (V3 px 0 0)) by (repeat split; assumption). unfold fp_ucvFractional. cbn [vx vy vz].
  rewrite !ucv_small; auto; try (unfold px; rewrite b10; lra). apply vm_mid. repeat split; assumption.
Qed.
Lemma home1 : fp_home true cube 1 = V3 py 0 0.
Proof.
  unfold fp_home, fp_ucvCartesian, fp_pos, cube. cbn [p_pos p_rec p_base nth]. pose proof dbly as DY. pose proof dbl_0 as D0. pose proof b60 as B.
  rewrite (vm_mid (V3 py 0 0)) by (repeat split; assumption). unfold fp_ucvFractional. cbn [vx vy vz].
  rewrite !ucv_small; auto; try (unfold px, py; rewrite b10; lra). apply vm_mid. repeat split; assumption.
Qed.
Lemma edge1 : edge 1.
Proof. split; [exact dbl1|]. split; [lra|]. change 1 with (bpow radix2 0). apply bpow_le. lia. Qed.
Lemma cube_same : same_lattice cube.
Proof. apply (right_angles_same cube 1 1 1 1 edge1 edge1 edge1); auto. rewrite Rminus_diag_eq, Rabs_R0 by reflexivity. lra. Qed.
Lemma cube_diag : 3 / 2 <= fp_maxdiag cube.
Proof.
  eapply Rle_trans; [|apply maxdiag_ge]. unfold fp_lnorm, fp_ldot. cbn [cube p_met g00 g11 g22 g01 g02 g12 vx vy vz].
  rewrite !Rmult_1_r, !Rmult_0_r, !rnd_0, !(rnd_id 1) by exact dbl1. rewrite !(rnd_id (1 + 1)) by (replace (1 + 1) with 2 by ring; apply (dbl_Z 2); lia).
  rewrite !(rnd_id (1 + 1 + 1)) by (replace (1 + 1 + 1) with 3 by ring; apply (dbl_Z 3); lia). rewrite !Rplus_0_r.
  rewrite !(rnd_id (1 + 1 + 1)) by (replace (1 + 1 + 1) with 3 by ring; apply (dbl_Z 3); lia).
  apply rnd_ge_dbl.
  - rewrite <- (sqrt_square (3 / 2)) by lra. apply sqrt_le_1_alt. lra.
  - replace (3 / 2) with (IZR 3 * bpow radix2 (-1)) by (cbn; lra). apply dbl_form; lia.
Qed.
Definition rx : R := bpow radix2 (-10).
Lemma D_succ k e : (0 <= k)%Z -> D (2 ^ k + 1) e = bpow radix2 (k + e) + bpow radix2 e.
Proof. intros H. unfold D. rewrite plus_IZR, (pow2 k H), bpow_plus. ring. Qed.
Lemma rnd_one x : 1 <= x < 1 + bpow radix2 (-54) -> rnd x = 1.
Proof.
  intros H. assert (B : bpow radix2 (-54) * IZR (2 ^ 52) = / 4). { change (IZR (2 ^ 52)) with (bpow radix2 52). rewrite <- bpow_plus. cbn. lra. }
  assert (L : bpow radix2 (-54) <= / 2). { replace (/ 2) with (bpow radix2 (-1)) by (cbn; lra). apply bpow_le. lia. }
  assert (M : mag radix2 x = 1%Z :> Z). { apply mag_unique. rewrite Rabs_pos_eq by lra. cbn. lra. }
  assert (C : cexp radix2 fexp x = (-52)%Z) by (unfold cexp; rewrite M; reflexivity).
  unfold rnd, round, scaled_mantissa, F2R. rewrite C. cbn [Fnum Fexp]. rewrite (Znearest_imp _ _ (2 ^ 52)).
  - change (IZR (2 ^ 52)) with (bpow radix2 52). rewrite <- bpow_plus. reflexivity.
  - change (bpow radix2 (- -52)) with (IZR (2 ^ 52)). set (p := IZR (2 ^ 52)) in *. assert (P : 0 < p) by (apply IZR_lt; lia). clearbody p. set (b := bpow radix2 (-54)) in *. clearbody b.
    apply Rabs_def1; nra.
Qed.
(** x component from anchor to the image of the site k *)
Lemma x01 a k (m n o : Z) xa xk : dbl xk -> fp_home true cube a = V3 xa 0 0 -> fp_home true cube k = V3 xk 0 0 -> (k < 2)%nat ->
  vx (i_r01 true cube a [0; 1]%nat (k, (m, n, o))) = rnd (rnd (rnd (IZR m) + xk) - xa).
Proof.
  intros D HA HK Hk. unfold i_r01, i_r1. cbn [fst snd vx]. rewrite HA. replace (fp_site [0%nat; 1%nat] k) with k by (destruct k as [|[|]]; [reflexivity|reflexivity|lia]).
  rewrite HK. unfold fp_vm, pvec, cube. cbn [p_base mid FpBonds.p_base x00 x10 x20 vx vy vz R3.x00]. unfold mid. cbn [R3.x00 R3.x10 R3.x20].
  rewrite !Rmult_1_r, !Rmult_0_r, !rnd_0, !Rplus_0_r, !(rnd_id (rnd (IZR m))) by apply rnd_dbl. reflexivity.
Qed.
Lemma blind m n o : i_valid true cube 1 [0; 1]%nat 0 rx (0%nat, (m, n, o)) = false.
Proof.
  unfold i_valid. rewrite (x01 1 0 m n o py px dblx home1 home0 ltac:(lia)). pose proof b60 as B.
  assert (D1 := dbl1). assert (DM : dbl (-1)) by (apply (dbl_Z (-1)); lia).
  set (w := rnd (rnd (rnd (IZR m) + px) - py)).
  enough (H : rx < Rabs w). { destruct (Rleb (Rabs w) rx) eqn:E; [apply Rleb_true in E; lra|reflexivity]. }
  unfold rx. rewrite b10. assert (HX : px = 1023 / 1024) by (unfold px; rewrite b10; lra).
  destruct (Z_lt_le_dec m 0) as [Hm|Hm].
  - destruct (Z.eq_dec m (-1)) as [->|Hm1].
    + assert (E1 : rnd (rnd (-1) + px) = - bpow radix2 (-10)).
      { rewrite (rnd_id (-1)) by exact DM. replace (-1 + px) with (- bpow radix2 (-10)) by (unfold px; ring). apply rnd_id, dbl_opp, dbl_bpow. lia. }
      unfold w. rewrite E1. assert (E2 : - bpow radix2 (-10) - py = - D (2 ^ 50 + 1) (-60)).
      { rewrite D_succ by lia. unfold py. change (50 + -60)%Z with (-10)%Z. lra. }
      rewrite E2, rnd_opp, Rabs_Ropp, rnd_id by (apply D_dbl; lia). rewrite Rabs_pos_eq by (left; apply D_pos; lia).
      replace (D (2 ^ 50 + 1) (-60)) with (bpow radix2 (-10) + py) by lra. rewrite b10. unfold py. lra.
    + assert (M2 : rnd (IZR m) <= -2) by (apply rnd_le_dbl; [apply IZR_le; lia|apply (dbl_Z (-2)); lia]).
      assert (M1 : rnd (rnd (IZR m) + px) <= -1) by (apply rnd_le_dbl; [lra|exact DM]).
      assert (M0 : w <= -1) by (apply rnd_le_dbl; [unfold py; lra|exact DM]). rewrite Rabs_left; lra.
  - assert (M2 : 0 <= rnd (IZR m)) by (apply rnd_nonneg, IZR_le; lia).
    assert (M1 : px <= rnd (rnd (IZR m) + px)) by (apply rnd_ge_dbl; [lra|exact dblx]).
    assert (H2 : dbl (/ 2)). { replace (/ 2) with (bpow radix2 (-1)) by (cbn; lra). apply dbl_bpow. lia. }
    assert (M0 : / 2 <= w) by (apply rnd_ge_dbl; [unfold py; lra|exact H2]). rewrite Rabs_pos_eq; lra.
Qed.
Lemma seen pts : visits (fp_sphmin cube 0) (fp_sphmax cube rx) (p_sph cube) pts -> In (1, 0, 0)%Z pts.
Proof.
  intros HV. apply visits_all in HV. subst pts. pose proof cube_diag as D. assert (P : 0 < rx) by apply bpow_gt_0.
  assert (W : 3 / 2 <= fp_sphmax cube rx).
  { unfold fp_sphmax. apply rnd_ge_dbl; [lra|]. replace (3 / 2) with (IZR 3 * bpow radix2 (-1)) by (cbn; lra). apply dbl_form; lia. }
  assert (W2 : 3 / 2 * (3 / 2) <= fp_sphmax cube rx * fp_sphmax cube rx) by (apply le_sq; lra).
  assert (W3 : bpow radix2 (-300) <= fp_sphmax cube rx). { apply Rle_trans with (bpow radix2 0); [apply bpow_le; lia|change (bpow radix2 0) with 1; lra]. }
  pose proof (box_len 1 1 1 (1, 0, 0)%Z edge1 edge1 edge1) as E. unfold box2 in E. apply Rabs_le_inv in E.
  apply complete; auto.
  - apply (box_ok 1 1 1 edge1 edge1 edge1).
  - cbn. lia.
  - change (p_sph cube) with (box 1 1 1). unfold margin. set (l := len2 _ _) in *. clearbody l. set (ww := fp_sphmax cube rx * fp_sphmax cube rx) in *. clearbody ww. lra.
  - left. unfold fp_sphmin. apply rnd_le_dbl; [lra|apply dbl_0].
Qed.
Lemma sees : i_valid true cube 0 [0; 1]%nat 0 rx (1%nat, (1, 0, 0)%Z) = true /\ fp_norm (i_r01 true cube 0 [0; 1]%nat (1%nat, (1, 0, 0)%Z)) = rx.
Proof.
  pose proof b60 as B. assert (R0 : 0 < rx) by apply bpow_gt_0. assert (DR : dbl rx) by (apply dbl_bpow; lia).
  assert (E : i_r01 true cube 0 [0; 1]%nat (1%nat, (1, 0, 0)%Z) = V3 rx 0 0).
  { assert (EX := x01 0 1 1 0 0 px py dbly home0 home1 ltac:(lia)).
    assert (Y1 : rnd (rnd 1 + py) = 1).
    { rewrite (rnd_id 1) by exact dbl1. apply rnd_one. unfold py. assert (bpow radix2 (-60) < bpow radix2 (-54)) by (apply bpow_lt; lia). lra. }
    rewrite Y1 in EX. replace (1 - px) with rx in EX by (unfold px, rx; ring). rewrite (rnd_id rx DR) in EX.
    unfold i_r01, i_r1 in *. cbn [fst snd vx] in EX. cbn [fst snd]. f_equal; [exact EX| |].
    - change (fp_site [0%nat; 1%nat] 1) with 1%nat. rewrite home0, home1. unfold fp_vm, pvec, cube. cbn [p_base]. unfold mid. cbn [R3.x01 R3.x11 R3.x21 vx vy vz].
      repeat (rewrite ?Rmult_0_r, ?Rmult_0_l, ?rnd_0, ?Rplus_0_r, ?Rminus_0_r). reflexivity.
    - change (fp_site [0%nat; 1%nat] 1) with 1%nat. rewrite home0, home1. unfold fp_vm, pvec, cube. cbn [p_base]. unfold mid. cbn [R3.x02 R3.x12 R3.x22 vx vy vz].
      repeat (rewrite ?Rmult_0_r, ?Rmult_0_l, ?rnd_0, ?Rplus_0_r, ?Rminus_0_r). reflexivity. }
  assert (N : fp_norm (V3 rx 0 0) = rx).
  { unfold fp_norm, fp_dot. cbn [vx vy vz]. rewrite Rmult_0_l, rnd_0, !Rplus_0_r. unfold rx. rewrite <- bpow_plus. rewrite !(rnd_id (bpow radix2 (-10 + -10))) by (apply dbl_bpow; lia).
    rewrite bpow_plus, sqrt_square by apply bpow_ge_0. apply rnd_id. exact DR. }
  split; [|now rewrite E].
  unfold i_valid. rewrite E, N. cbn [vx vy vz]. rewrite Rabs_R0, (Rabs_pos_eq rx) by lra. rewrite self_test by (auto; lra).
  replace (Rleb rx rx) with true by (symmetry; apply Rleb_true; lra). replace (Rleb 0 rx) with true by (symmetry; apply Rleb_true; lra). cbn [andb negb].
  destruct (Rleb rx (/ 67108864)) eqn:X; [|reflexivity]. apply Rleb_true in X. unfold rx in X. rewrite b10 in X. lra.
Qed.
