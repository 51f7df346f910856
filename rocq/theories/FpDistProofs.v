(** Proofs: the distance of a lattice point in machine arithmetic. *)
From Flocq Require Import Core.
From Coq Require Import Reals Lra Lia Psatz.
From Verif Require Import RBase Fp FpSphere FpSphereSpec FpSphereProofs FpWidthMain FpCellSpec FpCell FpCellLen FpCellConst FpCellMain FpDist.
Open Scope R_scope.

(** a coordinate is at most 16 times the length *)
Lemma coord_bound A B C X Y Z q : Rabs A <= 1 -> / 256 <= 1 + 2 * A * B * C - A * A - B * B - C * C -> 0 < 1 - A * A -> 0 <= q ->
  X * X + Y * Y + Z * Z + 2 * X * Y * C + 2 * X * Z * B + 2 * Y * Z * A = q * q -> Rabs X <= 16 * q.
Proof.
  intros HA HU HS Hq E. set (S := 1 - A * A) in *. set (U := 1 + 2 * A * B * C - A * A - B * B - C * C) in *.
  assert (I : S * (q * q) = S * ((Z + B * X + A * Y) * (Z + B * X + A * Y)) + (S * Y - (A * B - C) * X) * (S * Y - (A * B - C) * X) + U * (X * X)).
  { rewrite <- E. unfold S, U. ring. }
  pose proof (sq_ge (S * Y - (A * B - C) * X)). pose proof (Rmult_le_pos _ _ (Rlt_le _ _ HS) (sq_ge (Z + B * X + A * Y))). pose proof (sq_ge X) as PX. pose proof (sq_ge q) as PQ.
  assert (S1 : S * (q * q) <= 1 * (q * q)) by (apply Rmult_le_compat_r; [exact PQ|pose proof (sq_ge A); unfold S; lra]).
  assert (U1 : / 256 * (X * X) <= U * (X * X)) by (apply Rmult_le_compat_r; lra). apply abs_sq; [lra|]. replace (16 * q * (16 * q)) with (256 * (q * q)) by ring. lra.
Qed.

Section Dist.
  Context (A B C ca cb cg a b c q : R) (m n o : Z).
  Context (HA : Rabs A <= 1) (HB : Rabs B <= 1) (HC : Rabs C <= 1) (SA : 0 < 1 - A * A) (SB : 0 < 1 - B * B) (SC : 0 < 1 - C * C)
    (HU : / 256 <= 1 + 2 * A * B * C - A * A - B * B - C * C)
    (Ha : usual_edge a) (Hb : usual_edge b) (Hc : usual_edge c)
    (Eca : Rabs (ca - A) <= 4 * v) (Ecb : Rabs (cb - B) <= 4 * v) (Ecg : Rabs (cg - C) <= 4 * v) (Hq : bpow radix2 (-450) <= q).
  Let X := IZR m * a. Let Y := IZR n * b. Let Z := IZR o * c.
  Context (E : X * X + Y * Y + Z * Z + 2 * X * Y * C + 2 * X * Z * B + 2 * Y * Z * A = q * q).

  Lemma q_pos : 0 < q. Proof. eapply Rlt_le_trans; [apply bpow_gt_0|exact Hq]. Qed.
  Lemma q_big k : 1 <= k -> bpow radix2 (-1000) <= k * (q * q).
  Proof.
    intros Hk. pose proof (bpow_gt_0 radix2 (-450)) as P. apply Rle_trans with (bpow radix2 (-450) * bpow radix2 (-450)); [rewrite <- bpow_plus; apply bpow_le; lia|].
    apply Rle_trans with (q * q); [apply Rmult_le_compat; lra|]. pose proof (sq_ge q). assert (1 * (q * q) <= k * (q * q)) by (apply Rmult_le_compat_r; lra). lra.
  Qed.
  Lemma X_b : Rabs X <= 16 * q. Proof. pose proof q_pos. apply (coord_bound A B C X Y Z q); auto; lra. Qed.
  Lemma Y_b : Rabs Y <= 16 * q. Proof. pose proof q_pos. apply (coord_bound B A C Y X Z q); auto; try lra. Qed.
  Lemma Z_b : Rabs Z <= 16 * q. Proof. pose proof q_pos. apply (coord_bound C A B Z X Y q); auto; try lra. Qed.

  (** two roundings of k x y, for an int k *)
  Lemma two_rnd k x y w M : usual_edge x -> usual_edge y -> w = IZR k * x * y -> Rabs w <= M * (q * q) -> 1 <= M -> Rabs (rnd (rnd (IZR k * x) * y) - w) <= 21 / 10 * v * (M * (q * q)).
  Proof.
    intros Hx Hy -> Hw HM. pose proof (rng_pos _ _ (rng_usual _ Hx)) as Px. pose proof (rng_pos _ _ (rng_usual _ Hy)) as Py. set (w := IZR k * x * y) in *.
    assert (R1 : Rabs (rnd (IZR k * x) * y - w) <= v * (M * (q * q))).
    { destruct (Z.eq_dec k 0) as [->|K].
      - unfold w. rewrite !Rmult_0_l. rewrite (rnd_id 0) by (apply (dbl_Z 0); lia). rewrite Rmult_0_l, Rminus_diag_eq, Rabs_R0 by reflexivity. apply Rmult_le_pos; [lra|]. apply Rmult_le_pos; [lra|apply sq_ge].
      - replace (rnd (IZR k * x) * y - w) with ((rnd (IZR k * x) - IZR k * x) * y) by (unfold w; ring).
        assert (K1 : 1 <= Rabs (IZR k)) by (rewrite <- abs_IZR; apply (IZR_le 1); lia).
        assert (L : bpow radix2 (-1000) <= Rabs (IZR k * x)). { rewrite Rabs_mult, (Rabs_pos_eq x) by lra. assert (1 * x <= Rabs (IZR k) * x) by (apply Rmult_le_compat_r; lra). destruct Hx as [Hx _]. apply Rle_trans with (bpow radix2 (-200)); [apply bpow_le; lia|lra]. }
        pose proof (rb _ _ (Rle_refl _) L) as R. rewrite Rabs_mult, (Rabs_pos_eq y) by lra. eapply Rle_trans; [apply Rmult_le_compat_r; [lra|exact R]|].
        replace (v * Rabs (IZR k * x) * y) with (v * Rabs w); [apply Rmult_le_compat_l; lra|]. unfold w. rewrite (Rabs_mult _ y), (Rabs_pos_eq y) by lra. ring. }
    pose proof (abs_near _ _ _ _ R1 Hw) as N. set (t := M * (q * q)) in *. assert (T0 : 0 <= t) by (unfold t; apply Rmult_le_pos; [lra|apply sq_ge]).
    assert (R2 : Rabs (rnd (rnd (IZR k * x) * y) - rnd (IZR k * x) * y) <= v * (1.01 * t)). { apply rb; [lra|]. pose proof (q_big M HM). fold t in H. lra. }
    pose proof (abs_tri _ _ _ _ _ R2 R1). lra.
  Qed.
  Lemma cross_rnd k x y t T w M : usual_edge x -> usual_edge y -> w = IZR k * x * y -> Rabs w <= M * (q * q) -> 1 <= M -> Rabs T <= 1 -> Rabs (t - T) <= 4 * v ->
    Rabs (rnd (rnd (rnd (IZR k * x) * y) * t) - w * T) <= 72 / 10 * v * (M * (q * q)).
  Proof.
    intros Hx Hy Ew Hw HM HT Et. pose proof (two_rnd k x y w M Hx Hy Ew Hw HM) as R1. set (p := rnd (rnd (IZR k * x) * y)) in *. clearbody p. set (s := M * (q * q)) in *. assert (T0 : 0 <= s) by (unfold s; apply Rmult_le_pos; [lra|apply sq_ge]).
    pose proof (abs_near _ _ _ _ R1 Hw) as N. pose proof (absmul _ _ _ _ R1 HT) as E1. pose proof (absmul _ _ _ _ N Et) as E2.
    assert (E3 : Rabs (p * t - w * T) <= 61.5 / 10 * v * s). { replace (p * t - w * T) with ((p - w) * T + p * (t - T)) by ring. eapply Rle_trans; [apply Rabs_triang|]. lra. }
    assert (WT : Rabs (w * T) <= s * 1) by (now apply absmul). pose proof (abs_near _ _ _ _ E3 WT) as N2.
    assert (R2 : Rabs (rnd (p * t) - p * t) <= v * (1.01 * s)). { apply rb; [lra|]. pose proof (q_big M HM). fold s in H. lra. }
    pose proof (abs_tri _ _ _ _ _ R2 E3). lra.
  Qed.
  Lemma add_rnd x S y T M e f g : Rabs (x - S) <= e * v * (q * q) -> Rabs (y - T) <= f * v * (q * q) -> Rabs (S + T) <= M * (q * q) -> 1 <= M -> 0 <= e <= 100000 -> 0 <= f <= 100000 ->
    e + f + 1.01 * M <= g -> Rabs (rnd (x + y) - (S + T)) <= g * v * (q * q).
  Proof.
    intros Hx Hy HS HM He Hf Hg. pose proof (sq_ge q) as Q. assert (HXY : Rabs (x + y - (S + T)) <= (e + f) * v * (q * q)). { replace (x + y - (S + T)) with ((x - S) + (y - T)) by ring. eapply Rle_trans; [apply Rabs_triang|]. lra. }
    pose proof (abs_near _ _ _ _ HXY HS) as N. assert (QM : 1 * (q * q) <= M * (q * q)) by (apply Rmult_le_compat_r; lra).
    assert (EV : (e + f) * v * (q * q) <= / 100 * (q * q)) by (apply Rmult_le_compat_r; lra).
    assert (R2 : Rabs (rnd (x + y) - (x + y)) <= v * (1.01 * (M * (q * q)))). { apply rb; [lra|]. pose proof (q_big M HM). lra. }
    pose proof (abs_tri _ _ _ _ _ R2 HXY) as K. eapply Rle_trans; [exact K|]. replace (v * (1.01 * (M * (q * q))) + (e + f) * v * (q * q)) with ((e + f + 1.01 * M) * v * (q * q)) by ring. apply Rmult_le_compat_r; [exact Q|]. lra.
  Qed.

  Lemma r2_err : Rabs (fp_r2 a b c ca cb cg (m, n, o) - q * q) <= 30000 * v * (q * q).
  Proof.
    pose proof X_b as BX. pose proof Y_b as BY. pose proof Z_b as BZ. pose proof q_pos as Q0. pose proof (sq_ge q) as QQ.
    pose proof (absmul _ _ _ _ BX BX) as PXX. pose proof (absmul _ _ _ _ BY BY) as PYY. pose proof (absmul _ _ _ _ BZ BZ) as PZZ. pose proof (absmul _ _ _ _ BX BY) as PXY. pose proof (absmul _ _ _ _ BX BZ) as PXZ. pose proof (absmul _ _ _ _ BY BZ) as PYZ.
    assert (Q16 : 16 * q * (16 * q) = 256 * (q * q)) by ring. rewrite Q16 in *.
    assert (D2 : forall x y, Rabs (x * y) <= 256 * (q * q) -> Rabs (2 * x * y) <= 512 * (q * q)). { intros x y H. rewrite Rmult_assoc, Rabs_mult, (Rabs_pos_eq 2) by lra. lra. }
    pose proof (two_rnd (m * m) a a (X * X) 256 Ha Ha ltac:(rewrite mult_IZR; unfold X; ring) PXX ltac:(lra)) as T1.
    pose proof (two_rnd (n * n) b b (Y * Y) 256 Hb Hb ltac:(rewrite mult_IZR; unfold Y; ring) PYY ltac:(lra)) as T2.
    pose proof (two_rnd (o * o) c c (Z * Z) 256 Hc Hc ltac:(rewrite mult_IZR; unfold Z; ring) PZZ ltac:(lra)) as T3.
    pose proof (cross_rnd (2 * m * n) a b cg C (2 * X * Y) 512 Ha Hb ltac:(rewrite !mult_IZR; unfold X, Y; ring) (D2 _ _ PXY) ltac:(lra) HC Ecg) as T4.
    pose proof (cross_rnd (2 * m * o) a c cb B (2 * X * Z) 512 Ha Hc ltac:(rewrite !mult_IZR; unfold X, Z; ring) (D2 _ _ PXZ) ltac:(lra) HB Ecb) as T5.
    pose proof (cross_rnd (2 * n * o) b c ca A (2 * Y * Z) 512 Hb Hc ltac:(rewrite !mult_IZR; unfold Y, Z; ring) (D2 _ _ PYZ) ltac:(lra) HA Eca) as T6.
    unfold fp_r2.
    set (t1 := rnd (rnd (IZR (m * m) * a) * a)) in *. set (t2 := rnd (rnd (IZR (n * n) * b) * b)) in *. set (t3 := rnd (rnd (IZR (o * o) * c) * c)) in *.
    set (t4 := rnd (rnd (rnd (IZR (2 * m * n) * a) * b) * cg)) in *. set (t5 := rnd (rnd (rnd (IZR (2 * m * o) * a) * c) * cb)) in *. set (t6 := rnd (rnd (rnd (IZR (2 * n * o) * b) * c) * ca)) in *. clearbody t1 t2 t3 t4 t5 t6.
    pose proof (absmul _ _ _ _ (D2 _ _ PXY) HC) as P4. pose proof (absmul _ _ _ _ (D2 _ _ PXZ) HB) as P5. pose proof (absmul _ _ _ _ (D2 _ _ PYZ) HA) as P6.
    set (s1 := X * X) in *. set (s2 := Y * Y) in *. set (s3 := Z * Z) in *. set (s4 := 2 * X * Y * C) in *. set (s5 := 2 * X * Z * B) in *. set (s6 := 2 * Y * Z * A) in *. set (w := q * q) in *.
    assert (W1 : forall t s, Rabs (t - s) <= 21 / 10 * v * (256 * w) -> Rabs (t - s) <= 538 * v * w) by (intros t s H; eapply Rle_trans; [exact H|]; lra).
    assert (W2 : forall t s, Rabs (t - s) <= 72 / 10 * v * (512 * w) -> Rabs (t - s) <= 3687 * v * w) by (intros t s H; eapply Rle_trans; [exact H|]; lra).
    apply W1 in T1, T2, T3. apply W2 in T4, T5, T6. clear W1 W2 Q16 D2 BX BY BZ PXY PXZ PYZ.
    apply Rabs_le_inv in PXX, PYY, PZZ, P4, P5, P6.
    assert (EW : s1 + s2 + s3 + s4 + s5 + s6 = w) by exact E.
    assert (B1 : Rabs (s1 + s2) <= 512 * w) by (apply Rabs_le; lra). assert (B2 : Rabs (s1 + s2 + s3) <= 768 * w) by (apply Rabs_le; lra). assert (B3 : Rabs (s1 + s2 + s3 + s4) <= 1280 * w) by (apply Rabs_le; lra). assert (B4 : Rabs (s1 + s2 + s3 + s4 + s5) <= 1792 * w) by (apply Rabs_le; lra). assert (B5 : Rabs (s1 + s2 + s3 + s4 + s5 + s6) <= 1 * w) by (apply Rabs_le; lra).
    pose proof (add_rnd _ _ _ _ 512 538 538 1600 T1 T2 B1 ltac:(lra) ltac:(lra) ltac:(lra) ltac:(lra)) as F1.
    pose proof (add_rnd _ _ _ _ 768 1600 538 2920 F1 T3 B2 ltac:(lra) ltac:(lra) ltac:(lra) ltac:(lra)) as F2.
    pose proof (add_rnd _ _ _ _ 1280 2920 3687 7910 F2 T4 B3 ltac:(lra) ltac:(lra) ltac:(lra) ltac:(lra)) as F3.
    pose proof (add_rnd _ _ _ _ 1792 7910 3687 13420 F3 T5 B4 ltac:(lra) ltac:(lra) ltac:(lra) ltac:(lra)) as F4.
    pose proof (add_rnd _ _ _ _ 1 13420 3687 17120 F4 T6 B5 ltac:(lra) ltac:(lra) ltac:(lra) ltac:(lra)) as F5. rewrite EW in F5. fold w in F5.
    eapply Rle_trans; [exact F5|]. lra.
  Qed.
  Lemma r_err : Rabs (rnd (sqrt (fp_r2 a b c ca cb cg (m, n, o))) - q) <= 30010 * v * q.
  Proof.
    pose proof r2_err as H. pose proof q_pos as Q0. assert (QQ : 0 < q * q) by (now apply Rmult_lt_0_compat). set (x := fp_r2 a b c ca cb cg (m, n, o)) in *. clearbody x.
    assert (X0 : 0 <= x) by (apply Rabs_le_inv in H; lra). pose proof (ratio_err x (q * q) _ X0 QQ H) as S. rewrite sqrt_square in S by lra.
    assert (NB : Rabs q <= q) by (rewrite Rabs_pos_eq; lra). pose proof (abs_near _ _ _ _ S NB) as N.
    assert (R : Rabs (rnd (sqrt x) - sqrt x) <= v * (1.01 * q)). { apply rb; [lra|]. apply Rle_trans with (bpow radix2 (-450)); [apply bpow_le; lia|lra]. }
    pose proof (abs_tri _ _ _ _ _ R S). lra.
  Qed.
End Dist.

(** in terms of the cell *)
Lemma unit_trig t : 0 < sin t -> Rabs (cos t) <= 1 /\ 0 < 1 - cos t * cos t.
Proof.
  intros H. pose proof (sin2_cos2 t) as E. unfold Rsqr in E. assert (0 < sin t * sin t) by (now apply Rmult_lt_0_compat). split; [|lra]. apply abs_sq; lra.
Qed.
Lemma cell2_low a b c al be ga m n o : usual_edge a -> usual_edge b -> usual_edge c -> 0 < sin al -> 0 < sin be -> 0 < sin ga -> / 256 <= unit_volume2 al be ga -> (m, n, o) <> (0, 0, 0)%Z ->
  bpow radix2 (-450) <= sqrt (cell2 a b c al be ga (m, n, o)) /\ 0 <= cell2 a b c al be ga (m, n, o).
Proof.
  intros Ha Hb Hc H1 H2 H3 HV Hp. destruct (unit_trig _ H1) as [A1 A2]. destruct (unit_trig _ H2) as [B1 B2]. destruct (unit_trig _ H3) as [C1 C2].
  set (Q := cell2 a b c al be ga (m, n, o)).
  assert (Q0 : 0 <= Q). { assert (G : forall t, 0 < sin t -> good_trig t (cos t) (sin t)). { intros t Ht. unfold good_trig. rewrite !Rminus_diag_eq, Rabs_R0 by reflexivity. pose proof (bpow_gt_0 radix2 (-50)). lra. } exact (proj1 (proj2 (cell_angles a b c al be ga _ _ _ _ _ _ Ha Hb Hc (G _ H1) (G _ H2) (G _ H3) HV) (m, n, o))). }
  split; [|exact Q0]. set (q := sqrt Q). pose proof (sqrt_pos Q) as q0. fold q in q0. assert (EQ : Q = q * q) by (symmetry; now apply sqrt_sqrt).
  unfold unit_volume2 in HV. unfold Q, cell2 in EQ.
  assert (BX : Rabs (IZR m * a) <= 16 * q) by (apply (coord_bound (cos al) (cos be) (cos ga) _ (IZR n * b) (IZR o * c)); try lra; auto).
  assert (BY : Rabs (IZR n * b) <= 16 * q) by (apply (coord_bound (cos be) (cos al) (cos ga) _ (IZR m * a) (IZR o * c)); try lra; auto).
  assert (BZ : Rabs (IZR o * c) <= 16 * q) by (apply (coord_bound (cos ga) (cos be) (cos al) _ (IZR n * b) (IZR m * a)); try lra; auto).
  assert (K : forall k e, k <> 0%Z -> usual_edge e -> Rabs (IZR k * e) <= 16 * q -> bpow radix2 (-450) <= q).
  { intros k e Hk He HB. pose proof (rng_pos _ _ (rng_usual _ He)) as Pe. assert (K1 : 1 <= Rabs (IZR k)) by (rewrite <- abs_IZR; apply (IZR_le 1); lia). rewrite Rabs_mult, (Rabs_pos_eq e) in HB by lra. assert (1 * e <= Rabs (IZR k) * e) by (apply Rmult_le_compat_r; lra).
    destruct He as [He _]. assert (L : bpow radix2 (-450) <= bpow radix2 (-204)) by (apply bpow_le; lia). change (-200)%Z with (4 + -204)%Z in He. rewrite bpow_plus in He. change (bpow radix2 4) with 16 in He. lra. }
  destruct (Z.eq_dec m 0) as [->|Hm]; [|now apply (K m a)]. destruct (Z.eq_dec n 0) as [->|Hn]; [|now apply (K n b)]. destruct (Z.eq_dec o 0) as [->|Ho]; [congruence|now apply (K o c)].
Qed.

Lemma r_dist a b c al be ga ca cb cg sa sb sg p : usual_edge a -> usual_edge b -> usual_edge c -> good_trig al ca sa -> good_trig be cb sb -> good_trig ga cg sg ->
  / 256 <= unit_volume2 al be ga -> Rabs (rnd (sqrt (fp_r2 a b c ca cb cg p)) - sqrt (cell2 a b c al be ga p)) <= 30010 * v * sqrt (cell2 a b c al be ga p).
Proof.
  intros Ha Hb Hc (P1 & C1 & S1) (P2 & C2 & S2) (P3 & C3 & S3) HV. destruct p as [[m n] o].
  assert (E50 : bpow radix2 (-50) = 4 * v) by (change (bpow radix2 (-50)) with (/ 1125899906842624); lra). rewrite E50 in *.
  assert (DEC : (m, n, o) = (0, 0, 0)%Z \/ (m, n, o) <> (0, 0, 0)%Z).
  { destruct (Z.eq_dec m 0) as [->|]; [|right; congruence]. destruct (Z.eq_dec n 0) as [->|]; [|right; congruence]. destruct (Z.eq_dec o 0) as [->|]; [left; reflexivity|right; congruence]. }
  destruct DEC as [E|Hp].
  - injection E as -> -> ->. assert (R0 : rnd 0 = 0) by (apply rnd_id, (dbl_Z 0); lia). unfold fp_r2, cell2. change (0 * 0)%Z with 0%Z. change (2 * 0 * 0)%Z with 0%Z. cbn [Z.mul].
    assert (E1 : sqrt ((0 * a) ^ 2 + (0 * b) ^ 2 + (0 * c) ^ 2 + 2 * (0 * a) * (0 * b) * cos ga + 2 * (0 * a) * (0 * c) * cos be + 2 * (0 * b) * (0 * c) * cos al) = 0) by (transitivity (sqrt 0); [f_equal; ring|apply sqrt_0]).
    rewrite E1. repeat (progress rewrite ?Rmult_0_l, ?Rplus_0_l, ?R0). rewrite sqrt_0, R0, Rminus_diag_eq, Rabs_R0 by reflexivity. lra.
  - destruct (cell2_low a b c al be ga m n o Ha Hb Hc P1 P2 P3 HV Hp) as [L Q0]. destruct (unit_trig _ P1) as [A1 A2]. destruct (unit_trig _ P2) as [B1 B2]. destruct (unit_trig _ P3) as [D1 D2].
    pose proof (sqrt_sqrt _ Q0) as EQ. set (q := sqrt (cell2 a b c al be ga (m, n, o))) in *. unfold unit_volume2 in HV. unfold cell2 in EQ.
    apply (r_err (cos al) (cos be) (cos ga) ca cb cg a b c q m n o); auto; lra.
Qed.
