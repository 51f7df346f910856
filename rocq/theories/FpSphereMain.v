(** Proofs for FpSphere.v: which points are visited. *)
From Flocq Require Import Core.
From Coq Require Import Reals Lra Lia.
From Verif Require Import RBase Fp FpSphere FpSphereSpec FpSphereLoop FpSphereProofs.
Import ListNotations.
Open Scope R_scope.

Lemma half_nonneg x B : 0 <= B -> 0 <= fp_half x B.
Proof. intros HB. unfold fp_half. destruct (Rltb 0 x); [|lra]. apply rnd_nonneg, Rmult_le_pos; [apply rnd_nonneg, sqrt_pos|exact HB]. Qed.
Lemma half_pos x B : 0 < fp_half x B -> 0 < x.
Proof. unfold fp_half. destruct (Rltb 0 x) eqn:E; [intros _; now apply Rltb_true|lra]. Qed.
Lemma below_rnd z k : (Z.abs k < 2 ^ 31)%Z -> IZR k < rnd z -> IZR k < z.
Proof. intros Hk H. destruct (Rlt_le_dec (IZR k) z) as [G|G]; [exact G|]. assert (rnd z <= IZR k) by (apply rnd_le_dbl; [exact G|apply dbl_Z; lia]). lra. Qed.
Lemma above_rnd z k : (Z.abs k < 2 ^ 31)%Z -> rnd z < IZR k -> z < IZR k.
Proof. intros Hk H. destruct (Rlt_le_dec z (IZR k)) as [G|G]; [exact G|]. assert (IZR k <= rnd z) by (apply rnd_ge_dbl; [exact G|apply dbl_Z; lia]). lra. Qed.
Lemma rms W : 0 <= W -> RmaxSquare W = rnd (W * W).
Proof. intros H. unfold RmaxSquare. replace (Rltb W 0) with false; [reflexivity|]. symmetry. now apply Rltb_false. Qed.

Section Main.
  Context (Rmin W : R) (L : fp_par) (HL : par_ok L) (HW : bpow radix2 (-300) <= W).
  Notation A := (FpSphere.ar L). Notation B := (FpSphere.b2r L). Notation C := (FpSphere.c1r L). Notation S := (W * W).

  Lemma W0 : 0 < W. Proof using HW. pose proof (bpow_gt_0 radix2 (-300)). lra. Qed.
  Lemma A0 : 0 < A. Proof using HL. destruct HL. pose proof (bpow_gt_0 radix2 (-300)). lra. Qed.
  Lemma B0 : 0 < B. Proof using HL. destruct HL. pose proof (bpow_gt_0 radix2 (-300)). lra. Qed.
  Lemma C0 : 0 < C. Proof using HL. destruct HL. pose proof (bpow_gt_0 radix2 (-300)). lra. Qed.

  Definition X (m : Z) : R := IZR m / A.
  Definition dN (m n : Z) : R := IZR n - IZR m * dn0dm L.
  Definition Y (m n : Z) : R := dN m n / B.
  Definition O0 (m n : Z) : R := IZR m * do0dm L + dN m n * do0dn L.
  Definition Zc (m n o : Z) : R := (IZR o - O0 m n) / C.
  Lemma len2_eq m n o : len2 L (m, n, o) = X m * X m + Y m n * Y m n + Zc m n o * Zc m n o.
  Proof. unfold len2, X, Y, Zc, O0, dN. ring. Qed.

  Lemma plane_facts m : Rabs (X m) <= 2 * W ->
    Rabs (n0 L m - IZR m * dn0dm L) <= 128 * v * (W * B) /\ Rabs (Rp W L m - (S - X m * X m)) <= 32 * v * S.
  Proof.
    intros Hx. destruct HL as [Ha Hb Hc Hn Ho Hl]. split.
    - apply foot_err with (A := A); auto.
    - unfold Rp. rewrite rms by (pose proof W0; lra). now apply plane_err.
  Qed.
  Lemma line_facts m n : Rabs (X m) <= 2 * W -> Rabs (Y m n) <= 2 * W ->
    Rabs (Rl W L m n - (S - X m * X m - Y m n * Y m n)) <= 1024 * v * S /\
    Rabs (o0l L m n - O0 m n) <= 16384 * v * (W * C).
  Proof.
    intros Hx Hy. destruct (plane_facts m Hx) as [F1 F2]. pose proof HL as [Ha Hb Hc Hn Ho Hl].
    destruct (line_err W B (IZR n) (IZR m * dn0dm L) (n0 L m) HW Hb Hy F1) as (G1 & G2 & G3). split.
    - unfold Rl. apply rest_err; auto.
    - destruct (foot_err W A C (IZR m) (do0dm L) HW Ha Hc Ho Hx) as [E1 E2]. unfold o0l, o0p, O0.
      apply (foot2_err W B C (dN m n) (do0dn L) (IZR m * do0dm L) (rnd (IZR m * do0dm L)) (Y m n)); auto.
  Qed.

  Lemma nlist_in m n : In n (nlist W L m) <-> rnd (n0 L m - nhalf W L m) < IZR n < rnd (n0 L m + nhalf W L m).
  Proof. unfold nlist. rewrite zrange_In, <- Rceil_gt, <- Rfloor_lt. lia. Qed.
  Lemma mlist_in m : In m (zrange (- mhi W L + 1) (mhi W L)) <-> Rabs (IZR m) < rnd (W * A).
  Proof.
    rewrite zrange_In. assert (E : ((- mhi W L + 1 <= m < mhi W L) <-> (m < mhi W L /\ - m < mhi W L))%Z) by lia. rewrite E.
    unfold mhi. rewrite !Rceil_gt, opp_IZR. split.
    - intros H. apply Rabs_def1; lra.
    - intros H. apply Rabs_def2 in H. lra.
  Qed.
  Lemma olist_upper m n o : In o (olist Rmin W L m n) -> (Z.abs o < 2 ^ 31)%Z -> Rabs (IZR o - o0l L m n) < ohalf W L m n \/ False.
  Proof.
    intros H Hb. left. pose proof C0 as HC.
    assert (N1 : 0 <= ohalf W L m n) by (apply half_nonneg; lra). assert (N2 : 0 <= excl Rmin W L m n) by (apply half_nonneg; lra).
    assert (D0 : rnd (o0l L m n) = o0l L m n) by (apply rnd_id; unfold o0l; apply rnd_dbl).
    assert (HU : (o < outside W L m n)%Z -> IZR o - o0l L m n < ohalf W L m n).
    { intros G. unfold outside in G. apply Rceil_gt in G. apply below_rnd in G; [lra|exact Hb]. }
    assert (HO : (hole Rmin W L m n <= outside W L m n)%Z).
    { unfold hole, outside. apply Rceil_le. apply Rle_trans with (rnd (o0l L m n + ohalf W L m n)); [apply rnd_le; lra|apply Rceil_spec]. }
    assert (HH : (hi Rmin W L m n <= outside W L m n)%Z) by (unfold hi; destruct (Reqb _ _); [lia|]; destruct (Rltb _ _); lia).
    assert (HLo : (Rfloor (rnd (o0l L m n - ohalf W L m n)) + 1 <= o)%Z -> o0l L m n - IZR o < ohalf W L m n).
    { intros G. assert (G' : (Rfloor (rnd (o0l L m n - ohalf W L m n)) < o)%Z) by lia. apply Rfloor_lt in G'. apply above_rnd in G'; [lra|exact Hb]. }
    unfold olist in H. destruct (hi Rmin W L m n =? outside W L m n)%Z.
    - apply zrange_In in H as [H1 H2]. apply Rabs_def1; [now apply HU|]. specialize (HLo H1). lra.
    - apply in_app_iff in H as [H|H]; apply zrange_In in H as [H1 H2].
      + apply Rabs_def1; [apply HU; lia|]. specialize (HLo H1). lra.
      + specialize (HU H2). apply Rceil_le in H1. assert (rnd (o0l L m n) <= rnd (o0l L m n + excl Rmin W L m n)) by (apply rnd_le; lra).
        rewrite D0 in H. apply Rabs_def1; lra.
  Qed.

  Lemma X_bound m : In m (zrange (- mhi W L + 1) (mhi W L)) -> Rabs (X m) <= 2 * W.
  Proof.
    intros H. apply mlist_in in H. pose proof W0 as H0. pose proof A0 as HA. pose proof HL as [Ha _ _ _ _ _]. pose proof (bpow_gt_0 radix2 (-300)) as P.
    assert (B1 : bpow radix2 (-1000) <= W * A).
    { apply Rle_trans with (bpow radix2 (-300) * bpow radix2 (-300)); [rewrite <- bpow_plus; apply bpow_le; lia|apply Rmult_le_compat; lra]. }
    assert (WA : 0 < W * A) by (apply Rmult_lt_0_compat; lra).
    pose proof (rb (W * A) (W * A) ltac:(rewrite Rabs_pos_eq; lra) B1) as E. apply Rabs_le_inv in E. unfold X. apply absdiv; [exact HA|]. lra.
  Qed.
  Lemma Y_bound m n : Rabs (X m) <= 2 * W -> (Z.abs n < 2 ^ 31)%Z -> In n (nlist W L m) -> Rabs (Y m n) <= 2 * W.
  Proof.
    intros Hx Hb H. apply nlist_in in H as [H1 H2]. apply above_rnd in H1; [|exact Hb]. apply below_rnd in H2; [|exact Hb].
    destruct (plane_facts m Hx) as [F1 F2]. pose proof W0 as H0. pose proof B0 as HB. pose proof HL as [_ HB' _ _ _ _].
    assert (S0 : 0 < S) by (apply Rmult_lt_0_compat; lra). assert (WB : 0 < W * B) by (apply Rmult_lt_0_compat; lra).
    assert (HR : 0 < Rp W L m) by (apply half_pos with B; change (0 < nhalf W L m); lra).
    pose proof (Rle_0_sqr (X m)) as Q. unfold Rsqr in Q.
    assert (HR2 : Rp W L m <= 121/100 * S) by (apply Rabs_le_inv in F2; lra).
    destruct (half_err W B (Rp W L m) HW HB' HR ltac:(lra)) as (E1 & _ & E2). fold (nhalf W L m) in E2.
    assert (Es : sqrt (Rp W L m) <= 11 / 10 * W).
    { rewrite <- (sqrt_square (11 / 10 * W)) by lra. apply sqrt_le_1; lra. }
    assert (E3 : sqrt (Rp W L m) * B <= 11 / 10 * (W * B)).
    { replace (11 / 10 * (W * B)) with (11 / 10 * W * B) by ring. apply Rmult_le_compat_r; lra. }
    unfold Y. apply absdiv; [exact HB|]. unfold dN. apply Rabs_le_inv in F1. apply Rabs_le_inv in E2. apply Rabs_le. lra.
  Qed.

  (** with room in the squared length there is room along the axis *)
  Lemma room R y z : Rabs y <= W -> y * y + / 2147483648 * S <= R -> R <= 16 * S ->
    forall D, bpow radix2 (-300) <= D -> z = y * D -> z + / 17179869184 * (W * D) <= fp_half R D.
  Proof.
    intros Hy HR HR2 D HD ->. pose proof W0 as H0. pose proof (bpow_gt_0 radix2 (-300)) as P.
    assert (S0 : 0 < S) by (apply Rmult_lt_0_compat; lra). assert (WD : 0 < W * D) by (apply Rmult_lt_0_compat; lra).
    pose proof (Rle_0_sqr y) as Q. unfold Rsqr in Q.
    destruct (half_err W D R HW HD ltac:(lra) HR2) as (E1 & _ & E2).
    assert (HS : Rabs y + / 8589934592 * W <= sqrt R).
    { pose proof (Rabs_pos y) as Py. rewrite <- (sqrt_square (Rabs y + / 8589934592 * W)) by lra. apply sqrt_le_1; [apply Rle_0_sqr|lra|].
      replace ((Rabs y + / 8589934592 * W) * (Rabs y + / 8589934592 * W)) with (Rabs y * Rabs y + 2 * / 8589934592 * (Rabs y * W) + / 8589934592 * / 8589934592 * S) by ring.
      assert (Rabs y * Rabs y = y * y) by (rewrite <- Rabs_mult; apply Rabs_pos_eq; exact Q).
      assert (Rabs y * W <= S) by (apply Rmult_le_compat_r; lra). lra. }
    assert (HS2 : (y + / 8589934592 * W) * D <= sqrt R * D) by (apply Rmult_le_compat_r; [lra|]; pose proof (Rle_abs y); lra).
    apply Rabs_le_inv in E2. lra.
  Qed.
  (** ... and where the excluded zone ends before [z], it ends clearly before *)
  Lemma room_out R z : Rabs z <= W -> R <= z * z - / 2147483648 * S ->
    forall D, bpow radix2 (-300) <= D -> fp_half R D = 0 \/ fp_half R D + / 17179869184 * (W * D) <= Rabs z * D.
  Proof.
    intros Hz HR D HD. pose proof W0 as H0. pose proof (bpow_gt_0 radix2 (-300)) as P.
    assert (S0 : 0 < S) by (apply Rmult_lt_0_compat; lra). assert (WD : 0 < W * D) by (apply Rmult_lt_0_compat; lra).
    destruct (Rle_lt_dec R 0) as [H|H].
    - left. unfold fp_half. replace (Rltb 0 R) with false; [reflexivity|]. symmetry. now apply Rltb_false.
    - right. assert (Hzz : z * z <= S). { rewrite <- (Rabs_pos_eq (z * z)) by (apply Rle_0_sqr). rewrite Rabs_mult. apply Rmult_le_compat; auto using Rabs_pos. }
      destruct (half_err W D R HW HD H ltac:(lra)) as (E1 & _ & E2).
      assert (HS : sqrt R <= Rabs z - / 8589934592 * W).
      { assert (Ez : Rabs z * Rabs z = z * z) by (rewrite <- Rabs_mult; apply Rabs_pos_eq, Rle_0_sqr). pose proof (Rabs_pos z) as Pz.
        assert (Hpos : / 8589934592 * W <= Rabs z).
        { destruct (Rle_lt_dec (/ 8589934592 * W) (Rabs z)) as [G|G]; [exact G|]. exfalso.
          assert (Rabs z * Rabs z <= / 8589934592 * W * (/ 8589934592 * W)) by (apply Rmult_le_compat; lra). lra. }
        rewrite <- (sqrt_square (Rabs z - / 8589934592 * W)) by lra. apply sqrt_le_1; [lra|apply Rle_0_sqr|].
        replace ((Rabs z - / 8589934592 * W) * (Rabs z - / 8589934592 * W)) with (Rabs z * Rabs z - 2 * / 8589934592 * (Rabs z * W) + / 8589934592 * / 8589934592 * S) by ring.
        assert (Rabs z * W <= S) by (apply Rmult_le_compat_r; lra). lra. }
      assert (HS2 : sqrt R * D <= (Rabs z - / 8589934592 * W) * D) by (apply Rmult_le_compat_r; lra).
      apply Rabs_le_inv in E2. lra.
  Qed.

  Theorem sound m n o : In (m, n, o) (all_points Rmin W L) -> ints (m, n, o) -> len2 L (m, n, o) <= (1 + margin) * S.
  Proof.
    intros H (Bm & Bn & Bo). unfold all_points in H. apply in_flat_map in H as (m' & Hm & H). unfold plane in H.
    apply in_flat_map in H as (n' & Hn & H). apply in_map_iff in H as (o' & Eo & H). injection Eo as -> -> ->.
    pose proof (X_bound m Hm) as Hx. pose proof (Y_bound m n Hx Bn Hn) as Hy. destruct (line_facts m n Hx Hy) as [F1 F2].
    pose proof W0 as H0. pose proof C0 as HC. pose proof HL as [_ _ HC' _ _ _].
    assert (S0 : 0 < S) by (apply Rmult_lt_0_compat; lra). assert (WC : 0 < W * C) by (apply Rmult_lt_0_compat; lra).
    destruct (olist_upper m n o H Bo) as [G|[]].
    assert (HR : 0 < Rl W L m n). { apply half_pos with C. change (0 < ohalf W L m n). pose proof (Rabs_pos (IZR o - o0l L m n)). lra. }
    pose proof (Rle_0_sqr (X m)) as Q1. pose proof (Rle_0_sqr (Y m n)) as Q2. unfold Rsqr in Q1, Q2. apply Rabs_le_inv in F1.
    destruct (half_err W C (Rl W L m n) HW HC' HR ltac:(lra)) as (E1 & _ & E2). fold (ohalf W L m n) in E2.
    assert (HZ : Rabs (Zc m n o) <= sqrt (Rl W L m n) + 16400 * v * W).
    { unfold Zc. apply absdiv; [exact HC|]. apply Rabs_le_inv in E2. apply Rabs_le_inv in F2. apply Rabs_def2 in G. apply Rabs_le. lra. }
    set (s := sqrt (Rl W L m n)) in *. assert (Es : s * s = Rl W L m n) by (apply sqrt_sqrt; lra).
    pose proof (absmul _ _ _ _ HZ HZ) as HZ2. apply Rabs_le_inv in HZ2. destruct HZ2 as [_ HZ2].
    assert (HsW : s * W <= 4 * S) by (replace (4 * S) with (4 * W * W) by ring; apply Rmult_le_compat_r; lra).
    replace ((s + 16400 * v * W) * (s + 16400 * v * W)) with (s * s + 32800 * v * (s * W) + 16400 * v * (16400 * v) * S) in HZ2 by ring.
    rewrite len2_eq. unfold margin. lra.
  Qed.
  Lemma excl_none m n : Rmin <= 0 -> excl Rmin W L m n = 0.
  Proof.
    intros HR. unfold excl, fp_half. replace (Rltb 0 (Rx Rmin W L m n)) with false; [reflexivity|]. symmetry. apply Rltb_false.
    assert (HQ : RminSquare Rmin <= 0).
    { unfold RminSquare. pose proof (rnd_nonneg (Rmin * Rmin) (Rle_0_sqr Rmin)) as P. destruct (Rltb Rmin 0) eqn:E; [lra|]. apply Rltb_false in E.
      replace Rmin with 0 by lra. rewrite Rmult_0_l, rnd_0. lra. }
    assert (Hsq : forall x, 0 <= fp_sq x) by (intros x; apply rnd_nonneg, Rle_0_sqr).
    assert (H1 : Rp W L m <= RmaxSquare W).
    { unfold Rp. apply rnd_le_dbl; [pose proof (Hsq (rnd (IZR m / A))); lra|]. rewrite rms by (pose proof W0; lra). apply rnd_dbl. }
    assert (H2 : Rl W L m n <= Rp W L m).
    { unfold Rl. apply rnd_le_dbl; [pose proof (Hsq (rnd (rnd (IZR n - n0 L m) / B))); lra|]. apply rnd_dbl. }
    unfold Rx. apply rnd_le_dbl; [|apply dbl_0]. assert (rnd (Rl W L m n - RmaxSquare W) <= 0) by (apply rnd_le_dbl; [lra|apply dbl_0]). lra.
  Qed.

  Theorem complete m n o : ints (m, n, o) -> len2 L (m, n, o) <= (1 - margin) * S ->
    Rmin <= 0 \/ Rmin * Rmin + margin * S <= len2 L (m, n, o) -> In (m, n, o) (all_points Rmin W L).
  Proof.
    intros (Bm & Bn & Bo) HU HLo. rewrite len2_eq in *. pose proof W0 as H0. pose proof A0 as HA. pose proof B0 as HB. pose proof C0 as HC.
    pose proof HL as [HA' HB' HC' _ _ _]. pose proof (bpow_gt_0 radix2 (-300)) as P0.
    assert (S0 : 0 < S) by (apply Rmult_lt_0_compat; lra). assert (WA : 0 < W * A) by (apply Rmult_lt_0_compat; lra).
    assert (WB : 0 < W * B) by (apply Rmult_lt_0_compat; lra). assert (WC : 0 < W * C) by (apply Rmult_lt_0_compat; lra).
    pose proof (Rle_0_sqr (X m)) as Qx. pose proof (Rle_0_sqr (Y m n)) as Qy. pose proof (Rle_0_sqr (Zc m n o)) as Qz. unfold Rsqr in Qx, Qy, Qz.
    unfold margin in *.
    assert (BW : forall t, t * t <= (1 - / 1073741824) * S -> Rabs t <= (1 - / 4294967296) * W).
    { intros t Ht. apply Rsqr_incr_0_var; [|lra]. rewrite <- Rsqr_abs. unfold Rsqr.
      replace ((1 - / 4294967296) * W * ((1 - / 4294967296) * W)) with ((1 - / 4294967296) * (1 - / 4294967296) * S) by ring. lra. }
    pose proof (BW (X m) ltac:(lra)) as Hx. pose proof (BW (Y m n) ltac:(lra)) as Hy. pose proof (BW (Zc m n o) ltac:(lra)) as Hz.
    assert (Hx2 : Rabs (X m) <= 2 * W) by lra. assert (Hy2 : Rabs (Y m n) <= 2 * W) by lra.
    destruct (plane_facts m Hx2) as [F1 F2]. destruct (line_facts m n Hx2 Hy2) as [F3 F4].
    (* the plane *)
    assert (Hm : In m (zrange (- mhi W L + 1) (mhi W L))).
    { apply mlist_in. assert (E : Rabs (IZR m) <= (1 - / 4294967296) * (W * A)).
      { replace (IZR m) with (X m * A) by (unfold X; field; lra). replace ((1 - / 4294967296) * (W * A)) with ((1 - / 4294967296) * W * A) by ring.
        apply absmul; [exact Hx|rewrite Rabs_pos_eq; lra]. }
      assert (B1 : bpow radix2 (-1000) <= W * A).
      { apply Rle_trans with (bpow radix2 (-300) * bpow radix2 (-300)); [rewrite <- bpow_plus; apply bpow_le; lia|apply Rmult_le_compat; lra]. }
      pose proof (rb (W * A) (W * A) ltac:(rewrite Rabs_pos_eq; lra) B1) as E'. apply Rabs_le_inv in E'. lra. }
    (* the line *)
    assert (Hn : In n (nlist W L m)).
    { apply nlist_in. apply Rabs_le_inv in F2.
      assert (K1 : Y m n * B + / 17179869184 * (W * B) <= nhalf W L m) by (apply (room _ (Y m n)); auto; lra).
      assert (K2 : - Y m n * B + / 17179869184 * (W * B) <= nhalf W L m) by (apply (room _ (- Y m n)); auto; try lra; rewrite Rabs_Ropp; lra).
      assert (EN : IZR n = IZR m * dn0dm L + Y m n * B) by (unfold Y, dN; field; lra).
      assert (NH : nhalf W L m <= 2 * (W * B)).
      { unfold nhalf. destruct (half_err W B (Rp W L m) HW HB' ltac:(lra) ltac:(lra)) as (_ & _ & E2). 
        assert (sqrt (Rp W L m) <= 11 / 10 * W) by (rewrite <- (sqrt_square (11 / 10 * W)) by lra; apply sqrt_le_1; lra).
        assert (sqrt (Rp W L m) * B <= 11 / 10 * (W * B)) by (replace (11 / 10 * (W * B)) with (11 / 10 * W * B) by ring; apply Rmult_le_compat_r; lra).
        apply Rabs_le_inv in E2. lra. }
      assert (NP : 0 <= nhalf W L m) by (apply half_nonneg; lra).
      destruct (foot_err W A B (IZR m) (dn0dm L) HW HA' HB' (ok_n _ HL) Hx2) as [G1 _].
      assert (B1 : bpow radix2 (-1000) <= W * B).
      { apply Rle_trans with (bpow radix2 (-300) * bpow radix2 (-300)); [rewrite <- bpow_plus; apply bpow_le; lia|apply Rmult_le_compat; lra]. }
      apply Rabs_le_inv in G1. apply Rabs_le_inv in F1.
      pose proof (rb (n0 L m - nhalf W L m) (256 * (W * B)) ltac:(apply Rabs_le; lra) ltac:(lra)) as E1.
      pose proof (rb (n0 L m + nhalf W L m) (256 * (W * B)) ltac:(apply Rabs_le; lra) ltac:(lra)) as E2.
      apply Rabs_le_inv in E1. apply Rabs_le_inv in E2. lra. }
    (* the point *)
    assert (EO : IZR o = O0 m n + Zc m n o * C) by (unfold Zc; field; lra).
    assert (GO : Rabs (O0 m n) <= 256 * (W * C)).
    { destruct (foot_err W A C (IZR m) (do0dm L) HW HA' HC' (ok_o _ HL) Hx2) as [E1 E2].
      assert (Ez : Rabs (dN m n) <= 2 * (W * B)).
      { replace (dN m n) with (Y m n * B) by (unfold Y; field; lra). replace (2 * (W * B)) with (2 * W * B) by ring. apply absmul; [lra|rewrite Rabs_pos_eq; lra]. }
      assert (E3 : Rabs (dN m n * do0dn L) <= 128 * (W * C)).
      { replace (dN m n * do0dn L) with (Y m n * (do0dn L * B)) by (unfold Y; field; lra). replace (128 * (W * C)) with (2 * W * (64 * C)) by ring.
        apply absmul; [lra|]. rewrite Rabs_mult, (Rabs_pos_eq B) by lra. apply (ok_l _ HL). }
      unfold O0. apply Rabs_le. apply Rabs_le_inv in E1. apply Rabs_le_inv in E3. lra. }
    assert (B1 : bpow radix2 (-1000) <= W * C).
    { apply Rle_trans with (bpow radix2 (-300) * bpow radix2 (-300)); [rewrite <- bpow_plus; apply bpow_le; lia|apply Rmult_le_compat; lra]. }
    assert (BS : bpow radix2 (-1000) <= S).
    { apply Rle_trans with (bpow radix2 (-300) * bpow radix2 (-300)); [rewrite <- bpow_plus; apply bpow_le; lia|apply Rmult_le_compat; lra]. }
    apply Rabs_le_inv in F3. apply Rabs_le_inv in F4. apply Rabs_le_inv in GO.
    assert (K1 : Zc m n o * C + / 17179869184 * (W * C) <= ohalf W L m n) by (apply (room _ (Zc m n o)); auto; lra).
    assert (K2 : - Zc m n o * C + / 17179869184 * (W * C) <= ohalf W L m n) by (apply (room _ (- Zc m n o)); auto; try lra; rewrite Rabs_Ropp; lra).
    assert (OH : 0 <= ohalf W L m n <= 2 * (W * C)).
    { split; [apply half_nonneg; lra|]. unfold ohalf. destruct (half_err W C (Rl W L m n) HW HC' ltac:(lra) ltac:(lra)) as (_ & _ & E2).
      assert (sqrt (Rl W L m n) <= 11 / 10 * W) by (rewrite <- (sqrt_square (11 / 10 * W)) by lra; apply sqrt_le_1; lra).
      assert (sqrt (Rl W L m n) * C <= 11 / 10 * (W * C)) by (replace (11 / 10 * (W * C)) with (11 / 10 * W * C) by ring; apply Rmult_le_compat_r; lra).
      apply Rabs_le_inv in E2. lra. }
    assert (I1 : (Rfloor (rnd (o0l L m n - ohalf W L m n)) + 1 <= o < outside W L m n)%Z).
    { pose proof (rb (o0l L m n - ohalf W L m n) (300 * (W * C)) ltac:(apply Rabs_le; lra) ltac:(lra)) as E1.
      pose proof (rb (o0l L m n + ohalf W L m n) (300 * (W * C)) ltac:(apply Rabs_le; lra) ltac:(lra)) as E2.
      apply Rabs_le_inv in E1. apply Rabs_le_inv in E2. split.
      - assert (Rfloor (rnd (o0l L m n - ohalf W L m n)) < o)%Z; [|lia]. apply Rfloor_lt. lra.
      - unfold outside. apply Rceil_gt. lra. }
    assert (I2 : excl Rmin W L m n = 0 \/ (o < hole Rmin W L m n)%Z \/ (Rceil (rnd (o0l L m n + excl Rmin W L m n)) <= o)%Z).
    { destruct HLo as [HLo|HLo]; [left; now apply excl_none|]. destruct (Rle_lt_dec Rmin 0) as [Hneg|Hpos]; [left; now apply excl_none|].
      assert (HQ : RminSquare Rmin = rnd (Rmin * Rmin)).
      { unfold RminSquare. replace (Rltb Rmin 0) with false; [reflexivity|]. symmetry. apply Rltb_false. lra. }
      assert (Hrm : 0 <= Rmin * Rmin <= S) by (split; [apply Rle_0_sqr|lra]).
      pose proof (rb (Rmin * Rmin) S ltac:(rewrite Rabs_pos_eq; lra) BS) as E1. pose proof (rb S S ltac:(rewrite Rabs_pos_eq; lra) BS) as E2.
      rewrite <- HQ in E1. rewrite <- (rms W) in E2 by lra. apply Rabs_le_inv in E1. apply Rabs_le_inv in E2.
      pose proof (rb (Rl W L m n - RmaxSquare W) (3 * S) ltac:(apply Rabs_le; lra) ltac:(lra)) as E3. apply Rabs_le_inv in E3.
      pose proof (rb (rnd (Rl W L m n - RmaxSquare W) + RminSquare Rmin) (5 * S) ltac:(apply Rabs_le; lra) ltac:(lra)) as E4. apply Rabs_le_inv in E4.
      fold (Rx Rmin W L m n) in E4.
      destruct (room_out (Rx Rmin W L m n) (Zc m n o) ltac:(lra) ltac:(lra) C HC') as [E|E]; [left; exact E|right].
      fold (excl Rmin W L m n) in E. assert (EX : 0 <= excl Rmin W L m n) by (apply half_nonneg; lra).
      assert (HZC : Rabs (Zc m n o) * C <= W * C) by (apply Rmult_le_compat_r; lra).
      pose proof (rb (o0l L m n - excl Rmin W L m n) (300 * (W * C)) ltac:(apply Rabs_le; lra) ltac:(lra)) as E5.
      pose proof (rb (o0l L m n + excl Rmin W L m n) (300 * (W * C)) ltac:(apply Rabs_le; lra) ltac:(lra)) as E6.
      apply Rabs_le_inv in E5. apply Rabs_le_inv in E6. destruct (Rle_lt_dec 0 (Zc m n o)) as [G|G].
      - right. apply Rceil_le. rewrite Rabs_pos_eq in E by exact G. lra.
      - left. unfold hole. apply Rceil_gt. rewrite Rabs_left in E by exact G. lra. }
    unfold all_points. apply in_flat_map. exists m. split; [exact Hm|]. unfold plane. apply in_flat_map. exists n. split; [exact Hn|].
    apply in_map. unfold olist. destruct (Z.eqb_spec (hi Rmin W L m n) (outside W L m n)) as [Eh|Eh].
    - apply zrange_In. exact I1.
    - apply in_app_iff. assert (Hh : hi Rmin W L m n = hole Rmin W L m n).
      { unfold hi in *. destruct (Reqb _ _); [congruence|]. destruct (Rltb _ _); congruence. }
      destruct I2 as [I2|[I2|I2]].
      + exfalso. apply Eh. unfold hi. replace (Reqb (excl Rmin W L m n) 0) with true; [reflexivity|]. symmetry. now apply Reqb_true.
      + left. apply zrange_In. rewrite Hh. lia.
      + right. apply zrange_In. lia.
  Qed.
End Main.
