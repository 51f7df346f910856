(** Reciprocal lattice and reflections. *)
From Verif Require Import RBase Sphere SphereSpec SphereProofs SphereGeom.
From Coq Require Import Sorting.Sorted.
Open Scope R_scope.

Lemma sqrt_is x y : 0 <= y -> y * y = x -> sqrt x = y.
Proof. intros Hy <-. now apply sqrt_square. Qed.

Section Rec.
  Context (C : cell) (OK : cell_ok C).
  Let pa := pos_a _ OK. Let pb := pos_b _ OK. Let pc := pos_c _ OK.
  Let qa := sin_a _ OK. Let qb := sin_b _ OK. Let qg := sin_g _ OK.
  Notation V := (sqrt (gram C)).
  Let HV := V_pos C OK. Let VV := V_sq C OK.
  Lemma sqa : c_ca C * c_ca C = 1 - c_sa C * c_sa C. Proof. pose proof (pyt_a _ OK); lra. Qed.
  Lemma sqb : c_cb C * c_cb C = 1 - c_sb C * c_sb C. Proof. pose proof (pyt_b _ OK); lra. Qed.
  Lemma sqg : c_cg C * c_cg C = 1 - c_sg C * c_sg C. Proof. pose proof (pyt_g _ OK); lra. Qed.

  Lemma pow_ca : c_sa C ^ 2 = 1 - c_ca C ^ 2. Proof. pose proof (pyt_a _ OK); lra. Qed.
  Lemma pow_cb : c_sb C ^ 2 = 1 - c_cb C ^ 2. Proof. pose proof (pyt_b _ OK); lra. Qed.
  Lemma pow_cg : c_sg C ^ 2 = 1 - c_cg C ^ 2. Proof. pose proof (pyt_g _ OK); lra. Qed.

  Lemma pyt_rec_a : 1 - c_ca (rec_cell C) * c_ca (rec_cell C) = c_sa (rec_cell C) * c_sa (rec_cell C).
  Proof.
    cbn. apply (Rmult_eq_reg_r ((c_sb C * c_sg C) ^ 2)); [|apply pow_nonzero; nra].
    transitivity (c_sb C ^ 2 * c_sg C ^ 2 - (c_cb C * c_cg C - c_ca C) ^ 2); [field; lra|].
    transitivity (V * V); [|field; lra]. rewrite VV, pow_cb, pow_cg. unfold gram. ring.
  Qed.
  Lemma pyt_rec_b : 1 - c_cb (rec_cell C) * c_cb (rec_cell C) = c_sb (rec_cell C) * c_sb (rec_cell C).
  Proof.
    cbn. apply (Rmult_eq_reg_r ((c_sa C * c_sg C) ^ 2)); [|apply pow_nonzero; nra].
    transitivity (c_sa C ^ 2 * c_sg C ^ 2 - (c_ca C * c_cg C - c_cb C) ^ 2); [field; lra|].
    transitivity (V * V); [|field; lra]. rewrite VV, pow_ca, pow_cg. unfold gram. ring.
  Qed.
  Lemma pyt_rec_g : 1 - c_cg (rec_cell C) * c_cg (rec_cell C) = c_sg (rec_cell C) * c_sg (rec_cell C).
  Proof.
    cbn. apply (Rmult_eq_reg_r ((c_sa C * c_sb C) ^ 2)); [|apply pow_nonzero; nra].
    transitivity (c_sa C ^ 2 * c_sb C ^ 2 - (c_ca C * c_cb C - c_cg C) ^ 2); [field; lra|].
    transitivity (V * V); [|field; lra]. rewrite VV, pow_ca, pow_cb. unfold gram. ring.
  Qed.
  Lemma rec_sin_pos : 0 < c_sa (rec_cell C) /\ 0 < c_sb (rec_cell C) /\ 0 < c_sg (rec_cell C).
  Proof. cbn. repeat split; apply Rdiv_lt_0_compat; auto; nra. Qed.
  Notation S := (c_sa C * c_sb C * c_sg C).
  Lemma S_pos : 0 < S. Proof. repeat apply Rmult_lt_0_compat; auto. Qed.
  Lemma gram_rec : gram (rec_cell C) = (gram C / S) ^ 2.
  Proof.
    pose proof S_pos as HS. apply (Rmult_eq_reg_r (S ^ 2)); [|apply pow_nonzero; lra].
    transitivity (gram C ^ 2); [|field; lra].
    transitivity (c_sa C ^ 2 * c_sb C ^ 2 * c_sg C ^ 2 + 2 * (c_cb C * c_cg C - c_ca C) * (c_ca C * c_cg C - c_cb C) * (c_ca C * c_cb C - c_cg C)
       - (c_cb C * c_cg C - c_ca C) ^ 2 * c_sa C ^ 2 - (c_ca C * c_cg C - c_cb C) ^ 2 * c_sb C ^ 2 - (c_ca C * c_cb C - c_cg C) ^ 2 * c_sg C ^ 2).
    - unfold gram at 1. cbn. field. lra.
    - rewrite pow_ca, pow_cb, pow_cg. unfold gram. ring.
  Qed.
  Lemma V_rec : sqrt (gram (rec_cell C)) = gram C / S.
  Proof.
    rewrite gram_rec. apply sqrt_pow2. apply Rlt_le, Rdiv_lt_0_compat; [apply (pos_V _ OK)|apply S_pos].
  Qed.

  Lemma rec_ok : cell_ok (rec_cell C).
  Proof.
    destruct rec_sin_pos as (s1 & s2 & s3). pose proof pyt_rec_a. pose proof pyt_rec_b. pose proof pyt_rec_g.
    split; auto; try lra.
    - cbn. apply Rdiv_lt_0_compat; auto. nra.
    - cbn. apply Rdiv_lt_0_compat; auto. nra.
    - cbn. apply Rdiv_lt_0_compat; auto. nra.
    - rewrite gram_rec. apply pow_lt. apply Rdiv_lt_0_compat; [apply (pos_V _ OK)|apply S_pos].
  Qed.

  Lemma gram_V : gram C = V * V. Proof. now rewrite VV. Qed.

  Lemma cancel_a : (c_ca C * c_cg C - c_cb C) * (c_ca C * c_cb C - c_cg C) - (c_cb C * c_cg C - c_ca C) * c_sa C ^ 2 = c_ca C * (V * V).
  Proof. rewrite VV, pow_ca. unfold gram. ring. Qed.
  Lemma cancel_b : (c_cb C * c_cg C - c_ca C) * (c_ca C * c_cb C - c_cg C) - (c_ca C * c_cg C - c_cb C) * c_sb C ^ 2 = c_cb C * (V * V).
  Proof. rewrite VV, pow_cb. unfold gram. ring. Qed.
  Lemma cancel_g : (c_cb C * c_cg C - c_ca C) * (c_ca C * c_cg C - c_cb C) - (c_ca C * c_cb C - c_cg C) * c_sg C ^ 2 = c_cg C * (V * V).
  Proof. rewrite VV, pow_cg. unfold gram. ring. Qed.

  Lemma rec_ca : (c_cb (rec_cell C) * c_cg (rec_cell C) - c_ca (rec_cell C)) / (c_sb (rec_cell C) * c_sg (rec_cell C)) = c_ca C.
  Proof.
    pose proof S_pos. apply (Rmult_eq_reg_r (V * V)); [|nra]. rewrite <- cancel_a. cbn. field. repeat split; lra.
  Qed.
  Lemma rec_cb : (c_ca (rec_cell C) * c_cg (rec_cell C) - c_cb (rec_cell C)) / (c_sa (rec_cell C) * c_sg (rec_cell C)) = c_cb C.
  Proof.
    pose proof S_pos. apply (Rmult_eq_reg_r (V * V)); [|nra]. rewrite <- cancel_b. cbn. field. repeat split; lra.
  Qed.
  Lemma rec_cg : (c_ca (rec_cell C) * c_cb (rec_cell C) - c_cg (rec_cell C)) / (c_sa (rec_cell C) * c_sb (rec_cell C)) = c_cg C.
  Proof.
    pose proof S_pos. apply (Rmult_eq_reg_r (V * V)); [|nra]. rewrite <- cancel_g. cbn. field. repeat split; lra.
  Qed.

  Lemma rec_len : c_sa (rec_cell C) / (c_a (rec_cell C) * sqrt (gram (rec_cell C))) = c_a C /\
    c_sb (rec_cell C) / (c_b (rec_cell C) * sqrt (gram (rec_cell C))) = c_b C /\
    c_sg (rec_cell C) / (c_c (rec_cell C) * sqrt (gram (rec_cell C))) = c_c C.
  Proof.
    rewrite V_rec, gram_V. pose proof S_pos. cbn [c_sa c_a c_sb c_b c_sg c_c rec_cell]. repeat split; field; repeat split; lra.
  Qed.
  Lemma rec_sin : sqrt (gram (rec_cell C)) / (c_sb (rec_cell C) * c_sg (rec_cell C)) = c_sa C /\
    sqrt (gram (rec_cell C)) / (c_sa (rec_cell C) * c_sg (rec_cell C)) = c_sb C /\
    sqrt (gram (rec_cell C)) / (c_sa (rec_cell C) * c_sb (rec_cell C)) = c_sg C.
  Proof.
    rewrite V_rec, gram_V. pose proof S_pos. cbn [c_sa c_sb c_sg rec_cell]. repeat split; field; repeat split; lra.
  Qed.

  Lemma rec_rec : rec_cell (rec_cell C) = C.
  Proof.
    destruct rec_len as (l1 & l2 & l3). destruct rec_sin as (s1 & s2 & s3).
    unfold rec_cell at 1. rewrite l1, l2, l3, s1, s2, s3, rec_ca, rec_cb, rec_cg. now destruct C.
  Qed.

  Lemma sar_rec : sar (lp C) = c_sa (rec_cell C) /\ sbr (lp C) = c_sb (rec_cell C) /\ sgr (lp C) = c_sg (rec_cell C).
  Proof.
    destruct rec_sin_pos as (s1 & s2 & s3). repeat split; cbn [sar sbr sgr lp mklatpar]; apply sqrt_is; try lra; symmetry.
    - apply pyt_rec_a.
    - apply pyt_rec_b.
    - apply pyt_rec_g.
  Qed.
End Rec.

Lemma latpar_ext (x y : latpar) :
  (la x, lb x, lc x, ca x, cb x, cg x, sa x, sb x, sg x) = (la y, lb y, lc y, ca y, cb y, cg y, sa y, sb y, sg y) ->
  (ar x, br x, cr x, car x, cbr x, cgr x, sar x, sbr x, sgr x) = (ar y, br y, cr y, car y, cbr y, cgr y, sar y, sbr y, sgr y) -> x = y.
Proof. destruct x, y. cbn. intros H1 H2. inversion H1. inversion H2. now subst. Qed.

Lemma reciprocal_lp C : cell_ok C -> reciprocal (lp C) = lp (rec_cell C).
Proof.
  intros OK. pose proof (rec_ok C OK) as OKr.
  destruct (rec_len C OK) as (l1 & l2 & l3). destruct (sar_rec C OK) as (s1 & s2 & s3).
  destruct (sar_rec _ OKr) as (t1 & t2 & t3). rewrite (rec_rec C OK) in t1, t2, t3.
  apply latpar_ext.
  - cbn [la lb lc ca cb cg sa sb sg reciprocal]. rewrite s1, s2, s3. reflexivity.
  - cbn [ar br cr car cbr cgr sar sbr sgr reciprocal]. rewrite t1, t2, t3.
    cbn [ar br cr car cbr cgr sar sbr sgr lp mklatpar la lb lc ca cb cg sa sb sg].
    change (Vunit (c_ca (rec_cell C)) (c_cb (rec_cell C)) (c_cg (rec_cell C))) with (sqrt (gram (rec_cell C))).
    rewrite l1, l2, l3, (rec_ca C OK), (rec_cb C OK), (rec_cg C OK). reflexivity.
Qed.
Lemma reciprocal_inv L : reciprocal (reciprocal L) = L.
Proof. now destruct L. Qed.

Lemma rec_metric C : cell_ok C -> reciprocal_cells C (rec_cell C).
Proof.
  intros OK i j Hi Hj.
  pose proof (pos_a _ OK). pose proof (pos_b _ OK). pose proof (pos_c _ OK).
  pose proof (sin_a _ OK). pose proof (sin_b _ OK). pose proof (sin_g _ OK).
  pose proof (V_pos C OK) as HV. pose proof (V_sq C OK) as VV.
  pose proof (pow_ca C OK) as Pa. pose proof (pow_cb C OK) as Pb. pose proof (pow_cg C OK) as Pg.
  assert (HVV : sqrt (gram C) * sqrt (gram C) <> 0) by nra.
  destruct i as [|[|[|i]]]; destruct j as [|[|[|j]]]; try lia; cbn [metric rec_cell c_a c_b c_c c_ca c_cb c_cg Nat.eqb];
    apply (Rmult_eq_reg_r (sqrt (gram C) * sqrt (gram C))); auto.
  - transitivity (c_sa C ^ 2 + c_cg C * (c_ca C * c_cb C - c_cg C) + c_cb C * (c_ca C * c_cg C - c_cb C)); [field; repeat split; lra|].
    rewrite VV, Pa. unfold gram. ring.
  - transitivity (c_a C / c_b C * ((c_ca C * c_cb C - c_cg C) + c_cg C * c_sb C ^ 2 + c_cb C * (c_cb C * c_cg C - c_ca C))); [field; repeat split; lra|].
    rewrite Pb. ring.
  - transitivity (c_a C / c_c C * ((c_ca C * c_cg C - c_cb C) + c_cg C * (c_cb C * c_cg C - c_ca C) + c_cb C * c_sg C ^ 2)); [field; repeat split; lra|].
    rewrite Pg. ring.
  - transitivity (c_b C / c_a C * (c_cg C * c_sa C ^ 2 + (c_ca C * c_cb C - c_cg C) + c_ca C * (c_ca C * c_cg C - c_cb C))); [field; repeat split; lra|].
    rewrite Pa. ring.
  - transitivity (c_cg C * (c_ca C * c_cb C - c_cg C) + c_sb C ^ 2 + c_ca C * (c_cb C * c_cg C - c_ca C)); [field; repeat split; lra|].
    rewrite VV, Pb. unfold gram. ring.
  - transitivity (c_b C / c_c C * (c_cg C * (c_ca C * c_cg C - c_cb C) + (c_cb C * c_cg C - c_ca C) + c_ca C * c_sg C ^ 2)); [field; repeat split; lra|].
    rewrite Pg. ring.
  - transitivity (c_c C / c_a C * (c_cb C * c_sa C ^ 2 + c_ca C * (c_ca C * c_cb C - c_cg C) + (c_ca C * c_cg C - c_cb C))); [field; repeat split; lra|].
    rewrite Pa. ring.
  - transitivity (c_c C / c_b C * (c_cb C * (c_ca C * c_cb C - c_cg C) + c_ca C * c_sb C ^ 2 + (c_cb C * c_cg C - c_ca C))); [field; repeat split; lra|].
    rewrite Pb. ring.
  - transitivity (c_cb C * (c_ca C * c_cg C - c_cb C) + c_ca C * (c_cb C * c_cg C - c_ca C) + c_sg C ^ 2); [field; repeat split; lra|].
    rewrite VV, Pg. unfold gram. ring.
Qed.

Lemma r_of_norm C p : r_of (lp C) p = sqrt (norm2 C p).
Proof. destruct p as [[i j] k]. unfold r_of, norm2. cbn [la lb lc ca cb cg lp mklatpar]. f_equal. ring. Qed.
Lemma norm2_nonneg C p : cell_ok C -> 0 <= norm2 C p.
Proof.
  intros OK. destruct p as [[i j] k]. rewrite (norm2_split C OK).
  repeat apply Rplus_le_le_0_compat; apply pow2_ge_0.
Qed.
Lemma norm2_zero C p : cell_ok C -> norm2 C p = 0 -> p = (0, 0, 0)%Z.
Proof.
  intros OK. destruct p as [[i j] k]. rewrite (norm2_split C OK). intros H.
  set (u := IZR i / ar (lp C)) in *.
  set (v := (IZR j - n0 (lp C) i) / b2r (lp C)) in *. set (w := (IZR k - o0l (lp C) i j) / c1r (lp C)) in *.
  assert (Hu : u = 0) by nra. assert (Hv : v = 0) by nra. assert (Hw : w = 0) by nra.
  pose proof (ar_pos C OK). pose proof (b2r_pos C OK). pose proof (c1r_pos C OK).
  assert (Z1 : IZR i = 0) by (replace (IZR i) with (u * ar (lp C)) by (unfold u; field; lra); rewrite Hu; ring).
  assert (Z2 : IZR j = n0 (lp C) i) by (assert (v * b2r (lp C) = IZR j - n0 (lp C) i) by (unfold v; field; lra); rewrite Hv in *; lra).
  assert (Z3 : IZR k = o0l (lp C) i j) by (assert (w * c1r (lp C) = IZR k - o0l (lp C) i j) by (unfold w; field; lra); rewrite Hw in *; lra).
  unfold o0l, o0p in Z3. rewrite <- Z2, Z1 in Z3. unfold n0 in Z2. rewrite Z1 in Z2.
  assert (IZR j = 0) by lra. assert (IZR k = 0) by lra. apply eq_IZR in Z1, H3, H4. now subst.
Qed.
