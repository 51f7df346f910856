(** Proofs for FpSphere.v: rounding errors. *)
From Flocq Require Import Core.
From Coq Require Import Reals Lra Lia.
From Verif Require Import RBase Fp FpSphere FpSphereSpec FpSphereLoop.
Import ListNotations.
Open Scope R_scope.

(** twice the relative error of an operation *)
Notation v := (/ 4503599627370496).
Lemma rb x M : Rabs x <= M -> bpow radix2 (-1000) <= M -> Rabs (rnd x - x) <= v * M.
Proof.
  intros H HM. pose proof (rnd_err x) as E. assert (B : bpow radix2 (-1074) <= u * bpow radix2 (-1000)).
  { replace u with (bpow radix2 (-53)) by (unfold u; cbn; lra). rewrite <- bpow_plus. apply bpow_le. lia. }
  unfold u in *. lra.
Qed.
Lemma absmul a b p q : Rabs a <= p -> Rabs b <= q -> Rabs (a * b) <= p * q.
Proof. intros Ha Hb. rewrite Rabs_mult. apply Rmult_le_compat; auto using Rabs_pos. Qed.
Lemma absdiv a p b : 0 < b -> Rabs a <= p * b -> Rabs (a / b) <= p.
Proof.
  intros Hb Ha. unfold Rdiv. rewrite Rabs_mult, (Rabs_pos_eq (/ b)) by (left; now apply Rinv_0_lt_compat).
  apply Rmult_le_reg_r with b; [exact Hb|]. rewrite Rmult_assoc, Rinv_l by lra. lra.
Qed.
Lemma abs_near a b p e : Rabs (a - b) <= e -> Rabs b <= p -> Rabs a <= p + e.
Proof. intros H1 H2. apply Rabs_le. apply Rabs_le_inv in H1. apply Rabs_le_inv in H2. lra. Qed.
Lemma abs_tri a b c e f : Rabs (a - b) <= e -> Rabs (b - c) <= f -> Rabs (a - c) <= e + f.
Proof. intros H1 H2. apply Rabs_le. apply Rabs_le_inv in H1. apply Rabs_le_inv in H2. lra. Qed.
Lemma sq_near a b p e : Rabs (a - b) <= e -> Rabs b <= p -> Rabs (a * a - b * b) <= e * (2 * p + e).
Proof.
  intros H1 H2. replace (a * a - b * b) with ((a - b) * (a + b)) by ring. apply absmul; auto.
  apply Rabs_le. apply Rabs_le_inv in H1. apply Rabs_le_inv in H2. lra.
Qed.

(** *** the plane *)
Lemma plane_err W x : bpow radix2 (-300) <= W -> Rabs x <= 2 * W ->
  Rabs (rnd (rnd (W * W) - fp_sq (rnd x)) - (W * W - x * x)) <= 32 * v * (W * W).
Proof.
  intros HW Hx. assert (W0 := bpow_gt_0 radix2 (-300)).
  assert (B1 : bpow radix2 (-1000) <= W) by (eapply Rle_trans; [apply bpow_le|exact HW]; lia).
  assert (B2 : bpow radix2 (-1000) <= W * W).
  { apply Rle_trans with (bpow radix2 (-300) * bpow radix2 (-300)); [rewrite <- bpow_plus; apply bpow_le; lia|apply Rmult_le_compat; lra]. }
  set (S := W * W) in *. assert (S0 : 0 < S) by (unfold S; apply Rmult_lt_0_compat; lra).
  pose proof (rb (W * W) S) as E1. fold S in E1. rewrite Rabs_pos_eq in E1 by lra. specialize (E1 ltac:(lra) B2).
  assert (E2 : Rabs (rnd x - x) <= v * (2 * W)) by (apply rb; lra).
  pose proof (sq_near _ _ _ _ E2 Hx) as E3.
  assert (E3' : Rabs (rnd x * rnd x - x * x) <= 9 * v * S).
  { eapply Rle_trans; [exact E3|]. replace (v * (2 * W) * (2 * (2 * W) + v * (2 * W))) with (v * (8 + 4 * v) * S) by (unfold S; ring). lra. }
  assert (Hxx : Rabs (x * x) <= 4 * S) by (eapply Rle_trans; [apply (absmul _ _ _ _ Hx Hx)|unfold S; lra]).
  assert (Hr : Rabs (rnd x * rnd x) <= 5 * S) by (eapply Rle_trans; [apply (abs_near _ _ _ _ E3' Hxx)|lra]).
  assert (E4 : Rabs (rnd (rnd x * rnd x) - rnd x * rnd x) <= v * (5 * S)) by (apply rb; lra).
  unfold fp_sq. set (X2 := rnd (rnd x * rnd x)) in *. set (RS := rnd S) in *.
  assert (E5 : Rabs (RS - X2 - (S - x * x)) <= 15 * v * S).
  { apply Rabs_le. apply Rabs_le_inv in E1. apply Rabs_le_inv in E3'. apply Rabs_le_inv in E4. lra. }
  assert (Hd : Rabs (S - x * x) <= 5 * S) by (apply Rabs_le; apply Rabs_le_inv in Hxx; lra).
  assert (E6 : Rabs (rnd (RS - X2) - (RS - X2)) <= v * (6 * S)).
  { apply rb; [|lra]. eapply Rle_trans; [apply (abs_near _ _ _ _ E5 Hd)|lra]. }
  eapply Rle_trans; [apply (abs_tri _ _ _ _ _ E6 E5)|lra].
Qed.

(** *** the line *)
Lemma foot_err W A B mm dn : bpow radix2 (-300) <= W -> bpow radix2 (-300) <= A -> bpow radix2 (-300) <= B ->
  Rabs dn * A <= 64 * B -> Rabs (mm / A) <= 2 * W -> Rabs (mm * dn) <= 128 * (W * B) /\ Rabs (rnd (mm * dn) - mm * dn) <= 128 * v * (W * B).
Proof.
  intros HW HA HB Hdn Hm. assert (P := bpow_gt_0 radix2 (-300)).
  assert (B1 : bpow radix2 (-1000) <= W * B).
  { apply Rle_trans with (bpow radix2 (-300) * bpow radix2 (-300)); [rewrite <- bpow_plus; apply bpow_le; lia|apply Rmult_le_compat; lra]. }
  assert (E : Rabs (mm * dn) <= 128 * (W * B)).
  { replace (mm * dn) with (mm / A * (dn * A)) by (field; lra). replace (128 * (W * B)) with (2 * W * (64 * B)) by ring.
    apply absmul; auto. now rewrite Rabs_mult, (Rabs_pos_eq A) by lra. }
  split; [exact E|]. pose proof (bpow_gt_0 radix2 (-1000)). pose proof (rb (mm * dn) (128 * (W * B)) E ltac:(lra)). lra.
Qed.
Lemma line_err W B nn z f : bpow radix2 (-300) <= W -> bpow radix2 (-300) <= B -> Rabs ((nn - z) / B) <= 2 * W ->
  Rabs (f - z) <= 128 * v * (W * B) ->
  Rabs (nn - f) <= 3 * (W * B) /\ Rabs (rnd (nn - f) - (nn - z)) <= 131 * v * (W * B) /\
  Rabs (rnd (rnd (nn - f) / B) - (nn - z) / B) <= 134 * v * W.
Proof.
  intros HW HB Hy Hf. assert (P := bpow_gt_0 radix2 (-300)).
  assert (B1 : bpow radix2 (-1000) <= W * B).
  { apply Rle_trans with (bpow radix2 (-300) * bpow radix2 (-300)); [rewrite <- bpow_plus; apply bpow_le; lia|apply Rmult_le_compat; lra]. }
  assert (B2 : bpow radix2 (-1000) <= W) by (eapply Rle_trans; [apply bpow_le|exact HW]; lia).
  assert (WB : 0 < W * B) by (apply Rmult_lt_0_compat; lra).
  assert (Hn : Rabs (nn - z) <= 2 * (W * B)).
  { replace (nn - z) with ((nn - z) / B * B) by (field; lra). replace (2 * (W * B)) with (2 * W * B) by ring. apply absmul; [exact Hy|rewrite Rabs_pos_eq; lra]. }
  assert (H1 : Rabs (nn - f) <= 3 * (W * B)) by (apply Rabs_le; apply Rabs_le_inv in Hn; apply Rabs_le_inv in Hf; lra).
  assert (E1 : Rabs (rnd (nn - f) - (nn - f)) <= v * (3 * (W * B))) by (apply rb; lra).
  assert (E2 : Rabs (rnd (nn - f) - (nn - z)) <= 131 * v * (W * B)) by (apply Rabs_le; apply Rabs_le_inv in E1; apply Rabs_le_inv in Hf; lra).
  split; [exact H1|]. split; [exact E2|].
  assert (E3 : Rabs (rnd (nn - f) / B - (nn - z) / B) <= 131 * v * W).
  { replace (rnd (nn - f) / B - (nn - z) / B) with ((rnd (nn - f) - (nn - z)) / B) by (field; lra). apply absdiv; lra. }
  assert (E4 : Rabs (rnd (rnd (nn - f) / B) - rnd (nn - f) / B) <= v * (3 * W)).
  { apply rb; [|lra]. eapply Rle_trans; [apply (abs_near _ _ _ _ E3 Hy)|lra]. }
  eapply Rle_trans; [apply (abs_tri _ _ _ _ _ E4 E3)|lra].
Qed.
Lemma rest_err W R x y yt : bpow radix2 (-300) <= W -> Rabs x <= 2 * W -> Rabs y <= 2 * W ->
  Rabs (R - (W * W - x * x)) <= 32 * v * (W * W) -> Rabs (yt - y) <= 134 * v * W ->
  Rabs (rnd (R - fp_sq yt) - (W * W - x * x - y * y)) <= 1024 * v * (W * W).
Proof.
  intros HW Hx Hy HR Ht. assert (P := bpow_gt_0 radix2 (-300)).
  assert (B2 : bpow radix2 (-1000) <= W * W).
  { apply Rle_trans with (bpow radix2 (-300) * bpow radix2 (-300)); [rewrite <- bpow_plus; apply bpow_le; lia|apply Rmult_le_compat; lra]. }
  assert (S0 : 0 < W * W) by (apply Rmult_lt_0_compat; lra).
  pose proof (sq_near _ _ _ _ Ht Hy) as E1. unfold fp_sq.
  assert (E1' : Rabs (yt * yt - y * y) <= 600 * v * (W * W)).
  { eapply Rle_trans; [exact E1|]. replace (134 * v * W * (2 * (2 * W) + 134 * v * W)) with (134 * v * (4 + 134 * v) * (W * W)) by ring. lra. }
  pose proof (absmul _ _ _ _ Hy Hy) as Hyy. pose proof (absmul _ _ _ _ Hx Hx) as Hxx.
  replace (2 * W * (2 * W)) with (4 * (W * W)) in * by ring. set (S := W * W) in *. clear E1.
  assert (E2 : Rabs (rnd (yt * yt) - yt * yt) <= v * (5 * S)) by (apply rb; [eapply Rle_trans; [apply (abs_near _ _ _ _ E1' Hyy)|lra]|lra]).
  assert (E3 : Rabs (R - rnd (yt * yt) - (S - x * x - y * y)) <= 640 * v * S).
  { apply Rabs_le. apply Rabs_le_inv in HR. apply Rabs_le_inv in E1'. apply Rabs_le_inv in E2. lra. }
  assert (Hd : Rabs (S - x * x - y * y) <= 9 * S) by (apply Rabs_le; apply Rabs_le_inv in Hxx; apply Rabs_le_inv in Hyy; lra).
  assert (E4 : Rabs (rnd (R - rnd (yt * yt)) - (R - rnd (yt * yt))) <= v * (10 * S)) by (apply rb; [eapply Rle_trans; [apply (abs_near _ _ _ _ E3 Hd)|lra]|lra]).
  eapply Rle_trans; [apply (abs_tri _ _ _ _ _ E4 E3)|lra].
Qed.
(** the foot of the line *)
Lemma foot2_err W B C z don op ot d dt : bpow radix2 (-300) <= W -> bpow radix2 (-300) <= B -> bpow radix2 (-300) <= C ->
  Rabs don * B <= 64 * C -> Rabs op <= 128 * (W * C) -> Rabs (ot - op) <= 128 * v * (W * C) ->
  d = z / B -> Rabs d <= 2 * W -> Rabs (dt - z) <= 131 * v * (W * B) ->
  Rabs (op + z * don) <= 256 * (W * C) /\ Rabs (rnd (ot + rnd (dt * don)) - (op + z * don)) <= 16384 * v * (W * C).
Proof.
  intros HW HB HC Hdon Hop Hot Ed Hd Hdt. assert (P := bpow_gt_0 radix2 (-300)).
  assert (B1 : bpow radix2 (-1000) <= W * C).
  { apply Rle_trans with (bpow radix2 (-300) * bpow radix2 (-300)); [rewrite <- bpow_plus; apply bpow_le; lia|apply Rmult_le_compat; lra]. }
  assert (WC : 0 < W * C) by (apply Rmult_lt_0_compat; lra).
  assert (Hdb : Rabs (don * B) <= 64 * C) by (now rewrite Rabs_mult, (Rabs_pos_eq B) by lra).
  assert (H1 : Rabs (z * don) <= 128 * (W * C)).
  { replace (z * don) with (d * (don * B)) by (rewrite Ed; field; lra). replace (128 * (W * C)) with (2 * W * (64 * C)) by ring. now apply absmul. }
  assert (H2 : Rabs (dt * don - z * don) <= 8384 * v * (W * C)).
  { replace (dt * don - z * don) with ((dt - z) / B * (don * B)) by (field; lra).
    replace (8384 * v * (W * C)) with (131 * v * W * (64 * C)) by field. apply absmul; [apply absdiv; lra|exact Hdb]. }
  assert (E1 : Rabs (rnd (dt * don) - dt * don) <= v * (129 * (W * C))) by (apply rb; [eapply Rle_trans; [apply (abs_near _ _ _ _ H2 H1)|lra]|lra]).
  set (M := W * C) in *.
  assert (H3 : Rabs (op + z * don) <= 256 * M) by (apply Rabs_le; apply Rabs_le_inv in Hop; apply Rabs_le_inv in H1; lra).
  split; [exact H3|].
  assert (E2 : Rabs (ot + rnd (dt * don) - (op + z * don)) <= 8700 * v * M).
  { apply Rabs_le. apply Rabs_le_inv in Hot. apply Rabs_le_inv in H2. apply Rabs_le_inv in E1. lra. }
  assert (E3 : Rabs (rnd (ot + rnd (dt * don)) - (ot + rnd (dt * don))) <= v * (257 * M)) by (apply rb; [eapply Rle_trans; [apply (abs_near _ _ _ _ E2 H3)|lra]|lra]).
  eapply Rle_trans; [apply (abs_tri _ _ _ _ _ E3 E2)|lra].
Qed.

(** *** half spans *)
Lemma half_err W B x : bpow radix2 (-300) <= W -> bpow radix2 (-300) <= B -> 0 < x -> x <= 16 * (W * W) ->
  0 <= sqrt x <= 4 * W /\ 0 <= fp_half x B /\ Rabs (fp_half x B - sqrt x * B) <= 10 * v * (W * B).
Proof.
  intros HW HB H0 Hx. assert (P := bpow_gt_0 radix2 (-300)).
  assert (B1 : bpow radix2 (-1000) <= W * B).
  { apply Rle_trans with (bpow radix2 (-300) * bpow radix2 (-300)); [rewrite <- bpow_plus; apply bpow_le; lia|apply Rmult_le_compat; lra]. }
  assert (B2 : bpow radix2 (-1000) <= W) by (eapply Rle_trans; [apply bpow_le|exact HW]; lia).
  assert (WB : 0 < W * B) by (apply Rmult_lt_0_compat; lra).
  assert (Hs : 0 <= sqrt x <= 4 * W).
  { split; [apply sqrt_pos|]. replace (4 * W) with (sqrt (4 * W * (4 * W))) by (apply sqrt_square; lra). apply sqrt_le_1; lra. }
  split; [exact Hs|]. unfold fp_half. replace (Rltb 0 x) with true by (symmetry; now apply Rltb_true).
  assert (N : 0 <= rnd (sqrt x)) by (apply rnd_nonneg; lra).
  split; [apply rnd_nonneg, Rmult_le_pos; lra|].
  assert (E1 : Rabs (rnd (sqrt x) - sqrt x) <= v * (4 * W)) by (apply rb; [rewrite Rabs_pos_eq; lra|lra]).
  assert (E2 : Rabs (rnd (sqrt x) * B - sqrt x * B) <= 4 * v * (W * B)).
  { replace (rnd (sqrt x) * B - sqrt x * B) with ((rnd (sqrt x) - sqrt x) * B) by ring. replace (4 * v * (W * B)) with (v * (4 * W) * B) by ring.
    apply absmul; [exact E1|rewrite Rabs_pos_eq; lra]. }
  assert (H1 : Rabs (sqrt x * B) <= 4 * (W * B)).
  { replace (4 * (W * B)) with (4 * W * B) by ring. apply absmul; rewrite Rabs_pos_eq; lra. }
  assert (E3 : Rabs (rnd (rnd (sqrt x) * B) - rnd (sqrt x) * B) <= v * (5 * (W * B))) by (apply rb; [eapply Rle_trans; [apply (abs_near _ _ _ _ E2 H1)|lra]|lra]).
  eapply Rle_trans; [apply (abs_tri _ _ _ _ _ E3 E2)|lra].
Qed.
