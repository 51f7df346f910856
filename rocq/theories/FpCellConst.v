(** Proofs: the constants that update() and init() of PointsInSphere compute for a cell of any angles. *)
From Flocq Require Import Core.
From Coq Require Import Reals Lra Lia Psatz.
From Verif Require Import RBase Fp FpSphere FpSphereSpec FpSphereProofs FpCellSpec FpCell FpCellLen.
Open Scope R_scope.

Lemma unit_rel s S : / 16 <= S <= 1 -> Rabs (s - S) <= 4 * v -> rel 64 s S.
Proof. intros HS Hs. split; [lra|]. eapply Rle_trans; [exact Hs|]. lra. Qed.
Lemma rng_usual a : usual_edge a -> rng 200 a. Proof. intros H. exact H. Qed.

(** the cosine of a reciprocal angle *)
Lemma cosr_near x y z X Y Z s t S T : Rabs X <= 1 -> Rabs Y <= 1 -> Rabs Z <= 1 -> Rabs (x - X) <= 4 * v -> Rabs (y - Y) <= 4 * v -> Rabs (z - Z) <= 4 * v ->
  / 16 <= S <= 1 -> / 16 <= T <= 1 -> Rabs (s - S) <= 4 * v -> Rabs (t - T) <= 4 * v -> Rabs (X * Y - Z) <= S * T ->
  near 4760 1 (rnd (rnd (rnd (x * y) - z) / rnd (s * t))) ((X * Y - Z) / (S * T)).
Proof.
  intros HX HY HZ Hx Hy Hz HS HT Hs Ht HG. assert (ST : 0 < S * T) by (apply Rmult_lt_0_compat; lra). assert (ST2 : / 256 <= S * T) by (replace (/ 256) with (/ 16 * / 16) by lra; apply Rmult_le_compat; lra).
  assert (N : near 4608 (S * T) (rnd (rnd (x * y) - z)) (X * Y - Z)).
  { assert (E : Rabs (x * y - X * Y) <= 9 * v). { replace (x * y - X * Y) with ((x - X) * y + X * (y - Y)) by ring. pose proof (abs_near _ _ _ _ Hy HY) as BY. pose proof (absmul _ _ _ _ Hx BY). pose proof (absmul _ _ _ _ HX Hy). eapply Rle_trans; [apply Rabs_triang|]. lra. }
    pose proof (absmul _ _ _ _ HX HY) as P. unfold near. set (p := x * y) in *. set (Q := X * Y) in *. clearbody p Q. apply Rabs_le_inv in E, P, Hz, HZ.
    pose proof (r4 p 2 ltac:(apply Rabs_le; lra) ltac:(lra)) as R1. set (p1 := rnd p) in *. clearbody p1. pose proof (r4 (p1 - z) 3 ltac:(apply Rabs_le; lra) ltac:(lra)) as R2. apply Rabs_le. lra. }
  assert (DN : rel 131 (rnd (s * t)) (S * T)).
  { apply rel_more with (129 + 2); [lra|]. apply rel_rnd; [lra| |apply rel_more with (64 + 64 + 1); [lra|]; apply rel_mul; try lra; now apply unit_rel].
    apply Rle_trans with (/ 256); [|exact ST2]. change (/ 256) with (bpow radix2 (-8)). apply bpow_le. lia. }
  pose proof (rel_inv 131 _ _ ltac:(lra) DN) as DI. assert (NB : Rabs (X * Y - Z) <= 1 * (S * T)) by lra.
  pose proof (near_mul 4608 1 (S * T) _ _ (131 + 1) _ _ ltac:(lra) ltac:(lra) ST N NB DI) as M.
  replace (S * T * (1 / (S * T))) with 1 in M by (field; lra). replace (rnd (rnd (x * y) - z) / rnd (s * t)) with (rnd (rnd (x * y) - z) * (1 / rnd (s * t))) by (unfold Rdiv; ring). replace ((X * Y - Z) / (S * T)) with ((X * Y - Z) * (1 / (S * T))) by (unfold Rdiv; ring).
  apply near_more with (4608 + 1 * (131 + 1) + 1 + 2); [lra|lra|]. apply near_rnd; [lra|change 1 with (bpow radix2 0); apply bpow_le; lia|exact M|].
  replace ((X * Y - Z) * (1 / (S * T))) with ((X * Y - Z) / (S * T)) by (unfold Rdiv; ring). apply absdiv; [exact ST|lra].
Qed.

(** the slopes of init() *)
Lemma slope_near cg g br B' ar' A' : near 4760 1 cg g -> Rabs g <= 1 -> rel 71 br B' -> rel 71 ar' A' -> rng 209 B' -> rng 209 A' ->
  near 4920 (B' * (1 / A')) (rnd (rnd (cg * br) / ar')) (g * B' * (1 / A')).
Proof.
  intros Hg Bg Hb Ha RB RA. pose proof (rng_pos _ _ RB) as PB. pose proof (rng_pos _ _ RA) as PA.
  pose proof (near_mul 4760 1 1 _ _ 71 _ _ ltac:(lra) ltac:(lra) ltac:(lra) Hg ltac:(lra) Hb) as M1. rewrite (Rmult_1_l B') in M1.
  assert (G1 : Rabs (g * B') <= B'). { pose proof (absmul _ _ _ _ Bg (Req_le _ _ (Rabs_pos_eq B' (Rlt_le _ _ PB)))). lra. }
  assert (M2 : near 4840 B' (rnd (cg * br)) (g * B')) by (apply near_more with (4760 + 1 * 71 + 1 + 2); [lra|exact PB|]; apply near_rnd; [lra|apply (rng_low 209); [lia|exact RB]|exact M1|exact G1]).
  pose proof (rel_inv 71 _ _ ltac:(lra) Ha) as I. assert (NB : Rabs (g * B') <= 1 * B') by lra.
  pose proof (near_mul 4840 1 B' _ _ (71 + 1) _ _ ltac:(lra) ltac:(lra) PB M2 NB I) as M3.
  assert (RQ : rng (209 + 209) (B' * (1 / A'))) by (apply rng_mul; [exact RB|now apply rng_inv]). pose proof (rng_pos _ _ RQ) as PQ.
  apply near_more with (4840 + 1 * (71 + 1) + 1 + 2); [lra|exact PQ|]. replace (rnd (cg * br) / ar') with (rnd (cg * br) * (1 / ar')) by (unfold Rdiv; ring). apply near_rnd; [lra|apply (rng_low (209 + 209)); [lia|exact RQ]|exact M3|].
  rewrite Rmult_assoc. pose proof (absmul _ _ _ _ Bg (Req_le _ _ (Rabs_pos_eq (B' * (1 / A')) (Rlt_le _ _ PQ)))). lra.
Qed.

(** 1/rnd(edge * sin(alpha)) *)
Lemma edge_sin c s S : usual_edge c -> / 16 <= S <= 1 -> Rabs (s - S) <= 4 * v -> rel 70 (rnd (1 / rnd (c * s))) (1 / (c * S)) /\ rng 204 (1 / (c * S)).
Proof.
  intros Hc HS Hs. assert (RA : rng (200 + 4) (c * S)) by (apply rng_mul; [exact Hc|now apply rng_unit]). assert (RI : rng (200 + 4) (1 / (c * S))) by (now apply rng_inv). split; [|exact RI].
  pose proof (rng_pos _ _ (rng_usual _ Hc)) as PC.
  assert (R1 : rel 67 (rnd (c * s)) (c * S)) by (apply rel_more with (65 + 2); [lra|]; apply rel_rnd; [lra|apply (rng_low (200 + 4)); [lia|exact RA]|]; apply rel_more with (0 + 64 + 1); [lra|]; apply rel_mul; [lra|lra|now apply rel_refl|now apply unit_rel]).
  apply rel_more with (67 + 1 + 2); [lra|]. apply rel_rnd; [lra|apply (rng_low (200 + 4)); [lia|exact RI]|]. apply rel_inv; [lra|exact R1].
Qed.
Lemma last_near ca A b c s S : usual_edge b -> usual_edge c -> / 16 <= S <= 1 -> Rabs (s - S) <= 4 * v -> Rabs A <= 1 -> Rabs (ca - A) <= 4 * v ->
  near 152 (b / c) (rnd (rnd (- ca * rnd (1 / rnd (c * s))) / rnd (1 / rnd (b * s)))) (- A * (b / c)).
Proof.
  intros Hb Hc HS Hs HA Hca. destruct (edge_sin c s S Hc HS Hs) as [EC RC]. destruct (edge_sin b s S Hb HS Hs) as [EB RB]. pose proof (rng_pos _ _ RC) as PC. pose proof (rng_pos _ _ RB) as PB.
  assert (N1 : near 4 1 (- ca) (- A)) by (unfold near; replace (- ca - - A) with (- (ca - A)) by ring; rewrite Rabs_Ropp; lra). assert (NA : Rabs (- A) <= 1 * 1) by (rewrite Rabs_Ropp; lra).
  pose proof (near_mul 4 1 1 _ _ 70 _ _ ltac:(lra) ltac:(lra) ltac:(lra) N1 NA EC) as M1. rewrite (Rmult_1_l (1 / (c * S))) in M1.
  assert (G1 : Rabs (- A * (1 / (c * S))) <= 1 / (c * S)). { assert (NA' : Rabs (- A) <= 1) by lra. pose proof (absmul _ _ _ _ NA' (Req_le _ _ (Rabs_pos_eq _ (Rlt_le _ _ PC)))). lra. }
  assert (M2 : near 77 (1 / (c * S)) (rnd (- ca * rnd (1 / rnd (c * s)))) (- A * (1 / (c * S)))) by (apply near_more with (4 + 1 * 70 + 1 + 2); [lra|exact PC|]; apply near_rnd; [lra|apply (rng_low 204); [lia|exact RC]|exact M1|exact G1]).
  pose proof (rel_inv 70 _ _ ltac:(lra) EB) as I. assert (NB : Rabs (- A * (1 / (c * S))) <= 1 * (1 / (c * S))) by lra.
  pose proof (near_mul 77 1 _ _ _ (70 + 1) _ _ ltac:(lra) ltac:(lra) PC M2 NB I) as M3.
  assert (RQ : rng (204 + 204) (1 / (c * S) * (1 / (1 / (b * S))))) by (apply rng_mul; [exact RC|now apply rng_inv]). pose proof (rng_pos _ _ RQ) as PQ.
  assert (Pb : 0 < b) by (exact (rng_pos _ _ (rng_usual _ Hb))). assert (Pc : 0 < c) by (exact (rng_pos _ _ (rng_usual _ Hc))).
  assert (EQ : 1 / (c * S) * (1 / (1 / (b * S))) = b / c) by (field; lra).
  assert (EQ2 : - A * (1 / (c * S)) * (1 / (1 / (b * S))) = - A * (b / c)) by (field; lra). rewrite EQ2 in M3. rewrite EQ in M3, RQ, PQ.
  apply near_more with (77 + 1 * (70 + 1) + 1 + 2); [lra|exact PQ|]. match goal with |- near _ _ (rnd (?x / ?y)) _ => replace (x / y) with (x * (1 / y)) by (unfold Rdiv; ring) end.
  apply near_rnd; [lra|apply (rng_low (204 + 204)); [lia|exact RQ]|exact M3|]. assert (NA' : Rabs (- A) <= 1) by lra. pose proof (absmul _ _ _ _ NA' (Req_le _ _ (Rabs_pos_eq _ (Rlt_le _ _ PQ)))). lra.
Qed.
