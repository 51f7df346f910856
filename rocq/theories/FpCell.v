(** Proofs: the constants of PointsInSphere for a cell of any angles. *)
From Flocq Require Import Core.
From Coq Require Import Reals Lra Lia Psatz.
From Verif Require Import RBase Fp FpSphere FpSphereSpec FpSphereProofs FpWidthMain FpCellSpec.
Open Scope R_scope.

(** relative error of a positive number, and error in units of a scale; [v] is 2^-52 *)
Lemma small_prod k l : 0 <= k <= 30000 -> 0 <= l <= 30001 -> 0 <= k * l <= 900030000.
Proof. intros Hk Hl. split; [apply Rmult_le_pos; lra|]. apply Rle_trans with (30000 * 30001); [apply Rmult_le_compat; lra|lra]. Qed.
Definition rel (k x y : R) : Prop := 0 < y /\ Rabs (x - y) <= k * v * y.
Definition near (t s x y : R) : Prop := Rabs (x - y) <= t * v * s.

Lemma rel_more k k' x y : k <= k' -> rel k x y -> rel k' x y.
Proof. intros H [H1 H2]. split; [exact H1|]. eapply Rle_trans; [exact H2|]. apply Rmult_le_compat_r; lra. Qed.
Lemma rel_refl x : 0 < x -> rel 0 x x. Proof. intros H. split; [exact H|]. rewrite Rminus_diag_eq, Rabs_R0 by reflexivity. lra. Qed.
Lemma rel_pos k x y : 0 <= k <= 60000 -> rel k x y -> 99 / 100 * y <= x <= 101 / 100 * y.
Proof. intros Hk [H1 H2]. apply Rabs_le_inv in H2. assert (k * v * y <= / 100 * y) by (apply Rmult_le_compat_r; lra). lra. Qed.
Lemma rel_trans k l x y z : 0 <= k <= 30000 -> 0 <= l <= 30000 -> rel k x y -> rel l y z -> rel (k + l + 1) x z.
Proof.
  intros Hk Hl [Y H1] [Z H2]. split; [exact Z|]. assert (YZ : y <= (1 + l * v) * z) by (apply Rabs_le_inv in H2; lra). pose proof (abs_tri _ _ _ _ _ H1 H2) as T. eapply Rle_trans; [exact T|].
  assert (k * v * y <= k * v * ((1 + l * v) * z)) by (apply Rmult_le_compat_l; lra). pose proof (small_prod k l Hk ltac:(lra)) as KL. assert (0 <= (1 - k * l * v) * (v * z)) by (apply Rmult_le_pos; [lra|apply Rmult_le_pos; lra]). nra.
Qed.
Lemma rel_mul k l x y z w : 0 <= k <= 30000 -> 0 <= l <= 30000 -> rel k x y -> rel l z w -> rel (k + l + 1) (x * z) (y * w).
Proof.
  intros Hk Hl Hx Hz. pose proof (rel_pos l _ _ ltac:(lra) Hz) as PZ. destruct Hx as [Y H1], Hz as [W H2]. split; [now apply Rmult_lt_0_compat|].
  replace (x * z - y * w) with ((x - y) * z + y * (z - w)) by ring. eapply Rle_trans; [apply Rabs_triang|].
  assert (ZB : Rabs z <= (1 + l * v) * w). { apply Rabs_le_inv in H2. apply Rabs_le. lra. }
  pose proof (absmul _ _ _ _ H1 ZB) as X1. assert (X2 : Rabs (y * (z - w)) <= y * (l * v * w)) by (apply absmul; [rewrite Rabs_pos_eq; lra|exact H2]).
  pose proof (small_prod k l Hk ltac:(lra)) as KL. assert (YW : 0 < y * w) by (now apply Rmult_lt_0_compat). assert (0 <= (1 - k * l * v) * (v * (y * w))) by (apply Rmult_le_pos; [lra|apply Rmult_le_pos; lra]).
  replace (k * v * y * ((1 + l * v) * w)) with (k * v * (y * w) + k * l * v * (v * (y * w))) in X1 by ring. replace (y * (l * v * w)) with (l * v * (y * w)) in X2 by ring. lra.
Qed.
Lemma rel_inv k x y : 0 <= k <= 30000 -> rel k x y -> rel (k + 1) (1 / x) (1 / y).
Proof.
  intros Hk Hx. pose proof (rel_pos k _ _ ltac:(lra) Hx) as PX. destruct Hx as [Y H1]. split; [apply Rdiv_lt_0_compat; lra|].
  replace (1 / x - 1 / y) with ((y - x) / (x * y)) by (field; lra). apply absdiv; [apply Rmult_lt_0_compat; lra|]. replace ((k + 1) * v * (1 / y) * (x * y)) with ((k + 1) * v * x) by (field; lra). rewrite Rabs_minus_sym.
  apply Rabs_le_inv in H1 as H1'. eapply Rle_trans; [exact H1|]. assert (x >= (1 - k * v) * y) by lra. assert ((k + 1) * v * ((1 - k * v) * y) <= (k + 1) * v * x) by (apply Rmult_le_compat_l; lra).
  pose proof (small_prod k (k + 1) Hk ltac:(lra)) as KL. assert (0 <= (1 - k * (k + 1) * v) * (v * y)) by (apply Rmult_le_pos; [lra|apply Rmult_le_pos; lra]). nra.
Qed.
Lemma rel_rnd k x y : 0 <= k <= 30000 -> bpow radix2 (-900) <= y -> rel k x y -> rel (k + 2) (rnd x) y.
Proof.
  intros Hk Hy Hx. pose proof (rel_pos k _ _ ltac:(lra) Hx) as PX. destruct Hx as [Y H1]. split; [exact Y|]. assert (L : bpow radix2 (-1000) <= bpow radix2 (-900)) by (apply bpow_le; lia).
  assert (R1 : Rabs (rnd x - x) <= v * (2 * y)) by (apply rb; [rewrite Rabs_pos_eq; lra|lra]). pose proof (abs_tri _ _ _ _ _ R1 H1). lra.
Qed.
Lemma near_mul t B s x y k z w : 0 <= t <= 30000 -> 0 <= k <= 30000 -> 0 < s -> near t s x y -> Rabs y <= B * s -> rel k z w -> near (t + B * k + 1) (s * w) (x * z) (y * w).
Proof.
  intros Ht Hk Hs Hx HB Hz. destruct Hz as [W H2]. unfold near in *.
  replace (x * z - y * w) with ((x - y) * z + y * (z - w)) by ring. eapply Rle_trans; [apply Rabs_triang|].
  assert (ZB : Rabs z <= (1 + k * v) * w). { apply Rabs_le_inv in H2. apply Rabs_le. lra. }
  pose proof (absmul _ _ _ _ Hx ZB) as X1. pose proof (absmul _ _ _ _ HB H2) as X2.
  pose proof (small_prod t k Ht ltac:(lra)) as KL. assert (YW : 0 < s * w) by (now apply Rmult_lt_0_compat). assert (0 <= (1 - t * k * v) * (v * (s * w))) by (apply Rmult_le_pos; [lra|apply Rmult_le_pos; lra]).
  replace (t * v * s * ((1 + k * v) * w)) with (t * v * (s * w) + t * k * v * (v * (s * w))) in X1 by ring. replace (B * s * (k * v * w)) with (B * k * v * (s * w)) in X2 by ring. lra.
Qed.
Lemma near_rnd t s x y : 0 <= t <= 30000 -> bpow radix2 (-900) <= s -> near t s x y -> Rabs y <= s -> near (t + 2) s (rnd x) y.
Proof.
  intros Ht Hs Hx HB. unfold near in *. pose proof (bpow_gt_0 radix2 (-900)) as P. assert (L : bpow radix2 (-1000) <= bpow radix2 (-900)) by (apply bpow_le; lia).
  assert (TS : t * v * s <= / 100 * s) by (apply Rmult_le_compat_r; lra). pose proof (abs_near _ _ _ _ Hx HB) as A.
  assert (R1 : Rabs (rnd x - x) <= v * (2 * s)) by (apply rb; lra). pose proof (abs_tri _ _ _ _ _ R1 Hx). lra.
Qed.
Lemma near_more t t' s x y : t <= t' -> 0 < s -> near t s x y -> near t' s x y.
Proof. intros H Hs Hx. unfold near in *. eapply Rle_trans; [exact Hx|]. apply Rmult_le_compat_r; lra. Qed.

(** *** the volume *)
Lemma r4 x M : Rabs x <= M -> 1 <= M -> - (v * M) <= rnd x - x <= v * M.
Proof. intros H HM. apply Rabs_le_inv. apply rb; [exact H|]. apply Rle_trans with (bpow radix2 0); [apply bpow_le; lia|exact HM]. Qed.
Lemma vunit_near ca cb cg A B C V : Rabs A <= 1 -> Rabs B <= 1 -> Rabs C <= 1 -> Rabs (ca - A) <= 4 * v -> Rabs (cb - B) <= 4 * v -> Rabs (cg - C) <= 4 * v ->
  / 16 <= V -> V * V = 1 + 2 * A * B * C - A * A - B * B - C * C -> rel 26000 (fp_vunit ca cb cg) V.
Proof.
  intros HA HB HC Ea Eb Ec HV VV. assert (PR : forall x y X Y, Rabs X <= 1 -> Rabs Y <= 1 -> Rabs (x - X) <= 4 * v -> Rabs (y - Y) <= 4 * v -> Rabs (x * y - X * Y) <= 9 * v).
  { intros x y X Y HX HY Hx Hy. replace (x * y - X * Y) with ((x - X) * y + X * (y - Y)) by ring. pose proof (abs_near _ _ _ _ Hy HY) as BY. pose proof (absmul _ _ _ _ Hx BY). pose proof (absmul _ _ _ _ HX Hy). eapply Rle_trans; [apply Rabs_triang|]. lra. }
  assert (P1 : forall X Y, Rabs X <= 1 -> Rabs Y <= 1 -> Rabs (X * Y) <= 1) by (intros X Y HX HY; pose proof (absmul _ _ _ _ HX HY); lra).
  pose proof (PR _ _ _ _ HA HB Ea Eb) as E1. pose proof (PR _ _ _ _ HA HA Ea Ea) as EA. pose proof (PR _ _ _ _ HB HB Eb Eb) as EB. pose proof (PR _ _ _ _ HC HC Ec Ec) as EC.
  pose proof (P1 _ _ HA HB) as QAB. pose proof (P1 _ _ QAB HC) as QABC. pose proof (P1 _ _ HA HA) as QA. pose proof (P1 _ _ HB HB) as QB. pose proof (P1 _ _ HC HC) as QC.
  unfold fp_vunit. replace (2 * ca * cb) with (2 * (ca * cb)) by ring. replace (2 * A * B * C) with (2 * (A * B * C)) in VV by ring.
  set (p := ca * cb) in *. set (PP := A * B) in *. clearbody p PP. apply Rabs_le_inv in E1. pose proof (Rabs_le_inv _ _ QAB) as QAB'.
  pose proof (r4 (2 * p) 3 ltac:(apply Rabs_le; lra) ltac:(lra)) as R1. set (x1 := rnd (2 * p)) in *. clearbody x1.
  assert (E2 : Rabs (x1 * cg - 2 * (PP * C)) <= 32 * v).
  { replace (x1 * cg - 2 * (PP * C)) with ((x1 - 2 * PP) * cg + 2 * PP * (cg - C)) by ring. pose proof (abs_near _ _ _ _ Ec HC) as BC. assert (X1 : Rabs (x1 - 2 * PP) <= 22 * v) by (apply Rabs_le; lra). assert (X2 : Rabs (2 * PP) <= 2) by (apply Rabs_le; lra).
    pose proof (absmul _ _ _ _ X1 BC). pose proof (absmul _ _ _ _ X2 Ec). eapply Rle_trans; [apply Rabs_triang|]. lra. }
  set (y := x1 * cg) in *. set (Q := PP * C) in *. clearbody y Q. apply Rabs_le_inv in E2, QABC.
  pose proof (r4 y 3 ltac:(apply Rabs_le; lra) ltac:(lra)) as R2. set (x2 := rnd y) in *. clearbody x2.
  pose proof (r4 (1 + x2) 4 ltac:(apply Rabs_le; lra) ltac:(lra)) as R3. set (x3 := rnd (1 + x2)) in *. clearbody x3.
  set (qa := ca * ca) in *. set (qb := cb * cb) in *. set (qc := cg * cg) in *. set (QA2 := A * A) in *. set (QB2 := B * B) in *. set (QC2 := C * C) in *. clearbody qa qb qc QA2 QB2 QC2. apply Rabs_le_inv in EA, EB, EC, QA, QB, QC.
  pose proof (r4 qa 2 ltac:(apply Rabs_le; lra) ltac:(lra)) as R4. set (sa := rnd qa) in *. pose proof (r4 qb 2 ltac:(apply Rabs_le; lra) ltac:(lra)) as R5. set (sb := rnd qb) in *. pose proof (r4 qc 2 ltac:(apply Rabs_le; lra) ltac:(lra)) as R6. set (sc := rnd qc) in *. clearbody sa sb sc.
  pose proof (r4 (x3 - sa) 6 ltac:(apply Rabs_le; lra) ltac:(lra)) as R7. set (x4 := rnd (x3 - sa)) in *. clearbody x4.
  pose proof (r4 (x4 - sb) 8 ltac:(apply Rabs_le; lra) ltac:(lra)) as R8. set (x5 := rnd (x4 - sb)) in *. clearbody x5.
  pose proof (r4 (x5 - sc) 9 ltac:(apply Rabs_le; lra) ltac:(lra)) as R9. set (x6 := rnd (x5 - sc)) in *. clearbody x6.
  assert (V2 : / 256 <= V * V) by (replace (/ 256) with (/ 16 * / 16) by lra; apply Rmult_le_compat; lra).
  assert (E : Rabs (x6 - V * V) <= 25600 * v * (V * V)). { apply Rabs_le. rewrite VV. rewrite VV in V2. split; lra. }
  assert (X0 : 0 <= x6) by (apply Rabs_le_inv in E; lra). pose proof (ratio_err x6 (V * V) _ X0 ltac:(lra) E) as S. rewrite sqrt_square in S by lra.
  apply rel_more with (25600 + 2); [lra|]. apply rel_rnd; [lra| |split; [lra|exact S]]. apply Rle_trans with (/ 16); [|exact HV]. change (/ 16) with (bpow radix2 (-4)). apply bpow_le. lia.
Qed.

(** *** ranges *)
Definition rng (k : Z) (x : R) : Prop := bpow radix2 (- k) <= x <= bpow radix2 k.
Lemma rng_pos k x : rng k x -> 0 < x. Proof. intros [H _]. eapply Rlt_le_trans; [apply bpow_gt_0|exact H]. Qed.
Lemma rng_mul k l x y : rng k x -> rng l y -> rng (k + l) (x * y).
Proof.
  intros Hx Hy. pose proof (rng_pos _ _ Hx). pose proof (rng_pos _ _ Hy). destruct Hx, Hy. split.
  - replace (- (k + l))%Z with (- k + - l)%Z by ring. rewrite bpow_plus. apply Rmult_le_compat; auto using bpow_ge_0.
  - rewrite bpow_plus. apply Rmult_le_compat; lra.
Qed.
Lemma rng_inv k x : rng k x -> rng k (1 / x).
Proof.
  intros Hx. pose proof (rng_pos _ _ Hx). destruct Hx as [H1 H2]. unfold Rdiv. rewrite Rmult_1_l. split.
  - rewrite bpow_opp. apply Rinv_le_contravar; assumption.
  - replace (bpow radix2 k) with (/ bpow radix2 (- k)) by (rewrite bpow_opp; apply Rinv_inv). apply Rinv_le_contravar; [apply bpow_gt_0|exact H1].
Qed.
Lemma rng_div k l x y : rng k x -> rng l y -> rng (k + l) (x / y).
Proof. intros Hx Hy. replace (x / y) with (x * (1 / y)) by (unfold Rdiv; ring). apply rng_mul; [exact Hx|now apply rng_inv]. Qed.
Lemma rng_low k x : (k <= 900)%Z -> rng k x -> bpow radix2 (-900) <= x.
Proof. intros Hk [H _]. eapply Rle_trans; [|exact H]. apply bpow_le. lia. Qed.
Lemma rel_div k l x y z w : 0 <= k <= 20000 -> 0 <= l <= 29000 -> rel k x y -> rel l z w -> rel (k + l + 2) (x / z) (y / w).
Proof.
  intros Hk Hl Hx Hz. replace (x / z) with (x * (1 / z)) by (unfold Rdiv; ring). replace (y / w) with (y * (1 / w)) by (unfold Rdiv; ring).
  apply rel_more with (k + (l + 1) + 1); [lra|]. apply rel_mul; [lra|lra|exact Hx|]. apply rel_inv; [lra|exact Hz].
Qed.
Lemma rng_unit x : / 16 <= x <= 1 -> rng 4 x.
Proof. intros H. split; [change (bpow radix2 (- (4))) with (/ 16); lra|change (bpow radix2 4) with 16; lra]. Qed.

(** a reciprocal length sin/(edge W) *)
Lemma recip_rel s S a W : / 16 <= S <= 1 -> Rabs (s - S) <= 4 * v -> usual_edge a -> rng 5 W -> rel 71 (rnd (s / rnd (a * W))) (S / (a * W)).
Proof.
  intros HS Hs Ha HW. assert (RS : rel 64 s S) by (split; [lra|]; eapply Rle_trans; [exact Hs|]; lra). assert (RA : rng 205 (a * W)) by exact (rng_mul 200 5 _ _ Ha HW).
  pose proof (rng_pos _ _ RA) as P. assert (R1 : rel 2 (rnd (a * W)) (a * W)) by (apply rel_more with (0 + 2); [lra|]; apply rel_rnd; [lra|apply (rng_low 205); [lia|exact RA]|now apply rel_refl]).
  apply rel_more with (69 + 2); [lra|]. apply rel_rnd; [lra|apply (rng_low (4 + 205)); [lia|apply rng_div; [now apply rng_unit|exact RA]]|].
  apply rel_more with (64 + 4); [lra|].
  split; [apply Rdiv_lt_0_compat; lra|]. assert (RI : rel 3 (1 / rnd (a * W)) (1 / (a * W))) by (apply rel_more with (2 + 1); [lra|]; apply rel_inv; [lra|exact R1]).
  destruct RS as [S0 RS]. destruct RI as [I0 RI]. set (i := 1 / rnd (a * W)) in *. set (j := 1 / (a * W)) in *. replace (s / rnd (a * W)) with (s * i) by (unfold i, Rdiv; ring). replace (S / (a * W)) with (S * j) by (unfold j, Rdiv; ring). clearbody i j.
  replace (s * i - S * j) with ((s - S) * j + s * (i - j)) by ring. assert (SB : Rabs s <= 101 / 100 * S) by (apply Rabs_le; apply Rabs_le_inv in Hs; lra).
  eapply Rle_trans; [apply Rabs_triang|]. assert (J : 0 < S * j) by (apply Rmult_lt_0_compat; assumption). assert (X1 : Rabs ((s - S) * j) <= 64 * v * S * j) by (apply absmul; [exact RS|rewrite Rabs_pos_eq; [apply Rle_refl|apply Rlt_le; exact I0]]).
  pose proof (absmul _ _ _ _ SB RI) as X2. replace (64 * v * S * j) with (64 * v * (S * j)) in X1 by ring. replace (101 / 100 * S * (3 * v * j)) with (303 / 100 * v * (S * j)) in X2 by field.
  clear - X1 X2 J. apply Rle_trans with (64 * v * (S * j) + 303 / 100 * v * (S * j)); [apply Rplus_le_compat; assumption|]. set (t := S * j) in *. clearbody t. lra.
Qed.
