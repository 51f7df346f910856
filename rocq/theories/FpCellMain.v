(** Proofs: PointsInSphere for a cell of any angles. *)
From Flocq Require Import Core.
From Coq Require Import Reals Lra Lia Psatz.
From Verif Require Import RBase Fp FpSphere FpSphereSpec FpSphereProofs FpCellSpec FpCell FpCellLen FpCellConst.
Open Scope R_scope.

Section Cell.
  Context (A B C Sa Sb Sg V a b c ca cb cg sa sb sg : R).
  Context (HA : A * A + Sa * Sa = 1) (HB : B * B + Sb * Sb = 1) (HC : C * C + Sg * Sg = 1) (PA : 0 < Sa) (PB : 0 < Sb) (PC : 0 < Sg)
    (HV : / 16 <= V) (VV : V * V = 1 + 2 * A * B * C - A * A - B * B - C * C)
    (Ha : usual_edge a) (Hb : usual_edge b) (Hc : usual_edge c)
    (Eca : Rabs (ca - A) <= 4 * v) (Ecb : Rabs (cb - B) <= 4 * v) (Ecg : Rabs (cg - C) <= 4 * v)
    (Esa : Rabs (sa - Sa) <= 4 * v) (Esb : Rabs (sb - Sb) <= 4 * v) (Esg : Rabs (sg - Sg) <= 4 * v).
  Let W := fp_vunit ca cb cg.
  Let L := fp_init (fp_update a b c ca cb cg sa sb sg).

  Lemma one_le x y : 0 < y -> x * x + y * y = 1 -> Rabs x <= 1 /\ y <= 1.
  Proof. intros Hy H. pose proof (sq_ge x). pose proof (sq_ge y). split; [apply abs_sq; lra|]. apply Rle_trans with (Rabs y); [apply Rle_abs|]. apply abs_sq; lra. Qed.
  Lemma sq_up x y : 0 <= y -> x * x <= y * y -> x <= y.
  Proof. intros Hy H. apply Rle_trans with (Rabs x); [apply Rle_abs|]. now apply abs_sq. Qed.
  (** the sines are not smaller than the volume *)
  Lemma sines : (/ 16 <= Sa <= 1 /\ / 16 <= Sb <= 1 /\ / 16 <= Sg <= 1) /\ V <= 1 /\ Rabs (A * B - C) <= Sa * Sb /\ Rabs (A * C - B) <= Sa * Sg.
  Proof.
    destruct (one_le _ _ PA HA) as [LA SA]. destruct (one_le _ _ PB HB) as [LB SB]. destruct (one_le _ _ PC HC) as [LC SC].
    assert (G : V * V + (A * B - C) * (A * B - C) = Sa * Sb * (Sa * Sb)). { replace (Sa * Sb * (Sa * Sb)) with ((Sa * Sa) * (Sb * Sb)) by ring. replace (Sa * Sa) with (1 - A * A) by lra. replace (Sb * Sb) with (1 - B * B) by lra. rewrite VV. ring. }
    assert (H : V * V + (A * C - B) * (A * C - B) = Sa * Sg * (Sa * Sg)). { replace (Sa * Sg * (Sa * Sg)) with ((Sa * Sa) * (Sg * Sg)) by ring. replace (Sa * Sa) with (1 - A * A) by lra. replace (Sg * Sg) with (1 - C * C) by lra. rewrite VV. ring. }
    pose proof (sq_ge (A * B - C)). pose proof (sq_ge (A * C - B)). pose proof (sq_ge V). assert (P1 : 0 < Sa * Sb) by (now apply Rmult_lt_0_compat). assert (P2 : 0 < Sa * Sg) by (now apply Rmult_lt_0_compat).
    assert (V1 : V <= Sa * Sb) by (apply sq_up; lra). assert (V2 : V <= Sa * Sg) by (apply sq_up; lra).
    assert (Sa * Sb <= Sa * 1) by (apply Rmult_le_compat_l; lra). assert (Sa * Sb <= 1 * Sb) by (apply Rmult_le_compat_r; lra). assert (Sa * Sg <= 1 * Sg) by (apply Rmult_le_compat_r; lra).
    repeat split; try lra; apply abs_sq; lra.
  Qed.
  Lemma W_rel : rel 26000 W V.
  Proof. destruct (one_le _ _ PA HA) as [LA _]. destruct (one_le _ _ PB HB) as [LB _]. destruct (one_le _ _ PC HC) as [LC _]. now apply (vunit_near ca cb cg A B C V). Qed.
  Lemma W_rng : rng 5 W.
  Proof. destruct sines as (_ & V1 & _). pose proof (rel_pos 26000 _ _ ltac:(lra) W_rel). split; [change (bpow radix2 (- (5))) with (/ 32); lra|change (bpow radix2 5) with 32; lra]. Qed.

  Lemma inv_1 x : 1 / (1 / x) = x. Proof. unfold Rdiv. rewrite !Rmult_1_l. apply Rinv_inv. Qed.
  Lemma pos_e x : usual_edge x -> 0 < x. Proof. intros H. exact (rng_pos _ _ (rng_usual _ H)). Qed.
  (** a quotient s/(x W) *)
  Lemma recip_rng S x : / 16 <= S <= 1 -> usual_edge x -> rng 209 (S / (x * W)).
  Proof. intros HS Hx. change 209%Z with (4 + (200 + 5))%Z. apply rng_div; [now apply rng_unit|]. apply rng_mul; [exact Hx|exact W_rng]. Qed.

  Lemma cell_ar : rel 26080 (ar L) (Sa / (a * V)).
  Proof.
    destruct sines as ((HSa & _) & _). pose proof (pos_e _ Ha) as Pa. pose proof (rng_pos _ _ W_rng) as PW. apply rel_more with (71 + (0 + (26000 + 1) + 1) + 1); [lra|]. apply rel_trans with (Sa / (a * W)); [lra|lra|apply recip_rel; [exact HSa|exact Esa|exact Ha|exact W_rng]|].
    replace (Sa / (a * W)) with (Sa / a * (1 / W)) by (field; lra). replace (Sa / (a * V)) with (Sa / a * (1 / V)) by (field; lra).
    apply rel_mul; [lra|lra|apply rel_refl; apply Rdiv_lt_0_compat; lra|apply rel_inv; [lra|exact W_rel]].
  Qed.
  Lemma cell_b2r : rel 70 (b2r L) (1 / (b * Sa)).
  Proof. destruct sines as ((HSa & _) & _). exact (proj1 (edge_sin b sa Sa Hb HSa Esa)). Qed.
  Lemma cell_c1r : rel 3 (c1r L) (1 / c).
  Proof. pose proof (pos_e _ Hc). apply rel_more with (0 + 2); [lra|]. apply rel_rnd; [lra|apply (rng_low 200); [lia|now apply rng_inv]|]. apply rel_refl, Rdiv_lt_0_compat; lra. Qed.
  Lemma slope_scale S x : 0 < S -> 0 < x -> S / (x * W) * (1 / (Sa / (a * W))) = S / Sa * (a / x).
  Proof. intros HS Hx. pose proof (pos_e _ Ha). pose proof (rng_pos _ _ W_rng). field. lra. Qed.

  Lemma cell_dn : Rabs (dn0dm L * b - (A * B - C) / (Sa * Sa) * a) <= 4920 * v * (a * (Sb / Sa)).
  Proof.
    destruct sines as ((HSa & HSb & HSg) & V1 & HG & HH). destruct (one_le _ _ PA HA) as [LA _]. destruct (one_le _ _ PB HB) as [LB _]. destruct (one_le _ _ PC HC) as [LC _].
    pose proof (pos_e _ Ha) as Pa. pose proof (pos_e _ Hb) as Pb.
    pose proof (cosr_near ca cb cg A B C sa sb Sa Sb LA LB LC Eca Ecb Ecg HSa HSb Esa Esb HG) as N. assert (P1 : 0 < Sa * Sb) by (now apply Rmult_lt_0_compat).
    assert (BG : Rabs ((A * B - C) / (Sa * Sb)) <= 1) by (apply absdiv; [exact P1|lra]).
    pose proof (slope_near _ _ _ _ _ _ N BG (recip_rel sb Sb b W HSb Esb Hb W_rng) (recip_rel sa Sa a W HSa Esa Ha W_rng) (recip_rng _ _ HSb Hb) (recip_rng _ _ HSa Ha)) as S.
    rewrite Rmult_assoc, (slope_scale Sb b PB Pb) in S. unfold near in S. change (rnd (rnd (rnd (rnd (rnd (ca * cb) - cg) / rnd (sa * sb)) * rnd (sb / rnd (b * W))) / rnd (sa / rnd (a * W)))) with (dn0dm L) in S.
    replace (dn0dm L * b - (A * B - C) / (Sa * Sa) * a) with ((dn0dm L - (A * B - C) / (Sa * Sb) * (Sb / Sa * (a / b))) * b) by (field; lra).
    pose proof (absmul _ _ _ _ S (Req_le _ _ (Rabs_pos_eq b (Rlt_le _ _ Pb)))) as E. replace (4920 * v * (a * (Sb / Sa))) with (4920 * v * (Sb / Sa * (a / b)) * b) by (field; lra). exact E.
  Qed.
  Lemma cell_dm : Rabs (do0dm L * c - (A * C - B) / (Sa * Sa) * a) <= 4920 * v * (a * (Sg / Sa)).
  Proof.
    destruct sines as ((HSa & HSb & HSg) & V1 & HG & HH). destruct (one_le _ _ PA HA) as [LA _]. destruct (one_le _ _ PB HB) as [LB _]. destruct (one_le _ _ PC HC) as [LC _].
    pose proof (pos_e _ Ha) as Pa. pose proof (pos_e _ Hc) as Pc.
    pose proof (cosr_near ca cg cb A C B sa sg Sa Sg LA LC LB Eca Ecg Ecb HSa HSg Esa Esg HH) as N. assert (P1 : 0 < Sa * Sg) by (now apply Rmult_lt_0_compat).
    assert (BG : Rabs ((A * C - B) / (Sa * Sg)) <= 1) by (apply absdiv; [exact P1|lra]).
    pose proof (slope_near _ _ _ _ _ _ N BG (recip_rel sg Sg c W HSg Esg Hc W_rng) (recip_rel sa Sa a W HSa Esa Ha W_rng) (recip_rng _ _ HSg Hc) (recip_rng _ _ HSa Ha)) as S.
    rewrite Rmult_assoc, (slope_scale Sg c PC Pc) in S. unfold near in S. change (rnd (rnd (rnd (rnd (rnd (ca * cg) - cb) / rnd (sa * sg)) * rnd (sg / rnd (c * W))) / rnd (sa / rnd (a * W)))) with (do0dm L) in S.
    replace (do0dm L * c - (A * C - B) / (Sa * Sa) * a) with ((do0dm L - (A * C - B) / (Sa * Sg) * (Sg / Sa * (a / c))) * c) by (field; lra).
    pose proof (absmul _ _ _ _ S (Req_le _ _ (Rabs_pos_eq c (Rlt_le _ _ Pc)))) as E. replace (4920 * v * (a * (Sg / Sa))) with (4920 * v * (Sg / Sa * (a / c)) * c) by (field; lra). exact E.
  Qed.
  Lemma cell_dz : Rabs (do0dn L * c - - A * b) <= 152 * v * b.
  Proof.
    destruct sines as ((HSa & HSb & HSg) & V1 & HG & HH). destruct (one_le _ _ PA HA) as [LA _]. pose proof (pos_e _ Hb) as Pb. pose proof (pos_e _ Hc) as Pc.
    pose proof (last_near ca A b c sa Sa Hb Hc HSa Esa LA Eca) as N. unfold near in N. change (rnd (rnd (- ca * rnd (1 / rnd (c * sa))) / rnd (1 / rnd (b * sa)))) with (do0dn L) in N.
    replace (do0dn L * c - - A * b) with ((do0dn L - - A * (b / c)) * c) by (field; lra). pose proof (absmul _ _ _ _ N (Req_le _ _ (Rabs_pos_eq c (Rlt_le _ _ Pc)))) as E. replace (152 * v * b) with (152 * v * (b / c) * c) by (field; lra). exact E.
  Qed.

  (** the hypotheses of the loop *)
  Lemma cell_ok : par_ok L.
  Proof.
    destruct sines as ((HSa & HSb & HSg) & V1 & HG & HH). destruct (one_le _ _ PA HA) as [LA _]. pose proof (pos_e _ Ha) as Pa. pose proof (pos_e _ Hb) as Pb. pose proof (pos_e _ Hc) as Pc.
    pose proof (rel_pos 26080 _ _ ltac:(lra) cell_ar) as RA. pose proof (rel_pos 70 _ _ ltac:(lra) cell_b2r) as RB. pose proof (rel_pos 3 _ _ ltac:(lra) cell_c1r) as RC.
    assert (LOW : forall k x y, (k <= 299)%Z -> rng k y -> 99 / 100 * y <= x -> bpow radix2 (-300) <= x).
    { intros k x y Hk [Hy _] Hx. pose proof (bpow_gt_0 radix2 (-300)) as P. apply Rle_trans with (99 / 100 * y); [|exact Hx]. assert (bpow radix2 (-299) <= y) by (eapply Rle_trans; [|exact Hy]; apply bpow_le; lia). replace (-299)%Z with (-300 + 1)%Z in H by lia. rewrite bpow_plus in H. change (bpow radix2 1) with 2 in H. lra. }
    assert (R1 : rng (4 + (200 + 4)) (Sa / (a * V))) by (apply rng_div; [now apply rng_unit|apply rng_mul; [exact Ha|apply rng_unit; lra]]).
    assert (QA : 0 < 1 / (a * Sa)) by (apply Rdiv_lt_0_compat; [lra|apply Rmult_lt_0_compat; lra]).
    assert (A16 : ar L * a <= 16.2 * Sa).
    { assert (E : Sa / (a * V) * a = Sa / V) by (field; lra). assert (ar L * a <= 101 / 100 * (Sa / (a * V)) * a) by (apply Rmult_le_compat_r; lra). replace (101 / 100 * (Sa / (a * V)) * a) with (101 / 100 * (Sa / (a * V) * a)) in H by ring. rewrite E in H.
      assert (Sa / V <= 16 * Sa) by (apply Rmult_le_reg_r with V; [lra|]; replace (Sa / V * V) with Sa by (field; lra); assert (Sa * / 16 <= Sa * V) by (apply Rmult_le_compat_l; lra); lra). lra. }
    assert (AP : 0 < ar L) by (pose proof (rng_pos _ _ R1); lra).
    (* a slope times ar *)
    assert (SL : forall d e x S, 0 < x -> 0 < S -> S <= 1 -> Rabs e <= S / Sa -> Rabs (d * x - e * a) <= 4920 * v * (a * (S / Sa)) -> Rabs d * ar L * x <= 16.4).
    { intros d e x S Hx HS0 HS He Hd. assert (E1 : Rabs (e * a) <= S / Sa * a) by (apply absmul; [exact He|rewrite Rabs_pos_eq; lra]). pose proof (abs_near _ _ _ _ Hd E1) as N.
      rewrite Rabs_mult, (Rabs_pos_eq x) in N by lra. assert (QS : 0 < S / Sa) by (apply Rdiv_lt_0_compat; lra). set (t := S / Sa * a) in *. assert (PT : 0 < t) by (now apply Rmult_lt_0_compat). replace (a * (S / Sa)) with t in N by (unfold t; ring). replace (Rabs d * ar L * x) with (Rabs d * x * ar L) by ring.
      apply Rle_trans with (1.001 * t * ar L); [apply Rmult_le_compat_r; lra|]. replace (1.001 * t * ar L) with (1.001 * (S / Sa) * (ar L * a)) by (unfold t; ring). apply Rle_trans with (1.001 * (S / Sa) * (16.2 * Sa)); [apply Rmult_le_compat_l; lra|]. replace (1.001 * (S / Sa) * (16.2 * Sa)) with (1.001 * 16.2 * S) by (field; lra). lra. }
    assert (EG : Rabs ((A * B - C) / (Sa * Sa)) <= Sb / Sa) by (apply absdiv; [apply Rmult_lt_0_compat; lra|]; replace (Sb / Sa * (Sa * Sa)) with (Sa * Sb) by (field; lra); exact HG).
    assert (EH : Rabs ((A * C - B) / (Sa * Sa)) <= Sg / Sa) by (apply absdiv; [apply Rmult_lt_0_compat; lra|]; replace (Sg / Sa * (Sa * Sa)) with (Sa * Sg) by (field; lra); exact HH).
    pose proof (SL _ _ b Sb Pb PB (proj2 HSb) EG cell_dn) as S1. pose proof (SL _ _ c Sg Pc PC (proj2 HSg) EH cell_dm) as S2.
    assert (CC : 99 / 100 <= c1r L * c) by (assert (99 / 100 * (1 / c) * c <= c1r L * c) by (apply Rmult_le_compat_r; lra); replace (99 / 100 * (1 / c) * c) with (99 / 100) in H by (field; lra); lra).
    assert (BB : 99 / 100 <= b2r L * b).
    { assert (99 / 100 * (1 / (b * Sa)) * b <= b2r L * b) by (apply Rmult_le_compat_r; lra). replace (99 / 100 * (1 / (b * Sa)) * b) with (99 / 100 * (1 / Sa)) in H by (field; lra). assert (1 <= 1 / Sa) by (apply Rmult_le_reg_r with Sa; [lra|]; replace (1 / Sa * Sa) with 1 by (field; lra); lra). lra. }
    constructor.
    - apply (LOW (4 + (200 + 4))%Z _ (Sa / (a * V)) ltac:(lia) R1). lra.
    - apply (LOW 204%Z _ (1 / (b * Sa)) ltac:(lia)); [exact (proj2 (edge_sin b sa Sa Hb HSa Esa))|lra].
    - apply (LOW 200%Z _ (1 / c) ltac:(lia)); [apply rng_inv; exact Hc|lra].
    - apply Rmult_le_reg_r with b; [exact Pb|]. lra.
    - apply Rmult_le_reg_r with c; [exact Pc|]. lra.
    - apply Rmult_le_reg_r with c; [exact Pc|]. assert (E1 : Rabs (- A * b) <= 1 * b) by (apply absmul; [rewrite Rabs_Ropp; exact LA|rewrite Rabs_pos_eq; lra]). pose proof (abs_near _ _ _ _ cell_dz E1) as N. rewrite Rabs_mult, (Rabs_pos_eq c) in N by lra.
      assert (BP : b2r L * b <= 101 / 100 * 16). { assert (b2r L * b <= 101 / 100 * (1 / (b * Sa)) * b) by (apply Rmult_le_compat_r; lra). replace (101 / 100 * (1 / (b * Sa)) * b) with (101 / 100 * (1 / Sa)) in H by (field; lra). assert (1 / Sa <= 16) by (apply Rmult_le_reg_r with Sa; [lra|]; replace (1 / Sa * Sa) with 1 by (field; lra); lra). lra. }
      assert (B0 : 0 < b2r L) by (apply Rmult_lt_reg_r with b; lra). replace (Rabs (do0dn L) * b2r L * c) with (Rabs (do0dn L) * c * b2r L) by ring. apply Rle_trans with (1.001 * b * b2r L); [apply Rmult_le_compat_r; lra|]. lra.
  Qed.

  Lemma cell_near m n o q : 0 <= q ->
    (IZR m * a) ^ 2 + (IZR n * b) ^ 2 + (IZR o * c) ^ 2 + 2 * (IZR m * a) * (IZR n * b) * C + 2 * (IZR m * a) * (IZR o * c) * B + 2 * (IZR n * b) * (IZR o * c) * A = q * q ->
    Rabs (len2 L (m, n, o) - q * q) <= margin * (q * q).
  Proof.
    destruct sines as ((HSa & HSb & HSg) & V1 & HG & HH). pose proof (pos_e _ Ha) as Pa. pose proof (pos_e _ Hb) as Pb. pose proof (pos_e _ Hc) as Pc.
    assert (SM : forall S, 0 < S <= 1 -> 4920 * v * (a * (S / Sa)) <= 4920 * v * (a / Sa)).
    { intros S HS. apply Rmult_le_compat_l; [lra|]. replace (a * (S / Sa)) with (a / Sa * S) by (field; lra). assert (0 < a / Sa) by (apply Rdiv_lt_0_compat; lra). assert (a / Sa * S <= a / Sa * 1) by (apply Rmult_le_compat_l; lra). lra. }
    apply (cell_len A B C Sa V a b c); auto.
    - replace (a * V / Sa) with (1 / (Sa / (a * V))) by (field; lra). apply rel_more with (26080 + 1); [lra|]. apply rel_inv; [lra|exact cell_ar].
    - replace (b * Sa) with (1 / (1 / (b * Sa))) by apply inv_1. apply rel_more with (70 + 1); [lra|]. apply rel_inv; [lra|exact cell_b2r].
    - replace (rel 10 (1 / c1r L) c) with (rel 10 (1 / c1r L) (1 / (1 / c))) by (now rewrite inv_1). apply rel_more with (3 + 1); [lra|]. apply rel_inv; [lra|exact cell_c1r].
    - eapply Rle_trans; [exact cell_dn|]. apply SM. lra.
    - eapply Rle_trans; [exact cell_dm|]. apply SM. lra.
    - exact cell_dz.
  Qed.
End Cell.

(** in terms of the angles *)
Lemma cell_angles a b c al be ga ca cb cg sa sb sg : usual_edge a -> usual_edge b -> usual_edge c -> good_trig al ca sa -> good_trig be cb sb -> good_trig ga cg sg ->
  / 256 <= unit_volume2 al be ga ->
  par_ok (fp_init (fp_update a b c ca cb cg sa sb sg)) /\
  forall p, 0 <= cell2 a b c al be ga p /\ Rabs (len2 (fp_init (fp_update a b c ca cb cg sa sb sg)) p - cell2 a b c al be ga p) <= margin * cell2 a b c al be ga p.
Proof.
  intros Ha Hb Hc (P1 & C1 & S1) (P2 & C2 & S2) (P3 & C3 & S3) HV. unfold unit_volume2 in HV.
  assert (E50 : bpow radix2 (-50) = 4 * v) by (change (bpow radix2 (-50)) with (/ 1125899906842624); lra). rewrite E50 in *.
  assert (T : forall x, cos x * cos x + sin x * sin x = 1) by (intros x; pose proof (sin2_cos2 x) as H; unfold Rsqr in H; lra).
  set (A := cos al) in *. set (B := cos be) in *. set (C := cos ga) in *. set (U := 1 + 2 * A * B * C - A ^ 2 - B ^ 2 - C ^ 2) in *.
  assert (VV : sqrt U * sqrt U = U) by (apply sqrt_sqrt; lra). assert (V16 : / 16 <= sqrt U) by (apply (fun H => sqrt_le_1_alt _ _ H) in HV; replace (sqrt (/ 256)) with (/ 16) in HV; [exact HV|]; symmetry; replace (/ 256) with (/ 16 * / 16) by lra; apply sqrt_square; lra).
  assert (VV' : sqrt U * sqrt U = 1 + 2 * A * B * C - A * A - B * B - C * C) by (rewrite VV; unfold U; ring).
  assert (OK : par_ok (fp_init (fp_update a b c ca cb cg sa sb sg))) by (apply (cell_ok A B C (sin al) (sin be) (sin ga) (sqrt U)); auto; [apply (T al)|apply (T be)|apply (T ga)]).
  split; [exact OK|]. intros [[m n] o].
  assert (K : forall q, 0 <= q -> cell2 a b c al be ga (m, n, o) = q * q -> Rabs (len2 (fp_init (fp_update a b c ca cb cg sa sb sg)) (m, n, o) - q * q) <= margin * (q * q)).
  { intros q Hq E. apply (cell_near A B C (sin al) (sin be) (sin ga) (sqrt U)); auto; [apply (T al)|apply (T be)|apply (T ga)]. }
  assert (N : 0 <= cell2 a b c al be ga (m, n, o)).
  { unfold cell2. fold A. fold B. fold C. set (X := IZR m * a). set (Y := IZR n * b). set (Z := IZR o * c). clearbody X Y Z.
    assert (S0 : 0 < sin al * sin al) by (now apply Rmult_lt_0_compat). pose proof (T al) as TA. fold A in TA.
    assert (E : (sin al * sin al) * (X ^ 2 + Y ^ 2 + Z ^ 2 + 2 * X * Y * C + 2 * X * Z * B + 2 * Y * Z * A) = (sin al * sin al) * ((Z + B * X + A * Y) * (Z + B * X + A * Y)) + (sin al * sin al * Y - (A * B - C) * X) * (sin al * sin al * Y - (A * B - C) * X) + U * (X * X)).
    { replace (sin al * sin al) with (1 - A * A) by lra. unfold U. ring. }
    apply Rmult_le_reg_l with (sin al * sin al); [exact S0|]. rewrite Rmult_0_r, E. pose proof (sq_ge (sin al * sin al * Y - (A * B - C) * X)). pose proof (Rmult_le_pos _ _ (Rlt_le _ _ S0) (sq_ge (Z + B * X + A * Y))). assert (0 <= U * (X * X)) by (apply Rmult_le_pos; [lra|apply sq_ge]). lra. }
  split; [exact N|]. pose proof (K (sqrt (cell2 a b c al be ga (m, n, o))) (sqrt_pos _)) as H. rewrite sqrt_sqrt in H by exact N. now apply H.
Qed.
