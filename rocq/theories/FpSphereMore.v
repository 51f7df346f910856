(** Proofs for FpSphere.v: order of the visits, cells with right angles, the origin. *)
From Flocq Require Import Core.
From Coq Require Import Reals Lra Lia.
From Coq Require Import Sorting.Sorted.
From Verif Require Import RBase Fp FpConcrete FpSphere FpSphereSpec FpSphereLoop FpSphereProofs FpSphereMain.
From Verif Require SphereSpec SphereGeom SphereMain.
Import ListNotations.
Open Scope R_scope.

(** *** order *)
Lemma olist_sorted Rmin W L mm nn : 0 <= c1r L -> StronglySorted Z.lt (olist Rmin W L mm nn).
Proof.
  intros HC. unfold olist. destruct (Z.eqb_spec (hi Rmin W L mm nn) (outside W L mm nn)); [apply SphereGeom.zrange_sorted|].
  apply SphereGeom.SSorted_app; try apply SphereGeom.zrange_sorted. intros x y Hx Hy. apply zrange_In in Hx, Hy.
  unfold hi in *. destruct (Reqb _ _); [congruence|]. destruct (Rltb _ _); [|congruence].
  unfold hole in *. assert (N : 0 <= excl Rmin W L mm nn) by (now apply half_nonneg).
  assert (Rceil (rnd (o0l L mm nn - excl Rmin W L mm nn)) <= Rceil (rnd (o0l L mm nn + excl Rmin W L mm nn)))%Z; [|lia].
  apply Rceil_le. apply Rle_trans with (rnd (o0l L mm nn + excl Rmin W L mm nn)); [apply rnd_le; lra|apply Rceil_spec].
Qed.
Lemma all_sorted Rmin W L : 0 <= c1r L -> StronglySorted lex (all_points Rmin W L).
Proof.
  intros OK. unfold all_points. eapply SphereGeom.SSorted_flat_map; [apply SphereGeom.zrange_sorted| |].
  - intros mm. unfold plane. eapply SphereGeom.SSorted_flat_map; [apply SphereGeom.zrange_sorted| |].
    + intros nn. eapply SphereGeom.SSorted_map; [apply olist_sorted; auto|]. intros x y H; cbn; auto.
    + intros nn nn' u v H Hu Hv. apply in_map_iff in Hu, Hv. destruct Hu as (? & <- & _), Hv as (? & <- & _). cbn. auto.
  - intros mm mm' u v H Hu Hv. unfold plane in *. apply in_flat_map in Hu, Hv.
    destruct Hu as (? & _ & Hu), Hv as (? & _ & Hv).
    apply in_map_iff in Hu, Hv. destruct Hu as (? & <- & _), Hv as (? & <- & _). cbn. auto.
Qed.
Lemma visits_all Rmin W L l : visits Rmin W L l <-> l = all_points Rmin W L.
Proof.
  destruct (points_all Rmin W L) as [f0 H]. split.
  - intros [f1 H1]. specialize (H (f0 + f1)%nat ltac:(lia)). specialize (H1 (f0 + f1)%nat ltac:(lia)). congruence.
  - intros ->. exists f0. exact H.
Qed.

(** *** right angles *)
Lemma rnd_1 : rnd 1 = 1. Proof. apply rnd_id, (dbl_Z 1). lia. Qed.
Lemma vunit_1 : fp_vunit 0 0 0 = 1.
Proof. unfold fp_vunit. rewrite ?Rmult_0_r, ?Rmult_0_l, ?rnd_0, ?Rplus_0_r, ?Rminus_0_r, ?rnd_1, ?Rminus_0_r, ?rnd_1, ?Rminus_0_r, ?rnd_1, sqrt_1. apply rnd_1. Qed.
Lemma box_eq a b c : dbl a -> dbl b -> dbl c ->
  box a b c = {| ar := rnd (1 / a); dn0dm := 0; do0dm := 0; b2r := rnd (1 / b); do0dn := 0; c1r := rnd (1 / c) |}.
Proof.
  intros Da Db Dc. unfold box, fp_init, fp_update. cbn [f_b f_c f_ca f_sa f_ar f_br f_cr f_cbr f_cgr]. rewrite vunit_1, !Rmult_1_r, rnd_1, !(rnd_id a Da), !(rnd_id b Db), !(rnd_id c Dc).
  assert (Z : forall x, rnd (0 / x) = 0) by (intros x; unfold Rdiv; now rewrite Rmult_0_l, rnd_0).
  repeat first [rewrite Z | rewrite rnd_0 | rewrite Ropp_0 | rewrite Rmult_0_l | rewrite Rminus_0_r]. reflexivity.
Qed.
Lemma box_len a b c p : edge a -> edge b -> edge c -> 
  Rabs (len2 (box a b c) p - box2 a b c p) <= 8 * v * box2 a b c p.
Proof.
  intros (Da & Ha) (Db & Hb) (Dc & Hc). rewrite box_eq by assumption. destruct p as [[m n] o]. unfold len2, box2. cbn [ar dn0dm do0dm b2r do0dn c1r].
  assert (K : forall k e, 0 < e <= bpow radix2 299 -> Rabs ((k / rnd (1 / e)) ^ 2 - (k * e) ^ 2) <= 8 * v * (k * e) ^ 2).
  { intros k e He. assert (P : 0 < 1 / e) by (apply Rdiv_lt_0_compat; lra).
    assert (HI : bpow radix2 (-1000) <= 1 / e).
    { apply Rle_trans with (/ bpow radix2 299); [rewrite <- (bpow_opp radix2 299); apply bpow_le; lia|]. unfold Rdiv. rewrite Rmult_1_l. apply Rinv_le; lra. }
    pose proof (rb (1 / e) (1 / e) ltac:(rewrite Rabs_pos_eq; lra) HI) as E. set (r := rnd (1 / e)) in *.
    set (d := e * r). assert (Ed : Rabs (d - 1) <= v).
    { unfold d. replace (e * r - 1) with (e * (r - 1 / e)) by (field; lra). rewrite Rabs_mult, (Rabs_pos_eq e) by lra.
      replace v with (e * (v * (1 / e))) by (field; lra). apply Rmult_le_compat_l; lra. }
    apply Rabs_le_inv in Ed. assert (D0 : 0 < d) by lra. assert (R0 : r <> 0) by (intros G; unfold d in D0; rewrite G, Rmult_0_r in D0; lra).
    replace (k / r) with (k * e * / d) by (unfold d; field; lra). set (x := k * e).
    assert (Ei : Rabs (/ d * / d - 1) <= 8 * v).
    { replace (/ d * / d - 1) with ((1 - d * d) * (/ d * / d)) by (field; lra).
      assert (I2 : 0 <= / d <= 101 / 100).
      { split; [left; now apply Rinv_0_lt_compat|]. replace (101 / 100) with (/ (100 / 101)) by field. apply Rinv_le; lra. }
      assert (I3 : Rabs (/ d * / d) <= 2) by (rewrite Rabs_pos_eq by (apply Rmult_le_pos; lra); apply Rle_trans with (101 / 100 * (101 / 100)); [apply Rmult_le_compat; lra|lra]).
      assert (I4 : Rabs (1 - d * d) <= 4 * v).
      { replace (1 - d * d) with ((1 - d) * (1 + d)) by ring. apply Rle_trans with (v * 3); [apply absmul; apply Rabs_le; lra|lra]. }
      apply Rle_trans with (4 * v * 2); [now apply absmul|lra]. }
    replace ((x * / d) ^ 2 - x ^ 2) with ((/ d * / d - 1) * x ^ 2) by ring. rewrite Rabs_mult.
    assert (Q : 0 <= x ^ 2) by (rewrite <- Rsqr_pow2; apply Rle_0_sqr). rewrite (Rabs_pos_eq (x ^ 2)) by exact Q. now apply Rmult_le_compat_r. }
  pose proof (K (IZR m) a Ha) as K1. pose proof (K (IZR n) b Hb) as K2. pose proof (K (IZR o) c Hc) as K3.
  replace (IZR n - IZR m * 0) with (IZR n) by ring. replace (IZR o - (IZR m * 0 + IZR n * 0)) with (IZR o) by ring.
  apply Rabs_le_inv in K1. apply Rabs_le_inv in K2. apply Rabs_le_inv in K3. apply Rabs_le. lra.
Qed.
Lemma box_ok a b c : edge a -> edge b -> edge c -> par_ok (box a b c).
Proof.
  intros (Da & Ha) (Db & Hb) (Dc & Hc). rewrite box_eq by assumption.
  assert (K : forall e, 0 < e <= bpow radix2 299 -> bpow radix2 (-300) <= rnd (1 / e)).
  { intros e He. apply rnd_ge_dbl; [|apply dbl_bpow; lia]. apply Rle_trans with (/ bpow radix2 299); [rewrite <- (bpow_opp radix2 299); apply bpow_le; lia|].
    unfold Rdiv. rewrite Rmult_1_l. apply Rinv_le; lra. }
  pose proof (K a Ha). pose proof (K b Hb). pose proof (K c Hc). pose proof (bpow_gt_0 radix2 (-300)).
  constructor; cbn [ar dn0dm do0dm b2r do0dn c1r]; auto; rewrite Rabs_R0; lra.
Qed.

(** *** the origin *)
Lemma origin_out Rmin W L : par_ok L -> bpow radix2 (-300) <= W -> bpow radix2 (-300) <= Rmin -> Rmin * c1r L <= / 2 -> ~ In (0, 0, 0)%Z (all_points Rmin W L).
Proof.
  intros HL HW HR Hc. pose proof HL as [_ _ HC _ _ _]. pose proof (bpow_gt_0 radix2 (-300)) as P.
  assert (N0 : n0 L 0 = 0) by (unfold n0; rewrite Rmult_0_l; apply rnd_0).
  assert (S0 : fp_sq 0 = 0) by (unfold fp_sq; rewrite Rmult_0_l; apply rnd_0).
  assert (DV : forall x, 0 / x = 0) by (intros x; unfold Rdiv; apply Rmult_0_l).
  assert (RS : rnd (RmaxSquare W) = RmaxSquare W) by (rewrite rms by lra; apply rnd_id, rnd_dbl).
  assert (RP : Rp W L 0 = RmaxSquare W) by (unfold Rp; rewrite DV, rnd_0, S0, Rminus_0_r; exact RS).
  assert (RL : Rl W L 0 0 = RmaxSquare W) by (unfold Rl; rewrite RP, N0, Rminus_0_r, rnd_0, DV, rnd_0, S0, Rminus_0_r; exact RS).
  assert (OL : o0l L 0 0 = 0).
  { unfold o0l, o0p. rewrite N0, Rminus_0_r, rnd_0, !Rmult_0_l, rnd_0, Rplus_0_r. apply rnd_0. }
  set (e := excl Rmin W L 0 0).
  assert (HE : 0 < e < 1 /\ rnd e = e).
  { unfold e, excl, Rx. rewrite RL. replace (RmaxSquare W - RmaxSquare W) with 0 by ring. rewrite rnd_0, Rplus_0_l.
    assert (HQ : rnd (RminSquare Rmin) = rnd (Rmin * Rmin)).
    { unfold RminSquare. replace (Rltb Rmin 0) with false by (symmetry; apply Rltb_false; lra). apply rnd_id, rnd_dbl. }
    rewrite HQ. assert (B2 : bpow radix2 (-1000) <= Rmin * Rmin).
    { apply Rle_trans with (bpow radix2 (-300) * bpow radix2 (-300)); [rewrite <- bpow_plus; apply bpow_le; lia|apply Rmult_le_compat; lra]. }
    assert (B3 : bpow radix2 (-1000) <= Rmin * c1r L).
    { apply Rle_trans with (bpow radix2 (-300) * bpow radix2 (-300)); [rewrite <- bpow_plus; apply bpow_le; lia|apply Rmult_le_compat; lra]. }
    pose proof (bpow_gt_0 radix2 (-1000)) as P2.
    pose proof (rb (Rmin * Rmin) (Rmin * Rmin) ltac:(rewrite Rabs_pos_eq; lra) B2) as E. apply Rabs_le_inv in E.
    destruct (half_err Rmin (c1r L) (rnd (Rmin * Rmin)) HR HC ltac:(lra) ltac:(lra)) as (E1 & _ & E2).
    assert (SL : 9 / 10 * Rmin <= sqrt (rnd (Rmin * Rmin)) <= 11 / 10 * Rmin).
    { split; [rewrite <- (sqrt_square (9 / 10 * Rmin)) by lra|rewrite <- (sqrt_square (11 / 10 * Rmin)) by lra]; apply sqrt_le_1; lra. }
    assert (SM : 9 / 10 * (Rmin * c1r L) <= sqrt (rnd (Rmin * Rmin)) * c1r L <= 11 / 10 * (Rmin * c1r L)).
    { split; [replace (9 / 10 * (Rmin * c1r L)) with (9 / 10 * Rmin * c1r L) by ring|replace (11 / 10 * (Rmin * c1r L)) with (11 / 10 * Rmin * c1r L) by ring]; apply Rmult_le_compat_r; lra. }
    apply Rabs_le_inv in E2. split; [lra|]. apply rnd_id. unfold fp_half. destruct (Rltb 0 (rnd (Rmin * Rmin))); [apply rnd_dbl|apply dbl_0]. }
  destruct HE as [HE ED]. intros H. unfold all_points in H. apply in_flat_map in H as (m' & _ & H). unfold plane in H.
  apply in_flat_map in H as (n' & _ & H). apply in_map_iff in H as (o' & Eo & H). injection Eo as -> -> ->.
  assert (HH : hole Rmin W L 0 0 = 0%Z).
  { unfold hole. rewrite OL. fold e. rewrite Rminus_0_l, rnd_opp, ED. apply Z.le_antisymm; [apply Rceil_le; cbn; lra|].
    assert (-1 < Rceil (- e))%Z; [apply Rceil_gt; cbn; lra|lia]. }
  assert (HI : hi Rmin W L 0 0 = 0%Z).
  { unfold hi. fold e. replace (Reqb e 0) with false by (symmetry; apply Reqb_false; lra). rewrite HH, OL.
    replace (Rltb (Rabs (rnd (0 - 0))) e) with true; [reflexivity|]. symmetry. apply Rltb_true. rewrite Rminus_0_r, rnd_0, Rabs_R0. lra. }
  unfold olist in H. rewrite HI, OL in H. fold e in H. destruct (Z.eqb_spec 0 (outside W L 0 0)) as [E|E].
  - apply zrange_In in H. lia.
  - apply in_app_iff in H as [H|H]; apply zrange_In in H as [H1 H2]; [lia|]. rewrite Rplus_0_l, ED in H1. apply Rceil_le in H1. cbn in H1. lra.
Qed.

(** *** the surface *)
(** the cubic lattice with the edge 3, and the smallest double above 15 *)
Definition W15 : R := D 8444249301319681 (-49).
Lemma third : rnd (1 / 3) = D 6004799503160661 (-54).
Proof.
  assert (H := rnd_quot 1 0 3 0 6004799503160661 (-54)). unfold D in *. cbn [bpow] in H. rewrite !Rmult_1_r in H. apply H; lia.
Qed.
Lemma five_of_15 : rnd (W15 * rnd (1 / 3)) = 5.
Proof.
  rewrite third. unfold W15. rewrite D_mul.
  replace 5 with (D (5 * 2 ^ 50) (-50)); [|unfold D; rewrite mult_IZR; change (IZR (2 ^ 50)) with (bpow radix2 50); rewrite Rmult_assoc, <- bpow_plus; cbn; ring].
  change (-50)%Z with (-49 + -54 + 53)%Z. apply rnd_D; lia.
Qed.
