(** Proofs about fftgtof and fftftog: they are the discrete sine transforms and inverse of each other. *)
From Coq Require Import String.
From Verif Require Import RBase AList Trig Sums PdfGrid PdfSpec PdfProofs PdfMain.
Open Scope R_scope.

(** ** Padding to a power of two *)
Lemma ln_pow' x n : 0 < x -> ln (x ^ n) = INR n * ln x.
Proof.
  intros H. induction n as [|n IH]; [cbn [pow]; rewrite ln_1; cbn [INR]; ring|].
  cbn [pow]. rewrite ln_mult, IH by (auto; now apply pow_lt). rewrite S_INR. ring.
Qed.
Lemma ln2_pos : 0 < ln 2. Proof. rewrite <- ln_1. apply ln_increasing; lra. Qed.
Lemma ln_pow2 k : (0 <= k)%Z -> ln (IZR (2 ^ k)) = IZR k * ln 2.
Proof.
  intros H. rewrite <- (Z2Nat.id k) at 1 by assumption. rewrite <- pow_IZR, ln_pow' by lra.
  rewrite INR_IZR_INZ, Z2Nat.id by assumption. reflexivity.
Qed.
Lemma pow2_pos k : (0 <= k)%Z -> (0 < 2 ^ k)%Z. Proof. intros. apply Z.pow_pos_nonneg; lia. Qed.
Lemma padded_spec n : (1 <= n)%Z -> exists k, (0 <= k)%Z /\ padded n = (2 ^ k)%Z /\ (n <= 2 ^ k)%Z /\ ((0 < k)%Z -> (2 ^ (k - 1) < n)%Z).
Proof.
  intros Hn. unfold padded. set (k := Rceil (ln (IZR n) / ln 2)). exists k. pose proof ln2_pos as L2.
  assert (Hn1 : 1 <= IZR n) by (apply (IZR_le 1); lia).
  destruct (Rceil_spec (ln (IZR n) / ln 2)) as [A B]. fold k in A, B.
  apply (lt_div_iff _ _ _ L2) in A. apply (div_le_iff _ _ _ L2) in B.
  assert (L : 0 <= ln (IZR n)). { rewrite <- ln_1. destruct (Req_dec 1 (IZR n)) as [<-|]; [lra|]. apply Rlt_le, ln_increasing; lra. }
  assert (Hk : (0 <= k)%Z).
  { apply Z.nlt_ge. intros H. assert (IZR k <= -1) by (apply (IZR_le _ (-1)); lia). nra. }
  split; [assumption|split; [reflexivity|split]].
  - rewrite <- ln_pow2 in B by assumption. apply Z.nlt_ge. intros H. apply IZR_lt in H.
    apply ln_increasing in H; [lra|]. apply IZR_lt, pow2_pos, Hk.
  - intros Hk0. replace (IZR k - 1) with (IZR (k - 1)) in A by (rewrite minus_IZR; reflexivity).
    rewrite <- ln_pow2 in A by lia. apply Z.nle_gt. intros H. apply IZR_le in H.
    destruct H as [H|H]; [apply ln_increasing in H; lra|rewrite H in A; lra].
Qed.
Lemma padded_ge n : (1 <= n)%Z -> (n <= padded n)%Z.
Proof. intros H. destruct (padded_spec n H) as (k & _ & -> & ? & _). assumption. Qed.
Lemma padded_pos n : (1 <= n)%Z -> (0 < padded n)%Z.
Proof. intros H. pose proof (padded_ge n H). lia. Qed.
Lemma padded_pow2 k : (0 <= k)%Z -> padded (2 ^ k) = (2 ^ k)%Z.
Proof.
  intros Hk. unfold padded. rewrite ln_pow2 by assumption. f_equal.
  replace (IZR k * ln 2 / ln 2) with (IZR k) by (field; pose proof ln2_pos; lra).
  apply Z.le_antisymm; [apply Rceil_le; lra|]. apply Z.nlt_ge. intros H.
  assert (H1 : (Rceil (IZR k) <= k - 1)%Z) by lia. apply Rceil_le in H1. rewrite minus_IZR in H1. lra.
Qed.
Lemma padded_padded n : (1 <= n)%Z -> padded (padded n) = padded n.
Proof. intros H. destruct (padded_spec n H) as (k & Hk & E & _). rewrite E. now apply padded_pow2. Qed.
Lemma padded_is_pow2 n : (1 <= n)%Z -> is_pow2 (2 * padded n) = true.
Proof.
  intros H. destruct (padded_spec n H) as (k & Hk & E & _). rewrite E. unfold is_pow2.
  rewrite <- Z.pow_succ_r by assumption. rewrite Z.log2_pow2 by lia. rewrite Z.eqb_refl.
  pose proof (pow2_pos (Z.succ k)). destruct (Z.ltb_spec 0 (2 ^ Z.succ k)); [reflexivity|lia].
Qed.

(** ** Sums over indices *)
Lemma csum_sumf f n : csum f n = sumf f (seq 0 n).
Proof. unfold csum. rewrite fold_plus. ring. Qed.
Lemma seq_S0 n : seq 0 (S n) = 0%nat :: map S (seq 0 n).
Proof. cbn [seq]. f_equal. now rewrite seq_shift. Qed.
Lemma sumf_rev f n : sumf f (seq 0 n) = sumf (fun i => f (n - 1 - i)%nat) (seq 0 n).
Proof.
  induction n as [|n IH]; [reflexivity|].
  transitivity (sumf f (seq 0 n) + f n).
  { rewrite (seq_S n 0), sumf_app, sumf_cons, sumf_nil. cbn [plus]. ring. }
  rewrite seq_S0, sumf_cons, sumf_map, IH.
  rewrite (sumf_ext (fun x => f (S n - 1 - S x)%nat) (fun i => f (n - 1 - i)%nat)).
  - replace (S n - 1 - 0)%nat with n by lia. ring.
  - intros i _. f_equal. lia.
Qed.
Lemma sumf_shift f n a : sumf f (seq a n) = sumf (fun i => f (a + i)%nat) (seq 0 n).
Proof.
  rewrite <- (sumf_map (fun i => (a + i)%nat)). f_equal. induction a as [|a IH]; [now rewrite map_id|].
  rewrite <- seq_shift, IH, map_map. reflexivity.
Qed.

(** ** The array built by fftgtof *)
Lemma fset_loop1 p g : forall (a : nat -> R),
  let r := fold_left (fun a k => fset a (2 * (p + k)) (nth k g 0)) (seq 0 (length g)) a in
  (forall m, r (2 * m)%nat = if ((p <=? m) && (m <? p + length g))%nat then nth (m - p) g 0 else a (2 * m)%nat) /\
  (forall m, r (2 * m + 1)%nat = a (2 * m + 1)%nat).
Proof.
  intros a. cbv zeta. assert (G : forall n, let r := fold_left (fun a k => fset a (2 * (p + k)) (nth k g 0)) (seq 0 n) a in
    (forall m, r (2 * m)%nat = if ((p <=? m) && (m <? p + n))%nat then nth (m - p) g 0 else a (2 * m)%nat) /\
    (forall m, r (2 * m + 1)%nat = a (2 * m + 1)%nat)).
  2: apply G.
  induction n as [|n IH]; cbv zeta in *.
  - cbn [seq fold_left]. split; auto. intros m. destruct (Nat.leb_spec p m); destruct (Nat.ltb_spec m (p + 0)); cbn [andb]; try lia; reflexivity.
  - rewrite seq_S, fold_left_app. cbn [fold_left plus]. destruct IH as [I1 I2]. split; intros m; unfold fset at 1.
    + destruct (Nat.eqb_spec (2 * m) (2 * (p + n))) as [E|E].
      * assert (m = p + n)%nat by lia. subst m. destruct (Nat.leb_spec p (p + n)); [|lia]. destruct (Nat.ltb_spec (p + n) (p + S n)); [|lia].
        cbn [andb]. f_equal. lia.
      * rewrite I1. destruct (Nat.leb_spec p m); cbn [andb]; [|reflexivity].
        destruct (Nat.ltb_spec m (p + n)); destruct (Nat.ltb_spec m (p + S n)); try lia; reflexivity.
    + destruct (Nat.eqb_spec (2 * m + 1) (2 * (p + n))); [lia|]. apply I2.
Qed.
Lemma fset_loop2 n (a : nat -> R) : (1 <= n)%nat ->
  let r := fold_left (fun a ilo => fset a (2 * (2 * n - ilo)) (-1 * a (2 * ilo)%nat)) (seq 1 (n - 1)) a in
  (forall m, (m <= n)%nat -> r (2 * m)%nat = a (2 * m)%nat) /\
  (forall m, (1 <= m < n)%nat -> r (2 * (2 * n - m))%nat = - a (2 * m)%nat) /\
  (forall m, r (2 * m + 1)%nat = a (2 * m + 1)%nat).
Proof.
  intros Hn. cbv zeta.
  assert (G : forall k, (k <= n - 1)%nat -> let r := fold_left (fun a ilo => fset a (2 * (2 * n - ilo)) (-1 * a (2 * ilo)%nat)) (seq 1 k) a in
    (forall m, (m <= n)%nat -> r (2 * m)%nat = a (2 * m)%nat) /\
    (forall m, (1 <= m <= k)%nat -> r (2 * (2 * n - m))%nat = - a (2 * m)%nat) /\
    (forall m, r (2 * m + 1)%nat = a (2 * m + 1)%nat)).
  2:{ destruct (G (n - 1)%nat) as (A & B & C); [lia|]. repeat split; auto. intros m Hm. apply B. lia. }
  induction k as [|k IH]; intros Hk; cbv zeta in *.
  - cbn [seq fold_left]. repeat split; auto. intros m Hm. lia.
  - rewrite seq_S, fold_left_app. cbn [fold_left]. destruct IH as (I1 & I2 & I3); [lia|].
    set (r := fold_left _ (seq 1 k) a) in *. repeat split; intros m; [intros Hm|intros Hm|]; unfold fset.
    + destruct (Nat.eqb_spec (2 * m) (2 * (2 * n - (1 + k)))); [lia|]. auto.
    + destruct (Nat.eqb_spec (2 * (2 * n - m)) (2 * (2 * n - (1 + k)))) as [E|E].
      * assert (m = 1 + k)%nat by lia. subst m. rewrite I1 by lia. ring.
      * apply I2. lia.
    + destruct (Nat.eqb_spec (2 * m + 1) (2 * (2 * n - (1 + k)))); [lia|]. auto.
Qed.

Lemma sin_2pi_minus i x : sin (2 * PI * INR i - x) = - sin x.
Proof.
  rewrite sin_minus. replace (2 * PI * INR i) with (0 + 2 * INR i * PI) by ring.
  rewrite sin_period, cos_period, sin_0, cos_0. ring.
Qed.

(** The imaginary part of the transform of an odd real signal. *)
Lemma odd_transform (d : nat -> R) n i : (1 <= n)%nat ->
  (forall m, (1 <= m < n)%nat -> d (2 * (2 * n - m))%nat = - d (2 * m)%nat) -> d (2 * n)%nat = 0 ->
  (forall m, d (2 * m + 1)%nat = 0) ->
  csum (fun k => d (2 * k)%nat * sin (2 * PI * INR i * INR k / INR (2 * n)) + d (2 * k + 1)%nat * cos (2 * PI * INR i * INR k / INR (2 * n))) (2 * n)
  = 2 * sumf (fun m => d (2 * m)%nat * sin (PI * INR i * INR m / INR n)) (seq 0 n).
Proof.
  intros Hn Hodd H0 Him. assert (Hn0 : INR n <> 0) by (apply not_0_INR; lia).
  assert (E2 : forall k, 2 * PI * INR i * INR k / INR (2 * n) = PI * INR i * INR k / INR n).
  { intros k. rewrite mult_INR. replace (INR 2) with 2 by (cbn [INR]; ring). field. assumption. }
  rewrite csum_sumf. rewrite (sumf_ext _ (fun k => d (2 * k)%nat * sin (PI * INR i * INR k / INR n))).
  2:{ intros k _. rewrite Him, E2. ring. }
  set (h := fun k => d (2 * k)%nat * sin (PI * INR i * INR k / INR n)).
  replace (2 * n)%nat with (n + n)%nat by lia. rewrite seq_app, sumf_app. cbn [plus].
  assert (E : sumf h (seq n n) = sumf h (seq 0 n)).
  2:{ rewrite E. ring. }
  rewrite sumf_shift. destruct n as [|n]; [lia|].
  rewrite seq_S0, !sumf_cons, !sumf_map.
  assert (h0 : h 0%nat = 0). { unfold h. replace (PI * INR i * INR 0 / INR (S n)) with 0 by (cbn [INR]; field; exact Hn0). rewrite sin_0. ring. }
  assert (hn : h (S n + 0)%nat = 0). { unfold h. rewrite Nat.add_0_r, H0. ring. }
  rewrite h0, hn. f_equal. rewrite sumf_rev. apply sumf_ext. intros j [_ Hj]%in_seq. cbn [plus] in Hj.
  unfold h. replace (S n + S (n - 1 - j))%nat with (2 * S n - S j)%nat by lia.
  rewrite Hodd by lia. rewrite minus_INR by lia.
  replace (PI * INR i * (INR (2 * S n) - INR (S j)) / INR (S n)) with (2 * PI * INR i - PI * INR i * INR (S j) / INR (S n)).
  2:{ rewrite mult_INR. replace (INR 2) with 2 by (cbn [INR]; ring). field. assumption. }
  rewrite sin_2pi_minus. ring.
Qed.

Lemma cround_IZR z : cround (IZR z) = z.
Proof.
  unfold cround. apply Z.le_antisymm.
  - apply Z.lt_succ_r, Rfloor_lt. rewrite succ_IZR. lra.
  - apply Rfloor_le. lra.
Qed.

(** fftgtof is a discrete sine transform. *)
Lemma fftgtof_eq g dr p : 0 < dr -> (0 <= p)%Z -> g <> [] ->
  let n := padded (p + Z.of_nat (length g)) in
  fftgtof g dr (IZR p * dr) =
  Ok (map (fun i => dr * sumf (fun k => nth k g 0 * sin (PI * INR i * (IZR p + INR k) / IZR n)) (seq 0 (length g))) (seq 0 (Z.to_nat n))).
Proof.
  intros Hd Hp Hg n. unfold fftgtof. destruct g as [|g0 g']; [contradiction|]. set (g := g0 :: g') in *. clear Hg.
  assert (Lg : (1 <= length g)%nat) by (subst g; cbn [length]; lia). clearbody g.
  replace (IZR p * dr / dr) with (IZR p) by (field; lra). rewrite cround_IZR. cbv zeta. fold n.
  assert (Hn1 : (p + Z.of_nat (length g) <= n)%Z) by (apply padded_ge; lia).
  assert (En : Z.of_nat (2 * Z.to_nat n) = (2 * n)%Z) by lia.
  set (d1 := fold_left (fun a k => fset a (2 * (Z.to_nat p + k)) (nth k g 0)) (seq 0 (length g)) (fun _ => 0)).
  destruct (fset_loop1 (Z.to_nat p) g (fun _ => 0)) as [A1 A2]. fold d1 in A1, A2.
  set (nn := Z.to_nat n) in *. assert (Hnn : (1 <= nn)%nat) by lia.
  set (d := fold_left (fun a ilo => fset a (2 * (2 * nn - ilo)) (-1 * a (2 * ilo)%nat)) (seq 1 (nn - 1)) d1).
  destruct (fset_loop2 nn d1 Hnn) as (B1 & B2 & B3). fold d in B1, B2, B3.
  unfold gsl_inverse. rewrite En. unfold n at 1. rewrite padded_is_pow2 by lia. f_equal.
  apply map_ext_in. intros i [_ Hi]%in_seq.
  assert (Ei : Nat.even (2 * i + 1) = false). { rewrite Nat.even_add, Nat.even_mul. reflexivity. }
  rewrite Ei. replace ((2 * i + 1) / 2)%nat with i by (rewrite Nat.mul_comm, Nat.div_add_l by lia; cbn; lia).
  rewrite (odd_transform d nn i Hnn).
  - rewrite mult_INR. replace (INR 2) with 2 by (cbn [INR]; ring).
    assert (Er : IZR n = INR nn) by (unfold nn; rewrite INR_IZR_INZ, Z2Nat.id by lia; reflexivity).
    rewrite Er. assert (Hr0 : INR nn <> 0) by (apply not_0_INR; lia).
    replace (2 * sumf (fun m => d (2 * m)%nat * sin (PI * INR i * INR m / INR nn)) (seq 0 nn) / (2 * INR nn) * INR nn * dr)
      with (dr * sumf (fun m => d (2 * m)%nat * sin (PI * INR i * INR m / INR nn)) (seq 0 nn)) by (field; assumption).
    f_equal.
    assert (Es : seq 0 nn = seq 0 (Z.to_nat p) ++ (seq (Z.to_nat p) (length g) ++ seq (Z.to_nat p + length g) (nn - Z.to_nat p - length g))).
    { rewrite <- seq_app. rewrite <- (seq_app (Z.to_nat p) _ 0). f_equal. lia. }
    rewrite Es, !sumf_app.
    rewrite (sumf_zero _ (seq 0 (Z.to_nat p))), (sumf_zero _ (seq (Z.to_nat p + length g) _)).
    + rewrite (sumf_shift _ (length g)), Rplus_0_l, Rplus_0_r. apply sumf_ext. intros k [_ Hk]%in_seq.
      rewrite B1, A1 by lia. destruct (Nat.leb_spec (Z.to_nat p) (Z.to_nat p + k)); [|lia].
      destruct (Nat.ltb_spec (Z.to_nat p + k) (Z.to_nat p + length g)); [|lia]. cbn [andb].
      replace (Z.to_nat p + k - Z.to_nat p)%nat with k by lia.
      rewrite plus_INR. replace (INR (Z.to_nat p)) with (IZR p) by (rewrite INR_IZR_INZ, Z2Nat.id by lia; reflexivity). reflexivity.
    + intros k [Hk1 Hk2]%in_seq. rewrite B1, A1 by lia. destruct (Nat.ltb_spec k (Z.to_nat p + length g)); [lia|].
      rewrite andb_false_r. ring.
    + intros k [Hk1 Hk2]%in_seq. rewrite B1, A1 by lia. destruct (Nat.leb_spec (Z.to_nat p) k); [lia|]. cbn [andb]. ring.
  - intros m Hm. rewrite B2 by assumption. rewrite B1 by lia. reflexivity.
  - rewrite B1, A1 by lia. destruct (Nat.ltb_spec nn (Z.to_nat p + length g)); [lia|]. rewrite andb_false_r. reflexivity.
  - intros m. rewrite B3, A2. reflexivity.
Qed.

(** ** Orthogonality of the sines *)
Lemma cos_sum_tele th n : 2 * sin (th / 2) * sumf (fun i => cos (INR i * th)) (seq 0 n) = sin ((INR n - / 2) * th) + sin (th / 2).
Proof.
  induction n as [|n IH].
  - cbn [seq]. rewrite sumf_nil. cbn [INR]. replace ((0 - / 2) * th) with (- (th / 2)) by field. rewrite sin_neg. ring.
  - rewrite seq_S, sumf_app, sumf_cons, sumf_nil. cbn [plus]. rewrite Rmult_plus_distr_l, IH, S_INR.
    replace ((INR n + 1 - / 2) * th) with (INR n * th + th / 2) by field.
    replace ((INR n - / 2) * th) with (INR n * th - th / 2) by field. rewrite sin_plus, sin_minus. ring.
Qed.
Lemma cos_sum m n : (0 < m < 2 * n)%nat ->
  sumf (fun i => cos (PI * INR i * INR m / INR n)) (seq 0 n) = (1 - cos (INR m * PI)) / 2.
Proof.
  intros H. assert (Hn : 0 < INR n) by (apply lt_0_INR; lia).
  set (th := PI * INR m / INR n).
  rewrite (sumf_ext _ (fun i => cos (INR i * th))) by (intros i _; f_equal; unfold th; field; lra).
  pose proof (cos_sum_tele th n) as E.
  assert (Hm0 : 0 < INR m) by (apply lt_0_INR; lia).
  assert (Hm1 : INR m < 2 * INR n) by (replace 2 with (INR 2) by (cbn [INR]; ring); rewrite <- mult_INR; apply lt_INR; lia).
  assert (Hs : 0 < sin (th / 2)).
  { pose proof PI_RGT_0. apply sin_gt_0.
    - unfold th. apply Rmult_lt_0_compat; [|lra]. apply Rdiv_lt_0_compat; [apply Rmult_lt_0_compat|]; lra.
    - unfold th. replace PI with (PI * (2 * INR n) / INR n / 2) at 2 by (field; lra).
      unfold Rdiv. apply Rmult_lt_compat_r; [lra|]. apply Rmult_lt_compat_r; [now apply Rinv_0_lt_compat|].
      apply Rmult_lt_compat_l; lra. }
  replace ((INR n - / 2) * th) with (INR m * PI - th / 2) in E by (unfold th; field; lra).
  rewrite sin_minus in E.
  assert (S0 : sin (INR m * PI) = 0). { apply sin_eq_0_1. exists (Z.of_nat m). now rewrite INR_IZR_INZ. }
  rewrite S0 in E. apply Rmult_eq_reg_l with (2 * sin (th / 2)); [|lra]. rewrite E. field.
Qed.
Lemma sine_orthogonal k l n : (0 < k < n)%nat -> (0 < l < n)%nat ->
  sumf (fun i => sin (PI * INR i * INR k / INR n) * sin (PI * INR i * INR l / INR n)) (seq 0 n) =
  if (k =? l)%nat then INR n / 2 else 0.
Proof.
  intros Hk Hl. assert (Hn : 0 < INR n) by (apply lt_0_INR; lia).
  assert (G : forall k l, (0 < k < n)%nat -> (0 < l < n)%nat -> (k < l)%nat ->
    sumf (fun i => sin (PI * INR i * INR k / INR n) * sin (PI * INR i * INR l / INR n)) (seq 0 n) = 0).
  { clear k l Hk Hl. intros k l Hk Hl Hkl.
    rewrite (sumf_ext _ (fun i => / 2 * (cos (PI * INR i * INR (l - k) / INR n) - cos (PI * INR i * INR (k + l) / INR n)))).
    2:{ intros i _. rewrite minus_INR, plus_INR by lia.
        replace (PI * INR i * (INR l - INR k) / INR n) with (PI * INR i * INR l / INR n - PI * INR i * INR k / INR n) by (field; lra).
        replace (PI * INR i * (INR k + INR l) / INR n) with (PI * INR i * INR l / INR n + PI * INR i * INR k / INR n) by (field; lra).
        rewrite cos_minus, cos_plus. field. }
    rewrite sumf_scale, sumf_minus, !cos_sum by lia.
    replace (INR (k + l) * PI) with (INR (l - k) * PI + 2 * INR k * PI) by (rewrite plus_INR, minus_INR by lia; ring).
    rewrite cos_period. field. }
  destruct (Nat.eqb_spec k l) as [<-|Hne].
  - rewrite (sumf_ext _ (fun i => / 2 * (1 - cos (PI * INR i * INR (k + k) / INR n)))).
    2:{ intros i _. rewrite plus_INR. replace (PI * INR i * (INR k + INR k) / INR n) with (2 * (PI * INR i * INR k / INR n)) by (field; lra).
        rewrite cos_2a_sin. field. }
    rewrite sumf_scale, sumf_minus, sumf_const, seq_length, cos_sum by lia.
    replace (INR (k + k) * PI) with (0 + 2 * INR k * PI) by (rewrite plus_INR; ring). rewrite cos_period, cos_0. field.
  - destruct (Nat.lt_ge_cases k l); [now apply G|].
    rewrite (sumf_ext _ (fun i => sin (PI * INR i * INR l / INR n) * sin (PI * INR i * INR k / INR n))) by (intros; ring).
    apply G; lia.
Qed.

(** ** The transforms are inverse *)
Definition dst (dr : R) (f : nat -> R) (n : nat) (i : nat) : R := dr * sumf (fun k => f k * sin (PI * INR i * INR k / INR n)) (seq 0 n).
Lemma dst_dst dr dq f n m : (0 < m < n)%nat -> dst dq (dst dr f n) n m = dr * dq * (INR n / 2) * f m.
Proof.
  intros Hm. assert (Hn : 0 < INR n) by (apply lt_0_INR; lia). unfold dst.
  rewrite (sumf_ext _ (fun i => dr * sumf (fun k => f k * (sin (PI * INR i * INR k / INR n) * sin (PI * INR i * INR m / INR n))) (seq 0 n))).
  2:{ intros i _. rewrite Rmult_assoc. f_equal. rewrite Rmult_comm, <- sumf_scale. apply sumf_ext. intros k _.
      replace (PI * INR m * INR i / INR n) with (PI * INR i * INR m / INR n) by (field; lra). ring. }
  rewrite sumf_scale, sumf_swap.
  rewrite (sumf_ext _ (fun k => if (m =? k)%nat then INR n / 2 * f k else 0)).
  2:{ intros k [_ Hk]%in_seq. rewrite sumf_scale. destruct k as [|k].
      - destruct (Nat.eqb_spec m 0); [lia|].
        rewrite (sumf_zero (fun _ => _)); [ring|]. intros i _. replace (PI * INR i * INR 0 / INR n) with 0 by (cbn [INR]; field; lra).
        rewrite sin_0. ring.
      - rewrite sine_orthogonal by lia. destruct (Nat.eqb_spec (S k) m); destruct (Nat.eqb_spec m (S k)); try lia; ring. }
  rewrite sumf_pick by lia. ring.
Qed.
