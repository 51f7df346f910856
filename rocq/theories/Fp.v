(** Double arithmetic (IEEE 754 binary64, rounding to nearest even) by Flocq: a double is a real number of the format, every
    operation of the code rounds its exact result. Overflow and NaN are left out. *)
From Coq Require Import Reals ZArith Lia Lra.
From Flocq Require Import Core Relative.
From Verif Require Import RBase.
Open Scope R_scope.

(** the format of doubles: 53 bits, exponents down to -1074; the machine's format, no line of the code *)
Definition fexp : Z -> Z := FLT_exp (-1074) 53.
Definition dbl (x : R) : Prop := generic_format radix2 fexp x.
(** what a machine operation with the exact result [x] returns *)
Definition rnd (x : R) : R := round radix2 fexp ZnearestE x.
#[global] Instance prec53 : Prec_gt_0 53. Proof. reflexivity. Qed.
#[global] Instance valid_fexp : Valid_exp fexp. Proof. apply FLT_exp_valid. reflexivity. Qed.

Lemma rnd_dbl x : dbl (rnd x). Proof. apply generic_format_round; typeclasses eauto. Qed.
Lemma rnd_id x : dbl x -> rnd x = x. Proof. apply round_generic. typeclasses eauto. Qed.
Lemma rnd_le x y : x <= y -> rnd x <= rnd y. Proof. apply round_le; typeclasses eauto. Qed.
Lemma rnd_opp x : rnd (- x) = - rnd x. Proof. apply round_NE_opp. Qed.
Lemma dbl_opp x : dbl x -> dbl (- x). Proof. apply generic_format_opp. Qed.
Lemma rnd_le_dbl x y : x <= y -> dbl y -> rnd x <= y. Proof. intros H D. rewrite <- (rnd_id y D). now apply rnd_le. Qed.
Lemma rnd_ge_dbl x y : x <= y -> dbl x -> x <= rnd y. Proof. intros H D. rewrite <- (rnd_id x D). now apply rnd_le. Qed.
Lemma dbl_bpow e : (-1074 <= e)%Z -> dbl (bpow radix2 e).
Proof. intros H. apply generic_format_bpow. unfold fexp, FLT_exp. lia. Qed.
Lemma dbl_form m e : (Z.abs m < 2 ^ 53)%Z -> (-1074 <= e)%Z -> dbl (IZR m * bpow radix2 e).
Proof. intros Hm He. apply generic_format_FLT. exists (Float radix2 m e); [reflexivity|exact Hm|exact He]. Qed.
Lemma dbl_0 : dbl 0. Proof. apply generic_format_0. Qed.
Lemma rnd_0 : rnd 0 = 0. Proof. apply rnd_id, dbl_0. Qed.
Lemma dbl_Z n : (Z.abs n <= 2 ^ 53)%Z -> dbl (IZR n).
Proof.
  intros H. destruct (Z.eq_dec (Z.abs n) (2 ^ 53)) as [E|N].
  - assert (B : IZR (2 ^ 53) = bpow radix2 53) by reflexivity. destruct (Z.abs_spec n) as [[_ Ea]|[_ Ea]].
    + replace n with (2 ^ 53)%Z by lia. rewrite B. apply dbl_bpow. lia.
    + replace n with (- 2 ^ 53)%Z by lia. rewrite opp_IZR, B. apply dbl_opp, dbl_bpow. lia.
  - replace (IZR n) with (IZR n * bpow radix2 0) by (cbn; ring). apply dbl_form; lia.
Qed.
(** the error of an operation *)
Definition u : R := / 9007199254740992.
Lemma rnd_rel x : bpow radix2 (-1022) <= Rabs x -> Rabs (rnd x - x) <= u * Rabs x.
Proof.
  intros H. replace u with (/ 2 * bpow radix2 (- (53) + 1)) by (unfold u; cbn; lra). apply relative_error_N_FLT; [reflexivity|exact H].
Qed.
Lemma rnd_err x : Rabs (rnd x - x) <= u * Rabs x + bpow radix2 (-1074).
Proof.
  destruct (Rle_lt_dec (bpow radix2 (-1022)) (Rabs x)) as [H|H]; [pose proof (rnd_rel x H); pose proof (bpow_ge_0 radix2 (-1074)); lra|].
  assert (E : Rabs (rnd x - x) <= / 2 * ulp radix2 fexp x) by (apply error_le_half_ulp; typeclasses eauto).
  assert (U : ulp radix2 fexp x <= bpow radix2 (-1074)).
  { unfold fexp. rewrite ulp_FLT_small; [lra|reflexivity|]. eapply Rlt_trans; [exact H|]. apply bpow_lt. lia. }
  pose proof (Rabs_pos x). assert (0 <= u * Rabs x) by (apply Rmult_le_pos; [unfold u; lra|lra]). pose proof (bpow_ge_0 radix2 (-1074)). lra.
Qed.
Lemma rnd_nonneg x : 0 <= x -> 0 <= rnd x. Proof. intros H. apply rnd_ge_dbl; [exact H|apply dbl_0]. Qed.
(** a concrete result: [m * 2^e] with a full mantissa, the exact result within half a unit *)
Lemma rnd_at x m e : (-1074 <= e)%Z -> (2 ^ 52 < m < 2 ^ 53)%Z -> Rabs (x * bpow radix2 (- e) - IZR m) < / 2 -> rnd x = IZR m * bpow radix2 e.
Proof.
  intros He Hm Hx. assert (Hb := bpow_gt_0 radix2 e). assert (HI : bpow radix2 (- e) = / bpow radix2 e) by apply bpow_opp.
  assert (B1 : IZR (2 ^ 52) + 1 <= IZR m) by (rewrite <- plus_IZR; apply IZR_le; lia). assert (B2 : IZR m <= IZR (2 ^ 53) - 1) by (rewrite <- minus_IZR; apply IZR_le; lia).
  apply Rabs_def2 in Hx. set (s := x * bpow radix2 (- e)) in *. assert (Es : x = s * bpow radix2 e) by (unfold s; rewrite HI; field; lra).
  assert (M : mag radix2 x = (e + 53)%Z :> Z).
  { apply mag_unique. rewrite Rabs_pos_eq by (rewrite Es; apply Rmult_le_pos; lra). replace (e + 53 - 1)%Z with (52 + e)%Z by ring. replace (e + 53)%Z with (53 + e)%Z by ring. rewrite !bpow_plus, Es.
    change (bpow radix2 52) with (IZR (2 ^ 52)). change (bpow radix2 53) with (IZR (2 ^ 53)). split; [apply Rmult_le_compat_r; lra|apply Rmult_lt_compat_r; lra]. }
  assert (C : cexp radix2 fexp x = e) by (unfold cexp; rewrite M; unfold fexp, FLT_exp; lia).
  unfold rnd, round, scaled_mantissa, F2R. rewrite C. cbn [Fnum Fexp]. fold s. do 2 f_equal. apply Znearest_imp. apply Rabs_def1; lra.
Qed.
