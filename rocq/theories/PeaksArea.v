(** The Gaussian integral: 0 <= 1 - erf(x)^2 <= exp(-x^2) for x >= 0.  Coquelicot's integrals with a parameter are used. *)
From Coq Require Import Reals Lra Psatz.
From Coquelicot Require Import Coquelicot.
From Verif Require Import RBase Peaks PeaksProofs.
Open Scope R_scope.

Definition phi (x t : R) : R := exp (- (x * x) * (1 + t * t)) / (1 + t * t).
Definition dphi (x t : R) : R := - (2 * x) * exp (- (x * x) * (1 + t * t)).
Definition E0 (x : R) : R := sqrt PI / 2 * erf x.

Lemma one_sq t : 0 < 1 + t * t. Proof. nra. Qed.
Lemma phi_deriv x t : is_derive (fun u => phi u t) x (dphi x t).
Proof. unfold phi, dphi. pose proof (one_sq t). auto_derive; [lra|field; lra]. Qed.
Lemma E0_deriv x : is_derive E0 x (exp (- (x * x))).
Proof.
  apply is_derive_Reals. unfold E0. replace (exp (- (x * x))) with (sqrt PI / 2 * erf_integrand x).
  - apply derivable_pt_lim_scal. apply erf_deriv.
  - unfold erf_integrand. pose proof sqrtPI_pos. field. lra.
Qed.
Definition g (x : R) : R := RInt (fun t => phi x t) 0 1.
Lemma phi_int x a b : ex_RInt (fun t => phi x t) a b.
Proof.
  apply (ex_RInt_continuous (V := R_CompleteNormedModule)). intros t _. apply (ex_derive_continuous (fun t => phi x t)).
  unfold phi. pose proof (one_sq t). auto_derive. lra.
Qed.
Lemma dphi_2d x t : continuity_2d_pt dphi x t.
Proof.
  unfold dphi. apply continuity_2d_pt_mult.
  - apply continuity_2d_pt_opp. apply continuity_2d_pt_mult; [apply continuity_2d_pt_const|apply continuity_2d_pt_id1].
  - apply (continuity_1d_2d_pt_comp exp).
    + apply derivable_continuous_pt, derivable_pt_exp.
    + apply continuity_2d_pt_mult; [apply continuity_2d_pt_opp|]; [|apply continuity_2d_pt_plus; [apply continuity_2d_pt_const|]];
      apply continuity_2d_pt_mult; (apply continuity_2d_pt_id1 || apply continuity_2d_pt_id2).
Qed.
Lemma g_deriv x : is_derive g x (- (2 * exp (- (x * x)) * E0 x)).
Proof.
  unfold g. replace (- (2 * exp (- (x * x)) * E0 x)) with (RInt (fun t => Derive (fun u => phi u t) x) 0 1).
  - apply (is_derive_RInt_param phi).
    + apply filter_forall. intros y t _. eexists. apply phi_deriv.
    + intros t _. apply continuity_2d_pt_ext with (f := dphi); [|apply dphi_2d].
      intros u v. symmetry. apply is_derive_unique. apply phi_deriv.
    + apply filter_forall. intros y. apply phi_int.
  - rewrite (RInt_ext _ (fun t => - (2 * exp (- (x * x))) * (x * exp (- (x * t * (x * t)))))).
    2:{ intros t _. transitivity (dphi x t); [apply is_derive_unique, phi_deriv|]. unfold dphi.
        replace (- (x * x) * (1 + t * t)) with (- (x * x) + - (x * t * (x * t))) by ring. rewrite exp_plus. simpl. ring. }
    apply is_RInt_unique.
    replace (- (2 * exp (- (x * x)) * E0 x)) with (minus (- (2 * exp (- (x * x))) * E0 (x * 1)) (- (2 * exp (- (x * x))) * E0 (x * 0))).
    2:{ rewrite Rmult_1_r, Rmult_0_r. unfold E0. rewrite erf_0. unfold minus, plus, opp. cbn. ring. }
    apply (is_RInt_derive (fun t => - (2 * exp (- (x * x))) * E0 (x * t))).
    + intros t _. apply is_derive_scal. 
      apply (is_derive_comp E0 (fun t => x * t)); [apply E0_deriv|].
      auto_derive; auto. ring.
    + intros t _. apply (ex_derive_continuous (fun t => - (2 * exp (- (x * x))) * (x * exp (- (x * t * (x * t)))))). auto_derive. auto.
Qed.
Lemma g_0 : g 0 = PI / 4.
Proof.
  unfold g. rewrite (RInt_ext _ (fun t => / (1 + t * t))).
  2:{ intros t _. unfold phi. replace (- (0 * 0) * (1 + t * t)) with 0 by ring. rewrite exp_0. apply Rmult_1_l. }
  apply is_RInt_unique. replace (PI / 4) with (minus (atan 1) (atan 0)).
  2:{ rewrite atan_1, atan_0. unfold minus, plus, opp. cbn. ring. }
  apply (is_RInt_derive atan).
  - intros t _. replace (/ (1 + t * t)) with (/ (1 + Rsqr t)) by auto. apply is_derive_atan.
  - intros t _. apply (ex_derive_continuous (fun t => / (1 + t * t))). pose proof (one_sq t). auto_derive. lra.
Qed.
Lemma E0_0 : E0 0 = 0. Proof. unfold E0. rewrite erf_0. ring. Qed.
Lemma total x : E0 x * E0 x + g x = PI / 4.
Proof.
  set (T := fun x => E0 x * E0 x + g x).
  assert (HT : forall x, derivable_pt_lim T x 0).
  { intros y. apply is_derive_Reals. unfold T. 
    replace 0 with (plus (plus (mult (exp (- (y * y))) (E0 y)) (mult (E0 y) (exp (- (y * y))))) (- (2 * exp (- (y * y)) * E0 y))).
    2:{ unfold plus, mult. cbn. ring. }
    apply (is_derive_plus (fun x => E0 x * E0 x) g); [|apply g_deriv].
    apply (is_derive_mult E0 E0); try apply E0_deriv. intros; apply Rmult_comm. }
  assert (He : forall a b, a < b -> T a = T b).
  { intros a b H. destruct (MVT_cor2 T (fun _ => 0) a b H) as (c & Hc & _); [auto|]. lra. }
  assert (Hx : T x = T 0). { destruct (Rtotal_order x 0) as [H|[->|H]]; auto. symmetry; auto. }
  unfold T in Hx. rewrite E0_0, g_0 in Hx. lra.
Qed.
Lemma g_bounds x : 0 <= g x <= exp (- (x * x)) * (PI / 4).
Proof.
  split.
  - unfold g. apply RInt_ge_0; [lra|apply phi_int|]. intros t _. unfold phi. left. apply Rdiv_lt_0_compat; [apply exp_pos|apply one_sq].
  - rewrite <- g_0. unfold g. replace (exp (- (x * x)) * RInt (fun t => phi 0 t) 0 1) with (RInt (fun t => scal (exp (- (x * x))) (phi 0 t)) 0 1).
    2:{ apply (RInt_scal (fun t => phi 0 t)). apply phi_int. }
    apply RInt_le; [lra|apply phi_int|apply (ex_RInt_scal (fun t => phi 0 t)), phi_int|].
    intros t _. unfold scal. cbn. unfold mult. cbn. unfold phi. replace (- (0 * 0) * (1 + t * t)) with 0 by ring. rewrite exp_0.
    unfold Rdiv. rewrite Rmult_1_l. apply Rmult_le_compat_r; [left; apply Rinv_0_lt_compat, one_sq|]. apply exp_le. nra.
Qed.
Lemma g_strict x : 0 < g x.
Proof.
  unfold g. apply RInt_gt_0; [lra| |]; intros t _.
  - unfold phi. apply Rdiv_lt_0_compat; [apply exp_pos|apply one_sq].
  - apply (ex_derive_continuous (fun t => phi x t)). unfold phi. pose proof (one_sq t). auto_derive. lra.
Qed.
Lemma erf_sq x : 0 < 1 - erf x * erf x <= exp (- (x * x)).
Proof.
  pose proof (total x) as T. pose proof (g_bounds x) as G. pose proof (g_strict x) as S. pose proof PI_RGT_0 as P.
  assert (HE : E0 x * E0 x = PI / 4 * (erf x * erf x)). { unfold E0. replace (sqrt PI / 2 * erf x * (sqrt PI / 2 * erf x)) with (sqrt PI * sqrt PI / 4 * (erf x * erf x)) by field. rewrite sqrt_sqrt by lra. auto. }
  rewrite HE in T. split; nra.
Qed.
Lemma erf_bounds x : 0 <= x -> 1 - exp (- (x * x)) <= erf x < 1.
Proof.
  intros H. pose proof (erf_sq x). assert (0 <= erf x). { destruct H as [H| <-]; [left; now apply erf_pos|rewrite erf_0; lra]. } nra.
Qed.
