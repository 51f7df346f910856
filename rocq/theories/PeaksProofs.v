From Coq Require Import Reals Lra Psatz.
From Verif Require Import Base RBase Peaks PeaksSpec.
Open Scope R_scope.

Lemma eps_pow : DOUBLE_EPS = / 2 ^ 52.
Proof. unfold DOUBLE_EPS. f_equal. lra. Qed.
Lemma eps_pos : 0 < DOUBLE_EPS. Proof. unfold DOUBLE_EPS. lra. Qed.
Lemma eps_lt1 : DOUBLE_EPS < 1. Proof. unfold DOUBLE_EPS. lra. Qed.
Lemma ln2_pos : 0 < ln 2. Proof. rewrite <- ln_1. apply ln_increasing; lra. Qed.
Lemma sqrtPI_pos : 0 < sqrt PI. Proof. apply sqrt_lt_R0, PI_RGT_0. Qed.

(** the error function *)
Lemma erf_cont_on a b : forall x, a <= x <= b -> continuity_pt erf_integrand x.
Proof. intros; apply erf_integrand_cont. Qed.
Lemma erf_split a x : erf x = RiemannInt (erf_integrable 0 a) + RiemannInt (erf_integrable a x).
Proof. unfold erf. symmetry. apply RiemannInt_P26. Qed.
Lemma derivable_pt_lim_ext f g x l d : 0 < d -> (forall y, Rabs (y - x) < d -> f y = g y) -> derivable_pt_lim f x l -> derivable_pt_lim g x l.
Proof.
  intros Hd He Hf e Hpos. destruct (Hf e Hpos) as [del Hdel].
  assert (Hm : 0 < Rmin d del) by (apply Rmin_pos; [auto|apply cond_pos]).
  exists (mkposreal _ Hm). cbn. intros h Hh Hlt.
  rewrite <- !He; [apply Hdel; auto; eapply Rlt_le_trans; [apply Hlt|apply Rmin_r]| |].
  - rewrite Rminus_diag_eq by auto. rewrite Rabs_R0; auto.
  - replace (x + h - x) with h by ring. eapply Rlt_le_trans; [apply Hlt|apply Rmin_l].
Qed.
Lemma erf_deriv x : derivable_pt_lim erf x (erf_integrand x).
Proof.
  assert (h : x - 1 <= x + 1) by lra.
  pose proof (@RiemannInt_P28 erf_integrand (x-1) (x+1) x h (erf_cont_on (x-1) (x+1)) ltac:(lra)) as HP.
  set (P := primitive h (FTC_P1 h (erf_cont_on (x - 1) (x + 1)))) in *.
  apply derivable_pt_lim_ext with (f := fun y => RiemannInt (erf_integrable 0 (x-1)) + P y) (d := 1); [lra| |].
  - intros y Hy. apply Rabs_def2 in Hy. rewrite (erf_split (x-1) y). f_equal. unfold P, primitive.
    destruct (Rle_dec (x - 1) y); [|lra]. destruct (Rle_dec y (x + 1)); [|lra]. apply RiemannInt_P5.
  - replace (erf_integrand x) with (0 + erf_integrand x) by ring.
    apply (derivable_pt_lim_plus (fun _ => _) P); [apply derivable_pt_lim_const|auto].
Qed.
Lemma erf_0 : erf 0 = 0.
Proof. unfold erf. apply RiemannInt_P9. Qed.
Lemma erf_integrand_pos x : 0 < erf_integrand x.
Proof. unfold erf_integrand. apply Rmult_lt_0_compat; [|apply exp_pos]. apply Rdiv_lt_0_compat; [lra|apply sqrtPI_pos]. Qed.
Lemma erf_lt x y : x < y -> erf x < erf y.
Proof.
  intros H. destruct (MVT_cor2 erf erf_integrand x y H) as (c & Hc & _); [intros; apply erf_deriv|].
  pose proof (erf_integrand_pos c). nra.
Qed.
Lemma erf_odd x : erf (- x) = - erf x.
Proof.
  set (g := fun t => erf (- t) + erf t).
  assert (Hg : forall t, derivable_pt_lim g t 0).
  { intros t. replace 0 with (erf_integrand (- t) * (- 1) + erf_integrand t) by (unfold erf_integrand; replace (- t * - t) with (t * t) by ring; ring).
    apply (derivable_pt_lim_plus (fun t => erf (- t)) erf); [|apply erf_deriv].
    apply (derivable_pt_lim_comp (fun t => - t) erf).
    - replace (-1) with (- (1)) by ring. apply (derivable_pt_lim_opp (fun t => t)). apply derivable_pt_lim_id.
    - apply erf_deriv. }
  assert (He : forall a b, a < b -> g a = g b).
  { intros a b H. destruct (MVT_cor2 g (fun _ => 0) a b H) as (c & Hc & _); [auto|]. lra. }
  assert (Hx : g x = g 0). { destruct (Rtotal_order x 0) as [H|[->|H]]; auto. symmetry; auto. }
  unfold g in Hx. rewrite Ropp_0, erf_0 in Hx. lra.
Qed.
Lemma erf_pos x : 0 < x -> 0 < erf x.
Proof. intros. rewrite <- erf_0. now apply erf_lt. Qed.

(** histories *)
Lemma last_snoc {A} (l : list A) a d : last (l ++ [a]) d = a.
Proof. induction l as [|b l IH]; auto. cbn. rewrite IH. destruct l; auto. Qed.
Definition half_of (e : R) := if Rltb e 1 then sqrt (- ln e / (4 * ln 2)) else 0.
Lemma gauss_hist_spec es : gprec (gauss_hist es) = precision_after es /\ ghalf (gauss_hist es) = half_of (precision_after es).
Proof.
  unfold gauss_hist, precision_after. rewrite <- eps_pow. induction es as [|e es _] using rev_ind.
  - cbn [fold_left last]. unfold gauss_new, gauss_setPrecision. cbn. pose proof eps_pos.
    rewrite (Rmax_right 0) by lra. rewrite (Rmax_left DOUBLE_EPS DOUBLE_EPS) by lra. auto.
  - rewrite fold_left_app, last_snoc. cbn. auto.
Qed.
Lemma precision_ge es : DOUBLE_EPS <= precision_after es.
Proof. unfold precision_after. rewrite <- eps_pow. apply Rmax_r. Qed.
Definition scale_of (e : R) := if Rltb e 1 then 1 / erf (sqrt (- ln e)) else 1.
Lemma cropped_hist_spec es : let p := cropped_hist es in
  gprec (cbase p) = precision_after es /\ ghalf (cbase p) = half_of (precision_after es) /\ cscale p = scale_of (precision_after es).
Proof.
  cbv zeta. unfold cropped_hist, precision_after. rewrite <- eps_pow. induction es as [|e es _] using rev_ind.
  - cbn [fold_left last]. unfold cropped_new, cropped_setPrecision, gauss_new, gauss_setPrecision. cbn. pose proof eps_pos.
    rewrite (Rmax_right 0) by lra. rewrite !(Rmax_left DOUBLE_EPS DOUBLE_EPS) by lra. auto.
  - rewrite fold_left_app, last_snoc. cbn. auto.
Qed.

(** shape *)
Definition shape (x w : R) : R := 2 * sqrt (ln 2 / PI) / w * exp (-4 * ln 2 * (x / w) * (x / w)).
Lemma gauss_pos p x w : 0 < w -> gauss_at p x w = shape x w.
Proof. intros H. unfold gauss_at. destruct (Rleb w 0) eqn:E; [apply Rleb_true in E; lra|reflexivity]. Qed.
Lemma gauss_nonpos p x w : w <= 0 -> gauss_at p x w = 0.
Proof. intros H. unfold gauss_at. destruct (Rleb w 0) eqn:E; auto. apply Rleb_false in E; lra. Qed.
Lemma pre_pos w : 0 < w -> 0 < 2 * sqrt (ln 2 / PI) / w.
Proof.
  intros. apply Rdiv_lt_0_compat; auto. apply Rmult_lt_0_compat; [lra|]. apply sqrt_lt_R0.
  apply Rdiv_lt_0_compat; [apply ln2_pos|apply PI_RGT_0].
Qed.
Lemma shape_pos x w : 0 < w -> 0 < shape x w.
Proof. intros. unfold shape. apply Rmult_lt_0_compat; [now apply pre_pos|apply exp_pos]. Qed.
Lemma shape_sym x w : shape (- x) w = shape x w.
Proof. unfold shape. do 2 f_equal. unfold Rdiv. ring. Qed.
Lemma shape_0 w : shape 0 w = 2 * sqrt (ln 2 / PI) / w.
Proof. unfold shape. replace (-4 * ln 2 * (0 / w) * (0 / w)) with 0 by (unfold Rdiv; ring). rewrite exp_0. ring. Qed.
Lemma shape_rel x w : shape x w = shape 0 w * exp (-4 * ln 2 * (x / w) * (x / w)).
Proof. rewrite shape_0. reflexivity. Qed.
Lemma exp_le a b : a <= b -> exp a <= exp b.
Proof. intros [H| ->]; [left; now apply exp_increasing|lra]. Qed.
Lemma shape_max x w : 0 < w -> shape x w <= shape 0 w.
Proof.
  intros H. rewrite shape_rel. pose proof (shape_pos 0 w H). pose proof ln2_pos. set (u := x / w).
  assert (exp (-4 * ln 2 * u * u) <= 1). { rewrite <- exp_0. apply exp_le. nra. } nra.
Qed.
Lemma shape_normal x w : 0 < w -> shape x w = normal_density (sigma_of w) x.
Proof.
  intros H. unfold shape, normal_density, sigma_of. pose proof ln2_pos as L. pose proof PI_RGT_0 as P.
  assert (S2 : sqrt (2 * ln 2) * sqrt (2 * ln 2) = 2 * ln 2) by (apply sqrt_sqrt; lra).
  assert (Hs : 0 < sqrt (2 * ln 2)) by (apply sqrt_lt_R0; lra). f_equal.
  - rewrite (sqrt_mult 2 PI), (sqrt_mult 2 (ln 2)) by lra. rewrite sqrt_div by lra.
    assert (0 < sqrt 2) by (apply sqrt_lt_R0; lra). assert (0 < sqrt (ln 2)) by (apply sqrt_lt_R0; lra).
    pose proof sqrtPI_pos. field. repeat split; lra.
  - f_equal. replace (w / (2 * sqrt (2 * ln 2)) * (w / (2 * sqrt (2 * ln 2)))) with (w * w / (4 * (sqrt (2 * ln 2) * sqrt (2 * ln 2)))) by (field; lra).
    rewrite S2. field. lra.
Qed.
Lemma shape_half w : 0 < w -> shape (w / 2) w = shape 0 w / 2.
Proof.
  intros H. rewrite shape_rel. replace (-4 * ln 2 * (w / 2 / w) * (w / 2 / w)) with (- ln 2) by (field; lra).
  rewrite exp_Ropp, exp_ln by lra. field.
Qed.

(** bounds *)
Lemma half_nonneg e : 0 <= half_of e.
Proof. unfold half_of. destruct (Rltb e 1); [apply sqrt_pos|lra]. Qed.
Lemma neg_ln_pos e : 0 < e < 1 -> 0 < - ln e.
Proof. intros. pose proof (ln_increasing e 1). rewrite ln_1 in H0. lra. Qed.
Lemma half_sq e : 0 < e < 1 -> 4 * ln 2 * (half_of e * half_of e) = - ln e.
Proof.
  intros H. unfold half_of. destruct (Rltb e 1) eqn:E; [|apply Rltb_false in E; lra].
  pose proof ln2_pos. rewrite sqrt_sqrt; [field; lra|]. apply Rlt_le, Rdiv_lt_0_compat; [now apply neg_ln_pos|lra].
Qed.
Lemma half_pos e : 0 < e < 1 -> 0 < half_of e.
Proof. intros H. pose proof (half_sq e H). pose proof (neg_ln_pos e H). pose proof (half_nonneg e). pose proof ln2_pos. destruct (Req_dec (half_of e) 0) as [Z|]; [rewrite Z in *; nra|lra]. Qed.
Lemma shape_outside e x w : 0 < w -> 0 < e -> half_of e * w < Rabs x -> shape x w < e * shape 0 w.
Proof.
  intros Hw He Hx. rewrite shape_rel. pose proof (shape_pos 0 w Hw) as P. rewrite (Rmult_comm e).
  apply Rmult_lt_compat_l; auto.
  assert (Hu : half_of e < Rabs (x / w)). { unfold Rdiv. rewrite Rabs_mult, (Rabs_right (/ w)) by (left; now apply Rinv_0_lt_compat).
    apply (Rmult_lt_reg_r w); auto. rewrite Rmult_assoc, Rinv_l by lra. lra. }
  set (u := x / w) in *. assert (Hq : half_of e * half_of e < u * u).
  { pose proof (half_nonneg e). assert (u * u = Rabs u * Rabs u) by (rewrite <- Rabs_mult, Rabs_right; [auto|nra]). nra. }
  pose proof ln2_pos. destruct (Rlt_dec e 1) as [H1|H1].
  - rewrite <- (exp_ln e) at 1 by auto. apply exp_increasing. pose proof (half_sq e ltac:(lra)). nra.
  - apply Rlt_le_trans with 1; [|lra]. rewrite <- exp_0. apply exp_increasing. pose proof (half_nonneg e). nra.
Qed.
Lemma shape_inside e x w : 0 < w -> 0 < e < 1 -> Rabs x <= half_of e * w -> e * shape 0 w <= shape x w.
Proof.
  intros Hw He Hx. rewrite (shape_rel x). pose proof (shape_pos 0 w Hw) as P. rewrite (Rmult_comm e).
  apply Rmult_le_compat_l; [lra|].
  assert (Hu : Rabs (x / w) <= half_of e). { unfold Rdiv. rewrite Rabs_mult, (Rabs_right (/ w)) by (left; now apply Rinv_0_lt_compat).
    apply (Rmult_le_reg_r w); auto. rewrite Rmult_assoc, Rinv_l by lra. lra. }
  set (u := x / w) in *. assert (Hq : u * u <= half_of e * half_of e).
  { pose proof (half_nonneg e). pose proof (Rabs_pos u). assert (u * u = Rabs u * Rabs u) by (rewrite <- Rabs_mult, Rabs_right; [auto|nra]). nra. }
  pose proof ln2_pos. rewrite <- (exp_ln e) at 1 by lra. apply exp_le. pose proof (half_sq e He). nra.
Qed.

(** area *)
Definition prim (w x : R) : R := / 2 * erf (2 * sqrt (ln 2) / w * x).
Lemma prim_deriv w x : 0 < w -> derivable_pt_lim (prim w) x (shape x w).
Proof.
  intros H. unfold prim. pose proof ln2_pos. pose proof PI_RGT_0.
  replace (shape x w) with (/ 2 * (erf_integrand (2 * sqrt (ln 2) / w * x) * (2 * sqrt (ln 2) / w * 1))).
  - apply derivable_pt_lim_scal with (f := fun x => erf (2 * sqrt (ln 2) / w * x)).
    apply (derivable_pt_lim_comp (fun x => 2 * sqrt (ln 2) / w * x) erf); [|apply erf_deriv].
    apply derivable_pt_lim_scal with (f := fun x => x). apply derivable_pt_lim_id.
  - unfold erf_integrand, shape. rewrite sqrt_div by lra.
    replace (- (2 * sqrt (ln 2) / w * x * (2 * sqrt (ln 2) / w * x))) with (-4 * (sqrt (ln 2) * sqrt (ln 2)) * (x / w) * (x / w)) by (field; lra).
    rewrite sqrt_sqrt by lra. pose proof sqrtPI_pos. field. lra.
Qed.
Lemma prim_cont w x : 0 < w -> continuity_pt (prim w) x.
Proof. intros H. apply derivable_continuous_pt. exists (shape x w). now apply prim_deriv. Qed.
Lemma prim_odd w x : prim w (- x) = - prim w x.
Proof. unfold prim. replace (2 * sqrt (ln 2) / w * - x) with (- (2 * sqrt (ln 2) / w * x)) by ring. rewrite erf_odd. ring. Qed.
Lemma prim_hi w e : 0 < w -> 0 < e < 1 -> prim w (half_of e * w) = / 2 * erf (sqrt (- ln e)).
Proof.
  intros H He. unfold prim. do 2 f_equal. pose proof ln2_pos. pose proof (half_nonneg e).
  replace (2 * sqrt (ln 2) / w * (half_of e * w)) with (2 * sqrt (ln 2) * half_of e) by (field; lra).
  symmetry. apply Rsqr_inj; [apply sqrt_pos| |].
  - repeat apply Rmult_le_pos; try lra. apply sqrt_pos.
  - unfold Rsqr. rewrite sqrt_sqrt by (pose proof (neg_ln_pos e He); lra). rewrite <- (half_sq e He).
    replace (2 * sqrt (ln 2) * half_of e * (2 * sqrt (ln 2) * half_of e)) with (4 * (sqrt (ln 2) * sqrt (ln 2)) * (half_of e * half_of e)) by ring.
    rewrite sqrt_sqrt by lra. ring.
Qed.

(** the area is determined *)
Lemma has_area_unique f a b A B : a < b -> has_area f a b A -> has_area f a b B -> A = B.
Proof.
  intros Hab (F & HF & Fa & Fb & <-) (G & HG & Ga & Gb & <-).
  set (D := fun x => F x - G x).
  assert (HD : forall x, a < x < b -> derivable_pt_lim D x 0).
  { intros x Hx. replace 0 with (f x - f x) by ring. apply (derivable_pt_lim_minus F G); auto. }
  assert (Hpr : forall c, a < c < b -> derivable_pt D c) by (intros c Hc; exists 0; now apply HD).
  assert (Hid : forall c, a < c < b -> derivable_pt id c) by (intros; apply derivable_pt_id).
  destruct (MVT D id a b Hpr Hid Hab) as (c & P & HM).
  - intros c Hc. apply continuity_pt_minus; destruct (Req_dec c a) as [->|Na]; auto; destruct (Req_dec c b) as [->|Nb]; auto;
      apply derivable_continuous_pt; exists (f c); [apply HF|apply HG]; lra.
  - intros. apply derivable_continuous_pt, derivable_pt_id.
  - rewrite (derive_pt_eq_0 D c 0 (Hpr c P)) in HM by auto. rewrite (derive_pt_eq_0 id c 1 (Hid c P)) in HM by apply derivable_pt_lim_id.
    unfold D, id in HM. rewrite Rmult_0_r, Rmult_1_r in HM. lra.
Qed.
