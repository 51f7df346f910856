(** C42: peak profiles. *)
From Coq Require Import Reals Lra Psatz.
From Verif Require Import Base RBase Peaks PeaksSpec PeaksProofs PeaksArea.
Open Scope R_scope.

(** Whatever precisions were set: the profile reports the last one, not below 2^-52. *)
Theorem C42_precision es : gprec (gauss_hist es) = precision_after es /\ gprec (cbase (cropped_hist es)) = precision_after es.
Proof. split; [apply gauss_hist_spec|apply cropped_hist_spec]. Qed.
Print Assumptions C42_precision.

(** The Gaussian profile is the normal density of the requested full width at half maximum, zero for
    widths that are not positive; it is symmetric, non-negative and largest at zero. *)
Theorem C42_gaussian_shape es x w : let f := gauss_at (gauss_hist es) in
  f (- x) w = f x w /\ 0 <= f x w <= f 0 w /\ (w <= 0 -> f x w = 0) /\
  (0 < w -> f x w = normal_density (sigma_of w) x /\ 0 < f x w /\ f (w / 2) w = f 0 w / 2).
Proof.
  cbv zeta. destruct (Rle_dec w 0) as [H|H].
  - rewrite !gauss_nonpos by auto. split; [auto|]. split; [lra|]. split; [auto|lra].
  - assert (Hw : 0 < w) by lra. rewrite !gauss_pos by auto. rewrite shape_sym.
    pose proof (shape_pos x w Hw). pose proof (shape_max x w Hw).
    split; [auto|]. split; [lra|]. split; [lra|]. intros _. split; [now apply shape_normal|]. split; [auto|now apply shape_half].
Qed.
Print Assumptions C42_gaussian_shape.

(** The bounds: symmetric around zero; outside the profile is below precision times maximum, inside it is not. *)
Theorem C42_gaussian_bounds es x w : let p := gauss_hist es in
  gauss_lo p w = - gauss_hi p w /\ 0 <= gauss_hi p w /\ (w <= 0 -> gauss_hi p w = 0) /\
  (0 < w -> x < gauss_lo p w \/ gauss_hi p w < x -> gauss_at p x w < precision_after es * gauss_at p 0 w) /\
  (0 < w -> precision_after es < 1 -> gauss_lo p w <= x <= gauss_hi p w -> precision_after es * gauss_at p 0 w <= gauss_at p x w).
Proof.
  cbv zeta. unfold gauss_lo, gauss_hi. destruct (gauss_hist_spec es) as [_ Hh]. rewrite Hh.
  pose proof (half_nonneg (precision_after es)) as Hn. pose proof (precision_ge es). pose proof eps_pos.
  destruct (Rleb w 0) eqn:E.
  - apply Rleb_true in E. split; [ring|]. split; [lra|]. split; [auto|]. split; lra.
  - apply Rleb_false in E. split; [ring|]. split; [nra|]. split; [lra|]. rewrite !gauss_pos by auto. split.
    + intros _ Hx. apply shape_outside; auto; [lra|]. destruct Hx as [Hx|Hx]; [rewrite Rabs_left|rewrite Rabs_right]; nra.
    + intros _ Hp Hx. apply shape_inside; auto; [lra|]. apply Rabs_le. lra.
Qed.
Print Assumptions C42_gaussian_bounds.

(** Between its bounds the Gaussian profile covers the area erf(sqrt(-ln precision)). *)
Theorem C42_gaussian_area es w : let p := gauss_hist es in 0 < w -> precision_after es < 1 ->
  has_area (fun x => gauss_at p x w) (gauss_lo p w) (gauss_hi p w) (erf (sqrt (- ln (precision_after es)))).
Proof.
  cbv zeta. intros Hw Hp. pose proof (precision_ge es). pose proof eps_pos.
  unfold gauss_lo, gauss_hi. destruct (gauss_hist_spec es) as [_ Hh]. rewrite Hh.
  destruct (Rleb w 0) eqn:E; [apply Rleb_true in E; lra|].
  exists (prim w). split; [|split; [now apply prim_cont|split; [now apply prim_cont|]]].
  - intros x _. rewrite gauss_pos by auto. now apply prim_deriv.
  - replace (-1 * (half_of (precision_after es) * w)) with (- (half_of (precision_after es) * w)) by ring.
    rewrite prim_odd, prim_hi by lra. lra.
Qed.
Print Assumptions C42_gaussian_area.

(** The Gaussian profile has unit area: between -c and c it misses no more than its value at c relative to
    its maximum, and between its bounds no more than the precision. *)
Theorem C42_gaussian_unit_area es w : let p := gauss_hist es in let f := fun x => gauss_at p x w in 0 < w ->
  (forall c, 0 <= c -> exists A, has_area f (- c) c A /\ 1 - f c / f 0 <= A < 1) /\
  (forall d, 0 < d -> exists c0, forall c A, c0 < c -> has_area f (- c) c A -> 1 - d < A < 1) /\
  (precision_after es < 1 -> exists A, has_area f (gauss_lo p w) (gauss_hi p w) A /\ 1 - precision_after es <= A < 1).
Proof.
  cbv zeta. intros Hw. set (p := gauss_hist es). pose proof ln2_pos as L.
  assert (H1 : forall c, 0 <= c -> exists A, has_area (fun x => gauss_at p x w) (- c) c A /\ 1 - gauss_at p c w / gauss_at p 0 w <= A < 1).
  { intros c Hc. exists (erf (2 * sqrt (ln 2) / w * c)). split.
    - exists (prim w). split; [|split; [now apply prim_cont|split; [now apply prim_cont|]]].
      + intros x _. rewrite gauss_pos by auto. now apply prim_deriv.
      + rewrite prim_odd. unfold prim. lra.
    - rewrite !gauss_pos by auto. rewrite (shape_rel c). pose proof (shape_pos 0 w Hw).
      replace (shape 0 w * exp (-4 * ln 2 * (c / w) * (c / w)) / shape 0 w) with (exp (-4 * ln 2 * (c / w) * (c / w))) by (field; lra).
      replace (-4 * ln 2 * (c / w) * (c / w)) with (- (2 * sqrt (ln 2) / w * c * (2 * sqrt (ln 2) / w * c))).
      + apply erf_bounds. apply Rmult_le_pos; auto. left. apply Rdiv_lt_0_compat; auto. apply Rmult_lt_0_compat; [lra|now apply sqrt_lt_R0].
      + replace (- (2 * sqrt (ln 2) / w * c * (2 * sqrt (ln 2) / w * c))) with (-4 * (sqrt (ln 2) * sqrt (ln 2)) * (c / w) * (c / w)) by (field; lra).
        rewrite sqrt_sqrt by lra. auto. }
  split; [exact H1|]. split.
  - intros d Hd. set (e := Rmin (d / 2) (/ 2)). assert (He : 0 < e < 1 /\ e < d). { unfold e. pose proof (Rmin_l (d/2) (/2)). pose proof (Rmin_r (d/2) (/2)). assert (0 < Rmin (d/2) (/2)) by (apply Rmin_pos; lra). lra. }
    exists (half_of e * w). intros c A Hc HA. pose proof (half_nonneg e).
    destruct (H1 c ltac:(nra)) as (B & HB & HB1).
    assert (A = B) as ->. { apply (has_area_unique (fun x => gauss_at p x w) (- c) c); auto. nra. }
    pose proof (shape_outside e c w Hw ltac:(lra)) as Ho. rewrite Rabs_right in Ho by nra. specialize (Ho ltac:(lra)).
    rewrite !gauss_pos in HB1 by auto. pose proof (shape_pos 0 w Hw) as P0.
    assert (shape c w / shape 0 w < e). { apply (Rmult_lt_reg_r (shape 0 w)); auto. unfold Rdiv. rewrite Rmult_assoc, Rinv_l by lra. lra. }
    lra.
  - intros Hp. pose proof (precision_ge es) as Hge. pose proof eps_pos as Hep. set (e := precision_after es) in *.
    exists (erf (sqrt (- ln e))). split; [now apply C42_gaussian_area|].
    pose proof (erf_bounds (sqrt (- ln e)) (sqrt_pos _)) as B. rewrite sqrt_sqrt in B by (pose proof (neg_ln_pos e); lra).
    rewrite Ropp_involutive, exp_ln in B by lra. exact B.
Qed.
Print Assumptions C42_gaussian_unit_area.

(** The cropped profile, for positive widths and precisions below one: the Gaussian between the same
    bounds divided by its area there, zero elsewhere, so that its area is one. *)
Theorem C42_cropped es w : let p := cropped_hist es in let g := gauss_hist es in let A := erf (sqrt (- ln (precision_after es))) in
  0 < w -> precision_after es < 1 ->
  gauss_lo (cbase p) w = gauss_lo g w /\ gauss_hi (cbase p) w = gauss_hi g w /\ 0 < A /\
  exists f, (forall x, cropped_at p x w = Some (f x)) /\
    (forall x, x <= gauss_lo g w \/ gauss_hi g w <= x -> f x = 0) /\
    (forall x, gauss_lo g w < x < gauss_hi g w -> f x = gauss_at g x w / A) /\
    (forall x, f (- x) = f x /\ 0 <= f x <= f 0) /\
    has_area f (gauss_lo g w) (gauss_hi g w) 1.
Proof.
  cbv zeta. intros Hw Hp. pose proof (precision_ge es) as Hge. pose proof eps_pos as Hep.
  set (e := precision_after es) in *. set (A := erf (sqrt (- ln e))).
  assert (HA : 0 < A). { apply erf_pos, sqrt_lt_R0, neg_ln_pos. lra. }
  unfold gauss_lo, gauss_hi. destruct (gauss_hist_spec es) as [_ Hh]. destruct (cropped_hist_spec es) as (_ & Hc & Hs).
  rewrite Hh, Hc. fold e in Hs |- *. destruct (Rleb w 0) eqn:E; [apply Rleb_true in E; lra|].
  split; [auto|]. split; [auto|]. split; [auto|].
  pose proof (half_pos e ltac:(lra)) as Hb.
  assert (Hsc : cscale (cropped_hist es) = / A). { rewrite Hs. unfold scale_of. destruct (Rltb e 1) eqn:E1; [|apply Rltb_false in E1; lra]. fold A. field. lra. }
  set (f := fun x => if Rleb (half_of e) (Rabs (x / w)) then 0 else shape x w / A).
  assert (Habs : forall x, Rabs (x / w) = Rabs x / w). { intros. unfold Rdiv. rewrite Rabs_mult, (Rabs_right (/ w)); auto. left; now apply Rinv_0_lt_compat. }
  assert (Hout : forall x, x <= -1 * (half_of e * w) \/ half_of e * w <= x -> f x = 0).
  { intros x Hx. unfold f. rewrite Habs. destruct (Rleb (half_of e) (Rabs x / w)) eqn:E1; auto. exfalso. apply Rleb_false in E1.
    apply (Rmult_lt_compat_r w) in E1; auto. unfold Rdiv in E1. rewrite Rmult_assoc, Rinv_l, Rmult_1_r in E1 by lra.
    apply Rabs_def2 in E1. lra. }
  assert (Hin : forall x, -1 * (half_of e * w) < x < half_of e * w -> f x = shape x w / A).
  { intros x Hx. unfold f. rewrite Habs. destruct (Rleb (half_of e) (Rabs x / w)) eqn:E1; auto. exfalso. apply Rleb_true in E1.
    apply (Rmult_le_compat_r w) in E1; [|lra]. unfold Rdiv in E1. rewrite Rmult_assoc, Rinv_l, Rmult_1_r in E1 by lra.
    assert (Rabs x < half_of e * w) by (apply Rabs_def1; lra). lra. }
  assert (Hpos : forall x, 0 <= shape x w / A). { intros. left. apply Rdiv_lt_0_compat; auto. now apply shape_pos. }
  exists f. split; [|split; [exact Hout|split; [|split]]].
  - intros x. unfold cropped_at. destruct (Reqb w 0) eqn:E0; [apply Reqb_true in E0; lra|]. rewrite Hc. fold e. unfold f. f_equal.
    destruct (Rleb (half_of e) (Rabs (x / w))); auto. rewrite Hsc. unfold shape. field. lra.
  - intros x Hx. rewrite gauss_pos by auto. now apply Hin.
  - intros x. assert (Hsym : f (- x) = f x). { unfold f. rewrite !Habs, Rabs_Ropp, shape_sym. auto. }
    split; [exact Hsym|]. rewrite (Hin 0) by nra. pose proof (Hpos 0). unfold f. destruct (Rleb (half_of e) (Rabs (x / w))); [lra|].
    split; [apply Hpos|]. apply Rmult_le_compat_r; [left; now apply Rinv_0_lt_compat|]. now apply shape_max.
  - exists (fun x => / A * prim w x). split; [|split; [|split]].
    + intros x Hx. rewrite Hin by auto. unfold Rdiv. rewrite Rmult_comm. apply derivable_pt_lim_scal. now apply prim_deriv.
    + apply continuity_pt_scal. now apply prim_cont.
    + apply continuity_pt_scal. now apply prim_cont.
    + replace (-1 * (half_of e * w)) with (- (half_of e * w)) by ring. rewrite prim_odd, prim_hi by lra. fold A. field. lra.
Qed.
Print Assumptions C42_cropped.

(** A precision of one or more makes the cropped profile vanish. *)
Theorem C42_cropped_coarse es x w : 0 < w -> 1 <= precision_after es -> cropped_at (cropped_hist es) x w = Some 0.
Proof.
  intros Hw Hp. unfold cropped_at. destruct (Reqb w 0) eqn:E0; [apply Reqb_true in E0; lra|].
  destruct (cropped_hist_spec es) as (_ & Hc & _). rewrite Hc. unfold half_of. destruct (Rltb (precision_after es) 1) eqn:E; [apply Rltb_true in E; lra|].
  destruct (Rleb 0 (Rabs (x / w))) eqn:E1; auto. apply Rleb_false in E1. pose proof (Rabs_pos (x / w)). lra.
Qed.
Print Assumptions C42_cropped_coarse.

(** Unlike the Gaussian, the cropped profile does not treat widths that are not positive as no peak:
    every negative width gives a negative value at zero and width zero gives NaN there,
    so "non-negative" fails. *)
Theorem C42_cropped_width_refuted es : precision_after es < 1 ->
  cropped_at (cropped_hist es) 0 0 = None /\ forall w, w < 0 -> exists v, cropped_at (cropped_hist es) 0 w = Some v /\ v < 0.
Proof.
  intros Hp. pose proof (precision_ge es) as Hge. pose proof eps_pos as Hep. split.
  - unfold cropped_at. destruct (Reqb 0 0) eqn:E; auto. apply Reqb_false in E. lra.
  - intros w Hw. unfold cropped_at. destruct (Reqb w 0) eqn:E0; [apply Reqb_true in E0; lra|].
    destruct (cropped_hist_spec es) as (_ & Hc & Hs). rewrite Hc, Hs. eexists. split; [reflexivity|].
    replace (0 / w) with 0 by (field; lra). rewrite Rabs_R0. pose proof (half_pos (precision_after es) ltac:(lra)).
    destruct (Rleb (half_of (precision_after es)) 0) eqn:E1; [apply Rleb_true in E1; lra|].
    unfold scale_of. destruct (Rltb (precision_after es) 1) eqn:E2; [|apply Rltb_false in E2; lra].
    assert (HA : 0 < erf (sqrt (- ln (precision_after es)))). { apply erf_pos, sqrt_lt_R0, neg_ln_pos. lra. }
    set (A := erf _) in *. rewrite Rmult_0_r, exp_0, Rmult_1_r. pose proof (pre_pos (- w) ltac:(lra)) as P.
    replace (2 * sqrt (ln 2 / PI) / w * (1 / A)) with (- (2 * sqrt (ln 2 / PI) / - w * (/ A))) by (field; lra).
    pose proof (Rinv_0_lt_compat A HA). nra.
Qed.
Print Assumptions C42_cropped_width_refuted.

(** setPrecision clicks the ticker exactly when the precision in use changes. *)
Theorem C42_clicks es e : let p := gauss_hist es in let p' := gauss_hist (es ++ [e]) in
  gclicks p' = (if Req_EM_T (precision_after es) (precision_after (es ++ [e])) then gclicks p else S (gclicks p)).
Proof.
  cbv zeta. unfold gauss_hist at 1. rewrite fold_left_app. cbn [fold_left]. fold (gauss_hist es).
  unfold gauss_setPrecision. cbn. destruct (gauss_hist_spec es) as [-> _].
  replace (precision_after (es ++ [e])) with (Rmax e DOUBLE_EPS) by (unfold precision_after; rewrite last_snoc, <- eps_pow; auto).
  unfold Reqb. destruct (Req_EM_T _ _); auto.
Qed.
Print Assumptions C42_clicks.

(** A profile with precision 1e-6 set after a rejected tiny one. *)
Example C42_nonvacuous : precision_after [0; / 1000000] = / 1000000 /\ precision_after [0; / 1000000] < 1 /\ precision_after [2; 0] = / 2 ^ 52.
Proof. unfold precision_after. cbn [last]. rewrite Rmax_left, Rmax_right by lra. lra. Qed.
