(** Property C49 and C57: degree trigonometry and round-off aware comparisons. *)
From Verif Require Import RBase Trig TrigProofs.
Open Scope R_scope.

(** C49: the shortcuts of cosd, sind and acosd return what the general formula gives, for every angle / cosine. *)
Theorem C49_cosd : forall x, cosd x = cos (x / 180 * PI).
Proof. exact cosd_cos. Qed.
Print Assumptions C49_cosd.
Theorem C49_sind : forall x, sind x = sin (x / 180 * PI).
Proof. exact sind_sin. Qed.
Print Assumptions C49_sind.
Theorem C49_acosd : forall x, -1 <= x <= 1 -> acosd x = acos x / PI * 180.
Proof. exact acosd_acos. Qed.
Print Assumptions C49_acosd.
Theorem C49_acosd_cosd : forall t, 0 <= t <= 180 -> acosd (cosd t) = t.
Proof. exact acosd_cosd. Qed.
Print Assumptions C49_acosd_cosd.
(** C49: asind is right at multiples of one half ... *)
Theorem C49_asind_partial : forall k, (-2 <= k <= 2)%Z -> asind (1/2 * IZR k) = asin (1/2 * IZR k) / PI * 180.
Proof. exact asind_special. Qed.
Print Assumptions C49_asind_partial.
(** ... and wrong for every other argument but sin 45 degrees: it returns the arc cosine. *)
Theorem C49_asind_refuted : forall x, -1 <= x <= 1 -> (forall k : Z, x <> 1/2 * IZR k) -> x <> sin (PI / 4) -> asind x <> asin x / PI * 180.
Proof. exact asind_wrong. Qed.
Print Assumptions C49_asind_refuted.
Example C49_nonvacuous : cosd 300 = 1/2 /\ asind (1/4) = acos (1/4) / PI * 180 /\ asind (1/4) <> asin (1/4) / PI * 180.
Proof.
  split; [rewrite cosd_cos; apply cos_special; tauto|].
  assert (HK : forall k : Z, 1/4 <> 1/2 * IZR k).
  { intros k Hk. assert (HZ : IZR (2 * k) = IZR 1) by (rewrite mult_IZR; lra). apply eq_IZR in HZ. lia. }
  split; [now apply asind_other|]. apply asind_wrong; auto; [lra|].
  rewrite sin_PI4. intros H. pose proof (sqrt_sqrt 2 ltac:(lra)). pose proof (sqrt_lt_R0 2 ltac:(lra)).
  assert (sqrt 2 = 4) by (apply (f_equal Rinv) in H; field_simplify in H; lra). nra.
Qed.

(** C57: exactly one of eps_lt, eps_eq, eps_gt holds for any two numbers and any tolerance. *)
Theorem C57_eps_trichotomy : forall x y eps, 0 <= eps ->
  (eps_lt x y eps = true /\ eps_eq x y eps = false /\ eps_gt x y eps = false) \/
  (eps_lt x y eps = false /\ eps_eq x y eps = true /\ eps_gt x y eps = false) \/
  (eps_lt x y eps = false /\ eps_eq x y eps = false /\ eps_gt x y eps = true).
Proof. exact eps_trichotomy. Qed.
Print Assumptions C57_eps_trichotomy.
(** C57: eps_lt is a strict partial order, with eps_gt as its converse; it is no strict weak order. *)
Theorem C57_eps_lt_order : forall eps, 0 <= eps ->
  (forall x, eps_lt x x eps = false) /\
  (forall x y, eps_lt x y eps = true -> eps_lt y x eps = false) /\
  (forall x y z, eps_lt x y eps = true -> eps_lt y z eps = true -> eps_lt x z eps = true) /\
  (forall x y, eps_lt x y eps = eps_gt y x eps).
Proof. exact eps_lt_order. Qed.
Print Assumptions C57_eps_lt_order.
Theorem C57_eps_lt_weak_order_refuted : forall eps, 0 < eps -> exists x y z,
  eps_lt x y eps = false /\ eps_lt y x eps = false /\ eps_lt y z eps = false /\ eps_lt z y eps = false /\ eps_lt x z eps = true.
Proof. exact eps_lt_not_weak. Qed.
Print Assumptions C57_eps_lt_weak_order_refuted.
