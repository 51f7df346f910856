(** M_PI is PI up to 2^-47: by Machin's formula of the standard library, summed in rational arithmetic. *)
From Coq Require Import Reals Lra Lia Machin Ratan QArith Qreals.
From Flocq Require Import Core.
From Verif Require Import RBase Fp FpGrid.
Open Scope R_scope.

Fixpoint qp (a : positive) (k : nat) : Q := match k with O => 1%Q | S k => ((1 # a) * qp a k)%Q end.
Definition qt (n : nat) : Q :=
  let m := (2 * n + 1)%nat in let t := (2 * (qp 3 m * / inject_Z (Z.of_nat m)) + qp 7 m * / inject_Z (Z.of_nat m))%Q in if Nat.even n then t else (- t)%Q.
Fixpoint qs (n : nat) : Q := match n with O => qt n | S m => Qred (qs m + qt n) end.
Lemma qp_ok a k : Q2R (qp a k) = (/ IZR (Zpos a)) ^ k.
Proof.
  induction k as [|k IH]; [cbn; unfold Q2R; cbn; lra|]. cbn [qp pow]. rewrite Q2R_mult, IH. unfold Q2R. cbn [Qnum Qden]. ring.
Qed.
Lemma qt_ok n : Q2R (qt n) = tg_alt PI_2_3_7_tg n.
Proof.
  set (t := (2 * (qp 3 (2 * n + 1) * / inject_Z (Z.of_nat (2 * n + 1))) + qp 7 (2 * n + 1) * / inject_Z (Z.of_nat (2 * n + 1)))%Q).
  assert (T : Q2R t = PI_2_3_7_tg n).
  { unfold t, PI_2_3_7_tg, Ratan_seq. assert (N0 : ~ inject_Z (Z.of_nat (2 * n + 1)) == 0) by (unfold Qeq, inject_Z; cbn [Qnum Qden]; lia).
    rewrite Q2R_plus, !Q2R_mult, !Q2R_inv, !qp_ok by exact N0.
    replace (Q2R (inject_Z (Z.of_nat (2 * n + 1)))) with (INR (2 * n + 1)) by (rewrite INR_IZR_INZ; unfold Q2R, inject_Z; cbn [Qnum Qden]; field).
    replace (Q2R 2) with 2 by (unfold Q2R; cbn; lra). unfold Rdiv. ring. }
  unfold qt, tg_alt. cbv zeta. fold t. destruct (Nat.even n) eqn:E.
  - rewrite T. apply Nat.even_spec in E. destruct E as [m ->]. rewrite pow_1_even. ring.
  - rewrite Q2R_opp, T. assert (O : Nat.odd n = true) by (unfold Nat.odd; now rewrite E). apply Nat.odd_spec in O. destruct O as [m ->]. rewrite Nat.add_1_r, pow_1_odd. ring.
Qed.
Lemma qs_ok n : Q2R (qs n) = sum_f_R0 (tg_alt PI_2_3_7_tg) n.
Proof.
  induction n as [|n IH]; [exact (qt_ok O)|]. cbn [qs sum_f_R0]. rewrite <- IH, <- qt_ok. rewrite (Qeq_eqR _ _ (Qred_correct _)), Q2R_plus. reflexivity.
Qed.
Lemma fp_pi : Rabs (FP_PI - PI) <= / 140737488355328.
Proof.
  destruct (PI_2_3_7_ineq 8) as [L U]. rewrite <- !qs_ok in L, U.
  set (a := qs (S (2 * 8))) in *. set (b := qs (2 * 8)) in *. vm_compute in a. vm_compute in b. subst a b. unfold Q2R in *. cbn [Qnum Qden] in *. apply Rabs_le. unfold FP_PI. cbn. lra.
Qed.
