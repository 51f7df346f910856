(** ln 2 to 17 digits, from the series of ln ((1 + t) / (1 - t)). *)
From Coq Require Import Reals Lra Lia.
Open Scope R_scope.

Fixpoint odd_sum (n : nat) (t : R) : R := match n with O => 0 | S k => odd_sum k t + t ^ (2 * k + 1) / INR (2 * k + 1) end.
Fixpoint even_sum (n : nat) (t : R) : R := match n with O => 0 | S k => even_sum k t + t ^ (2 * k) end.
Lemma odd_sum_diff n t : derivable_pt_lim (odd_sum n) t (even_sum n t).
Proof.
  induction n as [|n IH].
  - apply derivable_pt_lim_const.
  - cbn [odd_sum even_sum].
    assert (D : derivable_pt_lim (fun t => t ^ (2 * n + 1) / INR (2 * n + 1)) t (t ^ (2 * n))).
    { replace (t ^ (2 * n)) with ((/ INR (2 * n + 1)) * (INR (2 * n + 1) * t ^ pred (2 * n + 1))).
      - assert (E : derivable_pt_lim (mult_real_fct (/ INR (2 * n + 1)) (fun y => y ^ (2 * n + 1))) t (/ INR (2 * n + 1) * (INR (2 * n + 1) * t ^ pred (2 * n + 1)))) by apply derivable_pt_lim_scal, derivable_pt_lim_pow.
        intros eps He. destruct (E eps He) as [d Hd]. exists d. intros h Hh0 Hh. specialize (Hd h Hh0 Hh). unfold mult_real_fct in Hd. unfold Rdiv at 2 3. rewrite !(Rmult_comm (_ ^ _) (/ _)). exact Hd.
      - replace (pred (2 * n + 1)) with (2 * n)%nat by lia. rewrite <- Rmult_assoc, Rinv_l, Rmult_1_l; [reflexivity|]. apply not_0_INR. lia. }
    exact (derivable_pt_lim_plus _ _ _ _ _ IH D).
Qed.
Lemma even_sum_eq n t : (1 - t * t) * even_sum n t = 1 - t ^ (2 * n).
Proof.
  induction n as [|n IH]; [cbn; ring|]. cbn [even_sum]. rewrite Rmult_plus_distr_l, IH. replace (2 * S n)%nat with (2 + 2 * n)%nat by lia. rewrite pow_add. ring.
Qed.
Definition gap (n : nat) (t : R) : R := ln (1 + t) - ln (1 - t) - 2 * odd_sum n t.
Lemma gap_diff n t : 0 <= t < 1 -> derivable_pt_lim (gap n) t (2 * t ^ (2 * n) / (1 - t * t)).
Proof.
  intros Ht. assert (Q : 0 < 1 - t * t) by nra.
  replace (2 * t ^ (2 * n) / (1 - t * t)) with (/ (1 + t) * (0 + 1) - / (1 - t) * (0 - 1) - 2 * even_sum n t).
  - unfold gap. apply (derivable_pt_lim_minus (fun t => ln (1 + t) - ln (1 - t)) (fun t => 2 * odd_sum n t)).
    + apply (derivable_pt_lim_minus (fun t => ln (1 + t)) (fun t => ln (1 - t))).
      * apply (derivable_pt_lim_comp (fun t => 1 + t) ln); [|apply derivable_pt_lim_ln; lra].
        apply (derivable_pt_lim_plus (fun _ => 1) (fun t => t)); [apply derivable_pt_lim_const|apply derivable_pt_lim_id].
      * apply (derivable_pt_lim_comp (fun t => 1 - t) ln); [|apply derivable_pt_lim_ln; lra].
        apply (derivable_pt_lim_minus (fun _ => 1) (fun t => t)); [apply derivable_pt_lim_const|apply derivable_pt_lim_id].
    + apply (derivable_pt_lim_scal (odd_sum n) 2 t). apply odd_sum_diff.
  - pose proof (even_sum_eq n t) as E. assert (E' : even_sum n t = (1 - t ^ (2 * n)) / (1 - t * t)) by (rewrite <- E; field; lra). rewrite E'. field. split; [|split]; lra.
Qed.
Lemma gap_bound n : 0 <= gap n (/ 3) <= (/ 9) ^ n * (3 / 4).
Proof.
  assert (G0 : gap n 0 = 0). { unfold gap. replace (odd_sum n 0) with 0; [rewrite Rplus_0_r, Rminus_0_r, ln_1; ring|]. induction n as [|n IH]; [reflexivity|]. cbn [odd_sum]. rewrite <- IH, pow_i by lia. unfold Rdiv. ring. }
  destruct (MVT_cor2 (gap n) (fun t => 2 * t ^ (2 * n) / (1 - t * t)) 0 (/ 3)) as (c & Hc & Hr).
  - lra.
  - intros c Hc. apply gap_diff. lra.
  - rewrite G0, !Rminus_0_r in Hc. rewrite Hc. assert (C1 : 0 <= c * c) by (apply Rmult_le_pos; lra). assert (C3 : c * c <= / 3 * / 3) by (apply Rmult_le_compat; lra). assert (Q : 8 / 9 <= 1 - c * c <= 1) by lra.
    assert (P : 0 <= c ^ (2 * n) <= (/ 9) ^ n). { rewrite pow_mult. assert (C2 : 0 <= c ^ 2 <= / 9) by (replace (c ^ 2) with (c * c) by ring; lra). split; [apply pow_le; lra|]. apply pow_incr. exact C2. }
    assert (I : 1 <= / (1 - c * c) <= 9 / 8). { split; [rewrite <- Rinv_1 at 1; apply Rinv_le_contravar; lra|]. replace (9 / 8) with (/ (8 / 9)) by field. apply Rinv_le_contravar; lra. }
    set (i := / (1 - c * c)) in *. unfold Rdiv. fold i. set (p := c ^ (2 * n)) in *. set (q := (/ 9) ^ n) in *. clearbody i p q. clear - P I Hr. assert (P1 : 0 <= p * i) by (apply Rmult_le_pos; lra). assert (P2 : p * i <= q * (9 / 8)) by (apply Rmult_le_compat; lra). lra.
Qed.
Theorem ln2_near : Rabs (ln 2 - 69314718055994530942 / 100000000000000000000) <= / 1000000000000000000.
Proof.
  pose proof (gap_bound 19) as [B1 B2]. unfold gap in B1, B2. replace (1 + / 3) with (2 * (1 - / 3)) in B1, B2 by field.
  rewrite ln_mult in B1, B2 by lra. replace (ln 2 + ln (1 - / 3) - ln (1 - / 3) - 2 * odd_sum 19 (/ 3)) with (ln 2 - 2 * odd_sum 19 (/ 3)) in B1, B2 by ring.
  set (l := ln 2) in *. clearbody l. cbn in B1, B2. apply Rabs_le. lra.
Qed.
