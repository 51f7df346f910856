(** Proofs for FpBonds.v: the sphere contains the cells of all bonds. *)
From Flocq Require Import Core.
From Coq Require Import Reals Lra Lia.
From Coq Require Import Sorting.Sorted.
From Verif Require Import RBase R3 Fp FpGrid FpGridProofs FpTol FpAngle FpAngleProofs FpSphere FpSphereSpec FpSphereLoop FpSphereProofs FpSphereMain FpSphereMore FpBonds FpBondsLoop FpBondsSpec FpBondsProofs.
From Verif Require SphereMain BondGenMain.
Import ListNotations.
Open Scope R_scope.

Lemma rnd_near x M : Rabs x <= M -> bpow radix2 (-299) <= M -> Rabs (rnd x - x) <= v * M.
Proof. intros H1 H2. apply rb; [exact H1|]. apply Rle_trans with (bpow radix2 (-299)); [apply bpow_le; lia|exact H2]. Qed.
Lemma le_sq p q : 0 <= p -> p <= q -> p * p <= q * q.
Proof. intros. apply Rmult_le_compat; lra. Qed.
Section Near.
  Context (S : fp_stru) (a j : nat) (T : Z * Z * Z) (rmin rmax : R).
  Let D := fp_maxdiag S.
  Context (HS : same_lattice S) (D0 : bpow radix2 (-299) <= D) (H0 : 0 <= rmax).
  Let Z := rmax + D.
  Let Q := vnorm (vsub (fp_home true S j) (fp_home true S a)).
  Let d := vnorm (apart S a j T).
  Let t := vnorm (lattice_vec S T).
  Lemma cell_near : t <= d + Q /\ d <= t + Q.
  Proof.
    unfold t, d, Q, apart. set (w := vsub _ _). set (l := lattice_vec S T). split; [|apply norm_triangle].
    pose proof (norm_triangle (vadd l w) (vsub vzero w)) as H. rewrite vnorm_opp in H. replace (vadd (vadd l w) (vsub vzero w)) with l in H; [exact H|].
    destruct l as [l1 l2 l3], w as [w1 w2 w3]. unfold vadd, vsub, vzero. cbn [vx vy vz]. f_equal; ring.
  Qed.
  Lemma visited pts : visits (fp_sphmin S rmin) (fp_sphmax S rmax) (p_sph S) pts -> ints T -> roomy S rmin rmax a j ->
    rmin <= d <= rmax -> In T pts.
  Proof.
    intros HV HI HR Hd. destruct HS as [HP HL]. apply visits_all in HV. subst pts. pose proof (bpow_gt_0 radix2 (-299)) as P.
    pose proof (HL T HI) as E. cbv zeta in E. rewrite <- (vnorm_sq (lattice_vec S T)) in E. fold t in E. apply Rabs_le_inv in E.
    destruct cell_near as [N1 N2]. assert (Q0 : 0 <= Q) by apply vnorm_nonneg. assert (T0 : 0 <= t) by apply vnorm_nonneg. assert (d0 : 0 <= d) by apply vnorm_nonneg.
    unfold roomy in HR. fold Q D in HR. fold Z in HR.
    assert (Z0 : bpow radix2 (-299) <= Z) by (unfold Z; lra).
    assert (RM := rnd_near Z Z ltac:(rewrite Rabs_pos_eq; lra) Z0). change (rnd Z) with (fp_sphmax S rmax) in RM. apply Rabs_le_inv in RM.
    set (W := fp_sphmax S rmax) in *. assert (B3 : bpow radix2 (-299) = 2 * bpow radix2 (-300)) by (change (-299)%Z with (1 + -300)%Z; rewrite bpow_plus; cbn; ring).
    assert (HW : bpow radix2 (-300) <= W) by lra.
    assert (QZ : Q + / 268435456 * Z <= D) by (destruct HR as [H|[_ H]]; lra).
    assert (TZ : t <= (1 - / 268435456) * Z) by (unfold Z in *; lra).
    assert (ZZ : 0 < Z * Z) by (apply Rmult_lt_0_compat; lra).
    assert (T2 : t * t <= (1 - / 268435456) * Z * ((1 - / 268435456) * Z)) by (apply le_sq; lra).
    assert (W1 : (1 - v) * Z * ((1 - v) * Z) <= W * W) by (apply le_sq; lra).
    assert (W2 : W * W <= (1 + v) * Z * ((1 + v) * Z)) by (apply le_sq; lra).
    destruct T as [[m n] o]. apply complete; auto.
    - unfold margin. replace ((1 - / 268435456) * Z * ((1 - / 268435456) * Z)) with ((1 - / 268435456) * (1 - / 268435456) * (Z * Z)) in T2 by ring.
      replace ((1 - v) * Z * ((1 - v) * Z)) with ((1 - v) * (1 - v) * (Z * Z)) in W1 by ring. set (ZQ := Z * Z) in *. set (WW := W * W) in *. set (tt := t * t) in *. clearbody ZQ WW tt. lra.
    - assert (RN := rnd_near (rmin - D) Z). change (rnd (rmin - D)) with (fp_sphmin S rmin) in RN. set (w := fp_sphmin S rmin) in *.
      destruct (Rle_lt_dec rmin D) as [C|C]; [left; unfold w, fp_sphmin; fold D; apply rnd_le_dbl; [lra|apply dbl_0]|right].
      assert (HR' : Q + / 16384 * Z <= D) by (destruct HR as [H|[H _]]; lra).
      specialize (RN ltac:(rewrite Rabs_pos_eq; unfold Z; lra) Z0). apply Rabs_le_inv in RN. set (p := rmin - D) in *. assert (p0 : 0 < p) by (unfold p; lra).
      assert (pZ : p <= Z) by (unfold p, Z; lra).
      assert (L1 : p + / 16384 * Z <= t) by (unfold p; lra).
      assert (L2 : (p + / 16384 * Z) * (p + / 16384 * Z) <= t * t) by (apply le_sq; lra).
      assert (w0 : 0 <= w) by (unfold w, fp_sphmin; fold D; apply rnd_nonneg; fold p; lra).
      assert (L3 : w * w <= (p + v * Z) * (p + v * Z)) by (apply le_sq; lra).
      assert (TZ2 : t * t <= Z * Z) by (apply le_sq; lra).
      assert (PZ : 0 <= p * Z <= Z * Z) by (split; [apply Rmult_le_pos|apply Rmult_le_compat_r]; lra).
      unfold margin.
      replace ((p + / 16384 * Z) * (p + / 16384 * Z)) with (p * p + 2 * / 16384 * (p * Z) + / 268435456 * (Z * Z)) in L2 by field.
      replace ((p + v * Z) * (p + v * Z)) with (p * p + 2 * v * (p * Z) + v * v * (Z * Z)) in L3 by ring.
      replace ((1 + v) * Z * ((1 + v) * Z)) with ((1 + v) * (1 + v) * (Z * Z)) in W2 by ring.
      set (ZQ := Z * Z) in *. set (WW := W * W) in *. set (tt := t * t) in *. set (pz := p * Z) in *. set (pp := p * p) in *. set (ww := w * w) in *. clearbody ZQ WW tt pz pp ww. lra.
  Qed.
End Near.

Lemma NoDup_row sel T : NoDup (row sel T).
Proof. unfold row. apply FinFun.Injective_map_NoDup; [intros x y E; congruence|apply seq_NoDup]. Qed.
Lemma NoDup_rows sel l : NoDup l -> NoDup (flat_map (row sel) l).
Proof.
  induction 1 as [|T l H N IH]; cbn [flat_map]; [constructor|]. apply BondGenMain.NoDup_app_intro; [apply NoDup_row|exact IH|].
  intros y I1 I2. apply in_map_iff in I1 as (k & <- & _). apply in_flat_map in I2 as (T' & HT & I2). apply in_map_iff in I2 as (k' & E & _). injection E as _ ->. auto.
Qed.
Lemma Ts_nodup b pts : NoDup pts -> NoDup (Ts b pts).
Proof. unfold Ts. destruct b; [|intros; repeat constructor; intros []]. destruct pts; cbn; [repeat constructor; intros []|auto]. Qed.
Lemma shown_ok S a sel k T : shown S a sel (k, T) (i_bond true S a sel (k, T)).
Proof.
  unfold shown. cbv zeta. unfold i_bond. cbn [b_site1 b_dist b_r01 fst]. split; [reflexivity|]. split; [exact (dist_err S a sel k T)|exact (comp_tol S a sel k T)].
Qed.
Lemma in_images b sel pts k T : In (k, T) (images b sel pts) <-> (k < length sel)%nat /\ In T (Ts b pts).
Proof.
  unfold images. rewrite in_flat_map. split.
  - intros (T' & HT & I). apply in_map_iff in I as (k' & E & Hk). injection E as -> ->. apply in_seq in Hk. split; [lia|exact HT].
  - intros [Hk HT]. exists T. split; [exact HT|]. unfold row. apply in_map_iff. exists k. split; [reflexivity|]. apply in_seq. lia.
Qed.

Theorem periodic_bonds S a sel (rmin rmax : R) : same_lattice S -> bpow radix2 (-299) <= fp_maxdiag S -> 0 <= rmax ->
  exists pts l v, visits (fp_sphmin S rmin) (fp_sphmax S rmax) (p_sph S) pts /\ loop_shows true S a sel rmin rmax pts l /\
    NoDup v /\ Forall2 (shown S a sel) v l /\
    (forall k T, In (k, T) v -> let j := nth k sel O in (k < length sel)%nat /\ within (- tol S a j T) rmin rmax (vnorm (apart S a j T))) /\
    (forall k T, let j := nth k sel O in (k < length sel)%nat -> ints T -> roomy S rmin rmax a j ->
       within (tol S a j T) rmin rmax (vnorm (apart S a j T)) -> In (k, T) v).
Proof.
  intros HS HD H0. pose proof HS as [HP _]. pose proof HP as [_ _ HC _ _ _]. pose proof (bpow_gt_0 radix2 (-300)) as P.
  set (pts := all_points (fp_sphmin S rmin) (fp_sphmax S rmax) (p_sph S)).
  assert (HV : visits (fp_sphmin S rmin) (fp_sphmax S rmax) (p_sph S) pts) by now apply visits_all.
  assert (ND : NoDup pts).
  { eapply SphereMain.SSorted_NoDup; [|apply all_sorted; lra]. intros [[m n] o] H. cbn in H. lia. }
  set (v := filter (i_valid true S a sel rmin rmax) (images true sel pts)).
  exists pts, (map (i_bond true S a sel) v), v. split; [exact HV|]. split; [intros g; apply bonds_all|].
  split; [apply NoDup_filter, NoDup_rows, Ts_nodup, ND|]. split.
  { clear. induction v as [|[k T] v IH]; cbn; constructor; auto. now apply shown_ok. }
  split.
  - intros k T I. apply filter_In in I as [I V]. apply in_images in I as [Hk _]. split; [exact Hk|]. exact (valid_sound S a sel rmin rmax k T V).
  - intros k T j Hk HI HR HW. apply filter_In. split; [|now apply valid_complete]. apply in_images. split; [exact Hk|].
    assert (TP : 0 <= tol S a j T). { unfold tol. pose proof (extent_pos S a j T). lra. }
    assert (IT : In T pts). { eapply (visited S a j T rmin rmax); eauto. destruct HW as [[H1 H2] _]. lra. }
    unfold Ts. destruct pts; [destruct IT|exact IT].
Qed.
