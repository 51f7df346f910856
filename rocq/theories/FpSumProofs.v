(** Proofs: sums in double arithmetic. *)
From Coq Require Import Reals Lra Lia Permutation.
From Flocq Require Import Core Plus_error.
From Verif Require Import Base StructDiff Evaluator EvaluatorSpec Fp FpSum FpSumSpec.
Import ListNotations.
Open Scope R_scope.
Notation length := List.length.

(** *** one addition *)
Lemma add_err a b : dbl a -> dbl b -> Rabs (rnd (a + b) - (a + b)) <= u * Rabs (a + b).
Proof.
  intros Da Db. destruct (Rle_lt_dec (bpow radix2 (-1022)) (Rabs (a + b))) as [H|H]; [now apply rnd_rel|].
  assert (D : dbl (a + b)). { apply (FLT_format_plus_small radix2 (-1074) 53 a b Da Db). left. eapply Rlt_le_trans; [exact H|]. apply bpow_le. lia. }
  rewrite (rnd_id _ D), Rminus_diag_eq by reflexivity. rewrite Rabs_R0. apply Rmult_le_pos; [unfold u; lra|apply Rabs_pos].
Qed.
(** [v] is the machine's value of a sum [x] with weight [W] after at most [n] roundings *)
Record tracks (v x W : R) (n : nat) : Prop := { t_dbl : dbl v; t_small : Rabs x <= W; t_err : Rabs (v - x) <= drift n * W }.
Lemma drift_u n : drift n = (1 + u) ^ n - 1. Proof. reflexivity. Qed.
Lemma drift_0 : drift 0 = 0. Proof. unfold drift. cbn. lra. Qed.
Lemma pow_ge1 n : 1 <= (1 + u) ^ n. Proof. apply pow_R1_Rle. unfold u. lra. Qed.
Lemma drift_mono n m : (n <= m)%nat -> drift n <= drift m.
Proof. intros H. rewrite !drift_u. enough ((1 + u) ^ n <= (1 + u) ^ m) by lra. apply Rle_pow; [unfold u; lra|exact H]. Qed.
Lemma drift_pos n : 0 <= drift n. Proof. rewrite drift_u. pose proof (pow_ge1 n). lra. Qed.
Lemma tracks_more v x W n m : (n <= m)%nat -> tracks v x W n -> tracks v x W m.
Proof. intros H [D S E]. split; [exact D|exact S|]. eapply Rle_trans; [exact E|]. apply Rmult_le_compat_r; [pose proof (Rabs_pos x); lra|now apply drift_mono]. Qed.
Lemma tracks_one t : dbl t -> tracks t t (Rabs t) 0.
Proof. intros D. split; [exact D|lra|]. rewrite Rminus_diag_eq by reflexivity. rewrite Rabs_R0, drift_0. lra. Qed.
Lemma tracks_zero : tracks 0 0 0 0.
Proof. pose proof (tracks_one 0 dbl_0) as H. rewrite Rabs_R0 in H. exact H. Qed.
Lemma tracks_add v1 x1 W1 v2 x2 W2 n : tracks v1 x1 W1 n -> tracks v2 x2 W2 n -> tracks (fp_add v1 v2) (x1 + x2) (W1 + W2) (S n).
Proof.
  intros [D1 S1 E1] [D2 S2 E2]. split; [apply rnd_dbl|eapply Rle_trans; [apply Rabs_triang|lra]|]. unfold fp_add.
  pose proof (add_err v1 v2 D1 D2) as A. assert (U : 0 < u) by (unfold u; lra). pose proof (pow_ge1 n) as P.
  assert (B1 : Rabs (v1 - x1 + (v2 - x2)) <= drift n * (W1 + W2)) by (eapply Rle_trans; [apply Rabs_triang|lra]).
  assert (B2 : Rabs (v1 + v2) <= (1 + u) ^ n * (W1 + W2)).
  { replace (v1 + v2) with ((v1 - x1 + (v2 - x2)) + (x1 + x2)) by ring. eapply Rle_trans; [apply Rabs_triang|]. pose proof (Rabs_triang x1 x2). rewrite drift_u in B1. lra. }
  replace (rnd (v1 + v2) - (x1 + x2)) with ((rnd (v1 + v2) - (v1 + v2)) + (v1 - x1 + (v2 - x2))) by ring. eapply Rle_trans; [apply Rabs_triang|].
  assert (B3 : u * Rabs (v1 + v2) <= u * ((1 + u) ^ n * (W1 + W2))) by (apply Rmult_le_compat_l; lra). rewrite drift_u in *. cbn [pow]. lra.
Qed.
(** *** a list of terms, one after another *)
Definition fp_sum (l : list R) : R := fold_left fp_add l 0.
Lemma rsum_app l m : rsum (l ++ m) = rsum l + rsum m. Proof. unfold rsum. induction l as [|a l IH]; cbn; [ring|rewrite IH; ring]. Qed.
Lemma weight_app l m : weight (l ++ m) = weight l + weight m. Proof. unfold weight. now rewrite map_app, rsum_app. Qed.
Lemma rsum_perm l m : Permutation l m -> rsum l = rsum m. Proof. unfold rsum. induction 1; cbn; lra. Qed.
Lemma weight_perm l m : Permutation l m -> weight l = weight m. Proof. intros H. apply rsum_perm, Permutation_map, H. Qed.
Lemma weight_nonneg l : 0 <= weight l. Proof. unfold weight, rsum. induction l as [|a l IH]; cbn; [lra|]. pose proof (Rabs_pos a). lra. Qed.
Lemma fp_sum_snoc l t : fp_sum (l ++ [t]) = fp_add (fp_sum l) t. Proof. unfold fp_sum. now rewrite fold_left_app. Qed.
Lemma fp_sum_tracks l : Forall dbl l -> tracks (fp_sum l) (rsum l) (weight l) (length l).
Proof.
  induction l as [|t l IH] using rev_ind; intros F; [exact tracks_zero|]. apply Forall_app in F as [F Ft]. apply Forall_inv in Ft as Dt.
  rewrite fp_sum_snoc, rsum_app, weight_app, app_length. cbn [length]. replace (length l + 1)%nat with (S (length l)) by lia.
  replace (rsum [t]) with t by (cbn; ring). replace (weight [t]) with (Rabs t) by (cbn; ring). apply tracks_add; [now apply IH|]. apply tracks_more with (n := O); [lia|now apply tracks_one].
Qed.
(** partial sums added up in order *)
Lemma merged_tracks (ls : list (list R)) : Forall (Forall dbl) ls ->
  tracks (fold_left (fun a l => fp_add a (fp_sum l)) ls 0) (rsum (concat ls)) (weight (concat ls)) (length ls + length (concat ls)).
Proof.
  induction ls as [|l ls IH] using rev_ind; intros F; [exact tracks_zero|]. apply Forall_app in F as [F Fl]. apply Forall_inv in Fl as Dl.
  rewrite fold_left_app, concat_app, rsum_app, weight_app, !app_length. cbn [fold_left concat length]. rewrite app_nil_r.
  replace (length ls + 1 + (length (concat ls) + length l))%nat with (S (length ls + length (concat ls) + length l)) by lia.
  apply tracks_add; [apply tracks_more with (2 := IH F); lia|apply tracks_more with (2 := fp_sum_tracks l Dl); lia].
Qed.
(** *** exact sums: all terms are multiples of one power of two and the sum is small *)
Definition multiple (e : Z) (t : R) : Prop := exists n : Z, t = IZR n * bpow radix2 e.
Lemma multiple_dbl e t : (-1074 <= e)%Z -> multiple e t -> Rabs t <= bpow radix2 (e + 53) -> dbl t.
Proof.
  intros He (n & ->) H. destruct (Z.eq_dec (Z.abs n) (2 ^ 53)) as [E|N].
  - assert (B : IZR (2 ^ 53) = bpow radix2 53) by reflexivity. destruct (Z.abs_spec n) as [[_ Ea]|[_ Ea]].
    + replace n with (2 ^ 53)%Z by lia. rewrite B, <- bpow_plus. apply dbl_bpow. lia.
    + replace n with (- 2 ^ 53)%Z by lia. rewrite opp_IZR, B, Ropp_mult_distr_l_reverse, <- bpow_plus. apply dbl_opp, dbl_bpow. lia.
  - apply dbl_form; [|exact He]. rewrite Rabs_mult, (Rabs_pos_eq (bpow radix2 e)) in H by apply bpow_ge_0. rewrite <- abs_IZR, (Z.add_comm e 53), bpow_plus in H.
    apply Rmult_le_reg_r in H; [|apply bpow_gt_0]. change (bpow radix2 53) with (IZR (2 ^ 53)) in H. apply le_IZR in H. lia.
Qed.
Lemma multiple_add e a b : multiple e a -> multiple e b -> multiple e (a + b).
Proof. intros (n & ->) (m & ->). exists (n + m)%Z. rewrite plus_IZR. ring. Qed.
Lemma rsum_weight l : Rabs (rsum l) <= weight l.
Proof. unfold weight, rsum. induction l as [|a l IH]; cbn; [rewrite Rabs_R0; lra|]. eapply Rle_trans; [apply Rabs_triang|]. lra. Qed.
Lemma multiple_sum e l : Forall (multiple e) l -> multiple e (rsum l).
Proof. induction 1 as [|a l H F IH]; cbn; [exists 0%Z; cbn; ring|now apply multiple_add]. Qed.
Lemma fp_sum_exact e l : (-1074 <= e)%Z -> Forall (multiple e) l -> weight l <= bpow radix2 (e + 53) -> fp_sum l = rsum l.
Proof.
  intros He. induction l as [|t l IH] using rev_ind; intros F W; [reflexivity|]. pose proof F as F'. apply Forall_app in F as [F Ft]. rewrite weight_app in W. pose proof (weight_nonneg [t]).
  rewrite fp_sum_snoc, (IH F) by lra. unfold fp_add. replace (rsum l + t) with (rsum (l ++ [t])) by (rewrite rsum_app; cbn; ring). apply rnd_id. apply (multiple_dbl e); [exact He|now apply multiple_sum|].
  eapply Rle_trans; [apply rsum_weight|]. rewrite weight_app. lra.
Qed.

(** *** runs do the same with any kind of values *)
Definition st_map {stru cfg V W} (f : V -> W) (x : st stru cfg V) : st stru cfg W :=
  {| cf := cf x; ptick := ptick x; ms := ms x; val := f (val x); clock := clock x; kind := kind x; fullsum := fullsum x; fixedidx := fixedidx x;
     cpu := cpu x; ncpu := ncpu x; vtick := vtick x; last := last x; used := used x |}.
Section Map.
  Context {stru cfg bond V W1 W2 : Type} (K : calc stru cfg bond V).
  Context (z1 : W1) (a1 : W1 -> W1 -> W1) (c1 : cfg -> stru -> bond -> Z -> W1) (z2 : W2) (a2 : W2 -> W2 -> W2) (c2 : cfg -> stru -> bond -> Z -> W2) (f : W1 -> W2).
  Hypothesis (Hz : f z1 = z2) (Ha : forall v c s b z, f (a1 v (c1 c s b z)) = a2 (f v) (c2 c s b z)).
  Let K1 := revalue K z1 a1 c1.
  Let K2 := revalue K z2 a2 c2.
  Lemma map_trace c s t : forall v, f (apply_trace K1 c s t v) = apply_trace K2 c s t (f v).
  Proof. unfold apply_trace. induction t as [|e t IH]; intros v; cbn [fold_left]; [reflexivity|]. rewrite IH. f_equal. apply Ha. Qed.
  Lemma map_setStructure s x : st_map f (setStructure K1 s x) = setStructure K2 s (st_map f x).
  Proof. unfold setStructure. cbn [custom K1 K2 revalue cf st_map]. destruct (custom K s (cf x)) as [c b]. unfold st_map. cbn. now rewrite Hz. Qed.
  Lemma map_basic s x : st_map f (basic_update K1 s x) = basic_update K2 s (st_map f x).
  Proof.
    unfold basic_update. change (set_used EvBasic (st_map f x)) with (st_map f (set_used EvBasic x)). rewrite <- map_setStructure. set (y := setStructure K1 s (set_used EvBasic x)).
    unfold click_value, set_val, st_map. cbn. f_equal. apply map_trace.
  Qed.
  Lemma map_complete s x : st_map f (complete_update K1 s x) = complete_update K2 s (st_map f x).
  Proof. unfold complete_update. cbv zeta. rewrite <- map_basic. reflexivity. Qed.
  Lemma map_fast s0 s d x : st_map f (fast_update K1 s0 s d x) = fast_update K2 s0 s d (st_map f x).
  Proof.
    unfold fast_update. cbn [cf ms fullsum cpu ncpu val st_map]. change (rm_trace K2 (cf x) (ms x) s0 (fullsum x) (cpu x) (ncpu x) (pop0 d)) with (rm_trace K1 (cf x) (ms x) s0 (fullsum x) (cpu x) (ncpu x) (pop0 d)).
    destruct (rm_trace K1 (cf x) (ms x) s0 (fullsum x) (cpu x) (ncpu x) (pop0 d)) as [t0 n1]. rewrite <- map_trace. set (v := apply_trace K1 (cf x) (ms x) t0 (val x)).
    change (set_val (f v) (st_map f x)) with (st_map f (set_val v x)). rewrite <- map_setStructure. set (y := setStructure K1 s (set_val v x)). cbn [vtick ptick st_map].
    destruct (vtick y <=? ptick y)%Z; [apply map_complete|]. unfold click_value, set_last, set_val, st_map. cbn. f_equal. apply map_trace.
  Qed.
  Lemma map_optimized s x : st_map f (optimized_update K1 s x) = optimized_update K2 s (st_map f x).
  Proof.
    unfold optimized_update. change (set_used EvOptimized (st_map f x)) with (st_map f (set_used EvOptimized x)). set (y := set_used EvOptimized x). cbn [last vtick ptick fixedidx cf st_map].
    destruct (last y) as [s0|]; [|apply map_complete]. destruct (vtick y <=? ptick y)%Z; [apply map_complete|]. cbv zeta. cbn [sdif nsites haspairmask K1 K2 revalue].
    destruct (negb (allowsfast (nsites K s0) (length (pop0 (sdif K s0 s))))); [apply map_complete|]. destruct ((fixedidx y || haspairmask K (cf y)) && _); [apply map_complete|]. apply map_fast.
  Qed.
  Lemma map_finished (x : st stru cfg W1) : finished K1 x = x. Proof. unfold finished, set_val. cbn. now destruct x. Qed.
  Lemma map_finished2 (x : st stru cfg W2) : finished K2 x = x. Proof. unfold finished, set_val. cbn. now destruct x. Qed.
  (** the comparison of the CHECK evaluator decides on an exception only *)
  Lemma map_eval cl1 cl2 s x d1 d2 : st_map f (state_of (eval K1 cl1 s x) d1) = state_of (eval K2 cl2 s (st_map f x)) d2.
  Proof.
    unfold eval, update. cbn [kind st_map]. destruct (kind x); cbn [state_of]; rewrite ?map_finished, ?map_finished2; try apply map_basic; try apply map_optimized.
    unfold check_update. cbv zeta. rewrite <- map_optimized. set (y := optimized_update K1 s x). cbn [used st_map]. destruct (evtype_eqb (used y) EvBasic).
    - cbn [state_of]. now rewrite map_finished, map_finished2.
    - assert (E : forall o : bool, forall z : st stru cfg W1, state_of (match (if o then Ok z else Throw LogicError z) with Ok y => Ok (finished K1 y) | r => r end) d1 = z) by (intros [] z; cbn; now rewrite ?map_finished).
      assert (E2 : forall o : bool, forall z : st stru cfg W2, state_of (match (if o then Ok z else Throw LogicError z) with Ok y => Ok (finished K2 y) | r => r end) d2 = z) by (intros [] z; cbn; now rewrite ?map_finished2).
      rewrite E, E2. rewrite <- map_basic. reflexivity.
  Qed.
  Lemma map_step cl1 cl2 o x : st_map f (step K1 cl1 o x) = step K2 cl2 o (st_map f x).
  Proof.
    destruct o as [s| |g|s|t|b|i n]; cbn [step].
    - apply map_eval.
    - unfold eval_current. cbn [ms st_map]. apply map_eval.
    - reflexivity.
    - apply map_setStructure.
    - unfold setEvaluatorType. cbn [kind st_map]. destruct (evtype_eqb (kind x) t); [reflexivity|]. destruct t; cbn [state_of has_stash K1 K2 revalue]; try reflexivity.
      + unfold st_map. cbn. now rewrite Hz.
      + destruct (has_stash K); cbn [state_of]; [|reflexivity]. unfold st_map. cbn. now rewrite Hz.
      + destruct (has_stash K); cbn [state_of]; [|reflexivity]. unfold st_map. cbn. now rewrite Hz.
    - reflexivity.
    - unfold setupParallelRun. destruct (n <? 1); reflexivity.
  Qed.
  Lemma map_run cl1 cl2 ops : forall x, st_map f (run K1 cl1 ops x) = run K2 cl2 ops (st_map f x).
  Proof. unfold run. induction ops as [|o ops IH]; intros x; cbn [fold_left]; [reflexivity|]. now rewrite IH, (map_step cl1 cl2). Qed.
  Lemma map_init c e t full fixed i n : st_map f (init K1 c e t full fixed i n) = init K2 c e t full fixed i n.
  Proof. unfold init, st_map. cbn. now rewrite Hz. Qed.
End Map.
