(** C96: sums of pair contributions in double arithmetic. *)
From Coq Require Import Reals Lra Lia Permutation.
From Flocq Require Import Core.
From Verif Require Import Base StructDiff StructDiffSpec Evaluator EvaluatorSpec EvaluatorProofs EvaluatorMore EvaluatorExample Fp FpSum FpSumSpec FpSumProofs FpSumMain.
Import ListNotations.
Open Scope R_scope.
Notation length := List.length.

(** after any history, with any evaluator: the value on the machine and the exact sum over all pairs *)
Theorem C96_history : forall (stru cfg bond : Type) (K : calc stru cfg bond R) (opp : R -> R) (pairs : cfg -> stru -> nat -> nat -> list bond) (A E : Type)
    (atoms : stru -> list A) (env : stru -> E) (w : cfg -> E -> Z -> nat -> A -> nat -> A -> R) (exactly := revalue K 0 Rplus (contrib K)),
  calc_ok exactly opp pairs atoms env w ->
  forall (close : R -> R -> bool) (close' : list R -> list R -> bool) (fixed : bool) (c : cfg) (e : stru) (t : evtype) (full : bool) (ops : list (op stru cfg)) (s : stru),
  fixed = true \/ index_free exactly w -> Forall safe_op ops -> mode_ok exactly w full ops ->
  let x := run (machine K) close (ops ++ [OpEval s]) (init (machine K) c e t full fixed 0 1) in
  let added := val (run (recorder K) close' (ops ++ [OpEval s]) (init (recorder K) c e t full fixed 0 1)) in
  Forall dbl added ->
  Rabs (val x - total exactly pairs (fullsum x) (cf x) s) <= drift (length added) * weight added.
Proof.
  intros stru cfg bond K opp pairs A E atoms env w exactly OK close close' fixed c e t full ops s HF Hs Hm x added HD.
  pose proof (serial_history exactly opp pairs atoms env w OK (fun _ _ => true) fixed c e t full ops s HF Hs Hm) as H. cbv zeta in H.
  destruct (machine_cf K close (fun _ _ => true) (ops ++ [OpEval s]) c e t full fixed 0 1) as [E1 E2]. fold exactly in E1, E2. fold x in E1, E2. rewrite <- E1, <- E2 in H. rewrite <- H.
  unfold exactly, x. rewrite (exact_val K _ close'), (machine_val K _ close'). fold added. exact (t_err _ _ _ _ (fp_sum_tracks added HD)).
Qed.
Print Assumptions C96_history.

(** N workers with any history, merged in any order *)
Theorem C96_merged : forall (stru cfg bond : Type) (K : calc stru cfg bond R) (opp : R -> R) (pairs : cfg -> stru -> nat -> nat -> list bond) (A E : Type)
    (atoms : stru -> list A) (env : stru -> E) (w : cfg -> E -> Z -> nat -> A -> nat -> A -> R) (exactly := revalue K 0 Rplus (contrib K)),
  calc_ok exactly opp pairs atoms env w ->
  forall (close : R -> R -> bool) (close' : list R -> list R -> bool) (N : nat) (fixed : bool) (c : cfg) (e : stru) (t : evtype) (full : bool) (ops : list (op stru cfg)) (s : stru) (order : list nat),
  (1 <= N)%nat -> fixed = true \/ index_free exactly w -> Forall safe_op ops -> mode_ok exactly w full ops -> Permutation order (seq 0 N) ->
  let x k := run (machine K) close (ops ++ [OpEval s]) (init (machine K) c e t full fixed k N) in
  let added := flat_map (fun k => val (run (recorder K) close' (ops ++ [OpEval s]) (init (recorder K) c e t full fixed k N))) order in
  Forall dbl added ->
  Rabs (fold_left (fun a k => fp_add a (val (x k))) order 0 - total exactly pairs (fullsum (x O)) (cf (x O)) s) <= drift (N + length added) * weight added.
Proof.
  intros stru cfg bond K opp pairs A E atoms env w exactly OK close close' N fixed c e t full ops s order HN HF Hs Hm Ho x added HD.
  pose proof (merged_history exactly opp pairs atoms env w OK (fun _ _ => true) N fixed c e t full ops s order HN HF Hs Hm Ho) as H. cbv beta zeta in H.
  destruct (machine_cf K close (fun _ _ => true) (ops ++ [OpEval s]) c e t full fixed 0 N) as [E1 E2]. fold exactly in E1, E2. fold (x O) in E1, E2. rewrite <- E1, <- E2 in H. rewrite <- H.
  set (L := fun k => val (run (recorder K) close' (ops ++ [OpEval s]) (init (recorder K) c e t full fixed k N))) in *.
  assert (M : fold_left (fun a k => fp_add a (val (x k))) order 0 = fold_left (fun a l => fp_add a (fp_sum l)) (map L order) 0).
  { generalize 0. clear. induction order as [|k order IH]; intros a; cbn [fold_left map]; [reflexivity|]. unfold x at 2. rewrite (machine_val K _ close'). apply IH. }
  assert (X : fold_left (fun acc k => add exactly acc (val (run exactly (fun _ _ => true) (ops ++ [OpEval s]) (init exactly c e t full fixed k N)))) order (zero exactly) = rsum (concat (map L order))).
  { assert (EX : forall k, val (run exactly (fun _ _ => true) (ops ++ [OpEval s]) (init exactly c e t full fixed k N)) = rsum (L k)) by (intros k; apply exact_val).
    rewrite <- (Rplus_0_l (rsum _)). change (zero exactly) with 0. generalize 0. clear -EX. induction order as [|k order IH]; intros a; cbn [fold_left map concat]; [cbn; ring|]. rewrite IH, rsum_app, EX. cbn [add exactly revalue]. ring. }
  rewrite M, X. assert (EA : added = concat (map L order)) by (unfold added; apply flat_map_concat_map). rewrite EA.
  assert (FD : Forall (Forall dbl) (map L order)). { rewrite EA in HD. apply Forall_forall. intros l Hl. apply Forall_forall. intros r Hr. rewrite Forall_forall in HD. apply HD. apply in_concat. eauto. }
  pose proof (t_err _ _ _ _ (merged_tracks (map L order) FD)) as T. rewrite map_length in T. rewrite (Permutation_length Ho), seq_length in T. exact T.
Qed.
Print Assumptions C96_merged.

(** BASIC evaluations: every unmasked bond is added once; the bound in terms of the structure alone *)
Theorem C96_serial : forall (stru cfg bond : Type) (K : calc stru cfg bond R) (s : stru) (x : st stru cfg R),
  (forall c i j, hasmask K c = false -> mask K c s i j = true) -> ncpu x = 1%nat ->
  let y := basic_update (machine K) s x in
  let terms := map (fun b => contrib K (cf y) s (fst b) (snd b)) (serial_work K (cf y) s (fullsum x)) in
  Forall dbl terms -> Rabs (val y - rsum terms) <= drift (length terms) * weight terms.
Proof.
  intros stru cfg bond K s x Hm Hn y terms HD. unfold y at 1. rewrite machine_basic. fold y. rewrite Hn, basic_trace_serial, (basic_all_work K (cf y) s (fullsum x)) by apply Hm.
  exact (t_err _ _ _ _ (fp_sum_tracks terms HD)).
Qed.
Print Assumptions C96_serial.
(** and N workers against one *)
Theorem C96_parallel_serial : forall (stru cfg bond : Type) (K : calc stru cfg bond R) (s : stru) (c : cfg) (full : bool) (N : nat) (order : list nat) (x : nat -> st stru cfg R) (x1 : st stru cfg R),
  (forall c i j, hasmask K c = false -> mask K c s i j = true) -> (1 <= N)%nat -> Permutation order (seq 0 N) ->
  (forall k, cf (x k) = c /\ fullsum (x k) = full /\ cpu (x k) = k /\ ncpu (x k) = N) -> cf x1 = c -> fullsum x1 = full -> ncpu x1 = 1%nat ->
  let y k := basic_update (machine K) s (x k) in
  let y1 := basic_update (machine K) s x1 in
  let terms := map (fun b => contrib K (cf y1) s (fst b) (snd b)) (serial_work K (cf y1) s full) in
  Forall dbl terms ->
  Rabs (fold_left (fun a k => fp_add a (val (y k))) order 0 - rsum terms) <= drift (N + length terms) * weight terms /\
  Rabs (fold_left (fun a k => fp_add a (val (y k))) order 0 - val y1) <= 2 * drift (N + length terms) * weight terms.
Proof.
  intros stru cfg bond K s c full N order x x1 Hm HN Ho Hx Hc1 Hf1 Hn1 y y1 terms HD.
  set (c' := fst (custom K s c)).
  assert (CF : forall z : st stru cfg R, cf z = c -> cf (basic_update (machine K) s z) = c').
  { intros z <-. unfold c', basic_update, setStructure. cbn [custom machine revalue cf set_used]. destruct (custom K s (cf z)) as [a b]. reflexivity. }
  set (L := fun k => map (fun b => contrib K c' s (fst b) (snd b)) (basic_trace K c' s full k N)).
  assert (V : forall k, val (y k) = fp_sum (L k)). { intros k. unfold y. rewrite machine_basic. destruct (Hx k) as (E1 & E2 & E3 & E4). rewrite (CF _ E1), E2, E3, E4. reflexivity. }
  assert (M : fold_left (fun a k => fp_add a (val (y k))) order 0 = fold_left (fun a l => fp_add a (fp_sum l)) (map L order) 0).
  { generalize 0. clear -V. induction order as [|k order IH]; intros a; cbn [fold_left map]; [reflexivity|]. rewrite V. apply IH. }
  assert (P : Permutation (concat (map L order)) terms).
  { unfold terms, y1. rewrite (CF _ Hc1). rewrite <- flat_map_concat_map. unfold L. rewrite <- (work_partition K c' s full N HN (Hm c')).
    transitivity (flat_map (fun k => map (fun b => contrib K c' s (fst b) (snd b)) (basic_trace K c' s full k N)) (seq 0 N)); [now apply Permutation_flat_map|].
    generalize (seq 0 N). intros l. induction l as [|k l IH]; cbn [flat_map map]; [constructor|]. rewrite map_app. now apply Permutation_app_head. }
  assert (FD : Forall (Forall dbl) (map L order)).
  { apply Forall_forall. intros l Hl. apply Forall_forall. intros r Hr. rewrite Forall_forall in HD. apply HD. apply (Permutation_in _ P). apply in_concat. eauto. }
  pose proof (t_err _ _ _ _ (merged_tracks (map L order) FD)) as T. rewrite map_length, (Permutation_length Ho), seq_length, (rsum_perm _ _ P), (weight_perm _ _ P), (Permutation_length P) in T. rewrite <- M in T.
  split; [exact T|]. pose proof (C96_serial stru cfg bond K s x1 Hm Hn1) as S1. cbv zeta in S1. fold y1 in S1. rewrite Hf1 in S1. fold terms in S1. specialize (S1 HD).
  assert (S2 : drift (length terms) * weight terms <= drift (N + length terms) * weight terms) by (apply Rmult_le_compat_r; [apply weight_nonneg|apply drift_mono; lia]).
  replace (fold_left (fun a k => fp_add a (val (y k))) order 0 - val y1) with ((fold_left (fun a k => fp_add a (val (y k))) order 0 - rsum terms) + - (val y1 - rsum terms)) by ring.
  eapply Rle_trans; [apply Rabs_triang|]. rewrite Rabs_Ropp. lra.
Qed.
Print Assumptions C96_parallel_serial.

(** sums are exact, whatever the evaluator and the history, when the contributions are multiples of one power of two and their
    absolute values add up to no more than 2^53 of it *)
Theorem C96_exact : forall (stru cfg bond : Type) (K : calc stru cfg bond R) (opp : R -> R) (pairs : cfg -> stru -> nat -> nat -> list bond) (A E : Type)
    (atoms : stru -> list A) (env : stru -> E) (w : cfg -> E -> Z -> nat -> A -> nat -> A -> R) (exactly := revalue K 0 Rplus (contrib K)),
  calc_ok exactly opp pairs atoms env w ->
  forall (close : R -> R -> bool) (close' : list R -> list R -> bool) (fixed : bool) (c : cfg) (e : stru) (t : evtype) (full : bool) (ops : list (op stru cfg)) (s : stru) (g : Z),
  fixed = true \/ index_free exactly w -> Forall safe_op ops -> mode_ok exactly w full ops ->
  let x := run (machine K) close (ops ++ [OpEval s]) (init (machine K) c e t full fixed 0 1) in
  let added := val (run (recorder K) close' (ops ++ [OpEval s]) (init (recorder K) c e t full fixed 0 1)) in
  (-1074 <= g)%Z -> Forall (fun v => exists n, v = IZR n * bpow radix2 g) added -> weight added <= bpow radix2 (g + 53) ->
  val x = total exactly pairs (fullsum x) (cf x) s.
Proof.
  intros stru cfg bond K opp pairs A E atoms env w exactly OK close close' fixed c e t full ops s g HF Hs Hm x added Hg HM HW.
  pose proof (serial_history exactly opp pairs atoms env w OK (fun _ _ => true) fixed c e t full ops s HF Hs Hm) as H. cbv zeta in H.
  destruct (machine_cf K close (fun _ _ => true) (ops ++ [OpEval s]) c e t full fixed 0 1) as [E1 E2]. fold exactly in E1, E2. fold x in E1, E2. rewrite <- E1, <- E2 in H. rewrite <- H.
  unfold exactly, x. rewrite (exact_val K _ close'), (machine_val K _ close'). fold added. now apply (fp_sum_exact g).
Qed.
Print Assumptions C96_exact.

(** the calculator of EvaluatorExample.v with doubles: pairs on a line, squared distances *)
Definition RK : calc (list Z) ecfg (nat * nat) R := revalue EK 0 Rplus (fun c s b z => IZR (contrib EK c s b z)).
Definition rw (c : ecfg) (e : unit) (z : Z) (i : nat) (a : Z) (j : nat) (b : Z) : R := IZR (ew c e z i a j b).
Lemma RK_ok : calc_ok (revalue RK 0 Rplus (contrib RK)) Ropp epairs (fun s => s) (fun _ => tt) rw.
Proof.
  destruct EK_ok as [? ? ? ? ? ? ? ? od we ? ? ? ? ?]. split; try assumption; try (intros; cbn; ring); try reflexivity.
  - intros c s b z. cbn -[Z.mul Z.pow]. rewrite <- opp_IZR. f_equal. lia.
  - intros c s z i j a b Ha Hb. unfold rw. rewrite <- (we c s z i j a b Ha Hb). unfold pair_value. cbn [mask RK revalue]. destruct (mask EK c s i j); [|reflexivity].
    unfold sum. induction (epairs c s i j) as [|p l IH]; cbn [map fold_right]; [reflexivity|]. cbn [add RK revalue contrib EK zero] in *. rewrite plus_IZR. f_equal. exact IH.
Qed.
Lemma RK_modes ops : Forall no_mode_change ops -> mode_ok (revalue RK 0 Rplus (contrib RK)) rw false ops.
Proof.
  intros H. split; [right|left; exact H]. intros c e z i a j b. unfold rw. f_equal. apply EK_two_way.
Qed.
(** four atoms; then the last one moves out of reach. The fast update subtracts the large contribution from a sum that it had swamped *)
Definition far : list Z := [0; 1; 10000000000; 10134217728]%Z.
Definition gone : list Z := [0; 1; 10000000000; 50000000000]%Z.
Definition line : ecfg := {| reach := 200000000; nopairs := [] |}.
Lemma recorded : val (run (recorder RK) (fun _ _ => true) [OpEval far; OpEval gone] (init (recorder RK) line [] EvOptimized false true 0 1)) = [2; 36028797018963968; -36028797018963968].
Proof.
  pose (ZK := revalue EK [] (fun a b => a ++ b) (fun c s b z => [contrib EK c s b z])).
  assert (E := map_run EK [] (fun a b : list Z => a ++ b) (fun c s b z => [contrib EK c s b z]) [] (fun a b : list R => a ++ b) (fun c s b z => [IZR (contrib EK c s b z)]) (map IZR) eq_refl (fun v c s b z => map_app IZR v [contrib EK c s b z])
    (fun _ _ => true) (fun _ _ => true) [OpEval far; OpEval gone] (init ZK line [] EvOptimized false true 0 1)).
  assert (I : st_map (map IZR) (init ZK line [] EvOptimized false true 0 1) = init (recorder RK) line [] EvOptimized false true 0 1) by reflexivity.
  assert (G : val (run ZK (fun _ _ => true) [OpEval far; OpEval gone] (init ZK line [] EvOptimized false true 0 1)) = [2; 36028797018963968; -36028797018963968]%Z) by (vm_compute; reflexivity).
  apply (f_equal val) in E. change (val (st_map (map IZR) ?x)) with (map IZR (val x)) in E. fold ZK in E. rewrite G, I in E. cbn [map] in E. symmetry. exact E.
Qed.
Lemma big_dbl : dbl 36028797018963968.
Proof. replace 36028797018963968 with (bpow radix2 55) by (cbn; lra). apply dbl_bpow. lia. Qed.
Lemma swamped : rnd (2 + 36028797018963968) = 36028797018963968.
Proof.
  apply Rle_antisym.
  - assert (A := add_err 2 36028797018963968 (dbl_Z 2 ltac:(lia)) big_dbl). destruct (Rle_lt_dec (rnd (2 + 36028797018963968)) 36028797018963968) as [H|H]; [exact H|exfalso].
    assert (D := rnd_dbl (2 + 36028797018963968)). assert (E : succ radix2 fexp 36028797018963968 <= rnd (2 + 36028797018963968)) by (apply succ_le_lt; try assumption; [typeclasses eauto|apply big_dbl]).
    assert (U : succ radix2 fexp 36028797018963968 = 36028797018963968 + 8).
    { rewrite succ_eq_pos by lra. f_equal. replace 36028797018963968 with (bpow radix2 55) by (cbn; lra). rewrite ulp_bpow. cbn. lra. }
    rewrite U in E. rewrite (Rabs_pos_eq (2 + _)) in A by lra. apply Rabs_le_inv in A. unfold u in A. lra.
  - apply rnd_ge_dbl; [lra|apply big_dbl].
Qed.
(** OPTIMIZED does not give what BASIC gives on the machine: here 0 instead of 2 *)
Theorem C96_optimized_is_basic_refuted : ~ (forall (stru cfg bond : Type) (K : calc stru cfg bond R) (opp : R -> R) (pairs : cfg -> stru -> nat -> nat -> list bond) (A E : Type)
    (atoms : stru -> list A) (env : stru -> E) (w : cfg -> E -> Z -> nat -> A -> nat -> A -> R) (exactly := revalue K 0 Rplus (contrib K)),
  calc_ok exactly opp pairs atoms env w ->
  forall (close : R -> R -> bool) (close' : list R -> list R -> bool) (c : cfg) (e : stru) (full : bool) (ops : list (op stru cfg)) (s : stru),
  Forall safe_op ops -> mode_ok exactly w full ops ->
  Forall dbl (val (run (recorder K) close' (ops ++ [OpEval s]) (init (recorder K) c e EvOptimized full true 0 1))) ->
  val (run (machine K) close (ops ++ [OpEval s]) (init (machine K) c e EvOptimized full true 0 1)) =
  val (run (machine K) close (ops ++ [OpEval s]) (init (machine K) c e EvBasic full true 0 1))).
Proof.
  intros H. specialize (H _ _ _ RK Ropp epairs _ _ _ _ rw RK_ok (fun _ _ => true) (fun _ _ => true) line [] false [OpEval far] gone). cbn [app] in H. rewrite recorded in H.
  specialize (H ltac:(repeat constructor) (RK_modes [OpEval far] ltac:(repeat constructor))).
  assert (D : Forall dbl [2; 36028797018963968; -36028797018963968]). { repeat constructor; [apply (dbl_Z 2); lia|apply big_dbl|apply dbl_opp, big_dbl]. }
  specialize (H D). rewrite (machine_val RK _ (fun _ _ => true)), recorded in H.
  assert (L : fp_sum [2; 36028797018963968; -36028797018963968] = 0).
  { unfold fp_sum, fp_add. cbn [fold_left]. rewrite Rplus_0_l, (rnd_id 2) by (apply (dbl_Z 2); lia). rewrite swamped. rewrite Rplus_opp_r. apply rnd_0. }
  rewrite L in H. rewrite (machine_val RK _ (fun _ _ => true)) in H.
  assert (B : val (run (recorder RK) (fun _ _ => true) [OpEval far; OpEval gone] (init (recorder RK) line [] EvBasic false true 0 1)) = [2]).
  { pose (ZK := revalue EK [] (fun a b => a ++ b) (fun c s b z => [contrib EK c s b z])).
    assert (E := map_run EK [] (fun a b : list Z => a ++ b) (fun c s b z => [contrib EK c s b z]) [] (fun a b : list R => a ++ b) (fun c s b z => [IZR (contrib EK c s b z)]) (map IZR) eq_refl (fun v c s b z => map_app IZR v [contrib EK c s b z])
      (fun _ _ => true) (fun _ _ => true) [OpEval far; OpEval gone] (init ZK line [] EvBasic false true 0 1)).
    assert (I : st_map (map IZR) (init ZK line [] EvBasic false true 0 1) = init (recorder RK) line [] EvBasic false true 0 1) by reflexivity.
    assert (G : val (run ZK (fun _ _ => true) [OpEval far; OpEval gone] (init ZK line [] EvBasic false true 0 1)) = [2]%Z) by (vm_compute; reflexivity).
    apply (f_equal val) in E. change (val (st_map (map IZR) ?x)) with (map IZR (val x)) in E. fold ZK in E. rewrite G, I in E. cbn [map] in E. symmetry. exact E. }
  rewrite B in H. unfold fp_sum, fp_add in H. cbn [fold_left] in H. rewrite Rplus_0_l, (rnd_id 2) in H by (apply (dbl_Z 2); lia). lra.
Qed.
Print Assumptions C96_optimized_is_basic_refuted.
(** the hypotheses hold there: the bound is 3 roundings on a weight of 2^56 + 2, which allows the error of 2 *)
Example C96_nonvacuous : Rabs (val (run (machine RK) (fun _ _ => true) [OpEval far; OpEval gone] (init (machine RK) line [] EvOptimized false true 0 1)) - 2) <= drift 3 * 72057594037927938.
Proof.
  pose proof (C96_history _ _ _ RK Ropp epairs _ _ _ _ rw RK_ok (fun _ _ => true) (fun _ _ => true) true line [] EvOptimized false [OpEval far] gone (or_introl eq_refl) ltac:(repeat constructor) (RK_modes [OpEval far] ltac:(repeat constructor))) as H. cbv zeta in H. cbn [app] in H.
  rewrite recorded in H. assert (D : Forall dbl [2; 36028797018963968; -36028797018963968]) by (repeat constructor; [apply (dbl_Z 2); lia|apply big_dbl|apply dbl_opp, big_dbl]). specialize (H D).
  replace (weight [2; 36028797018963968; -36028797018963968]) with 72057594037927938 in H by (unfold weight; cbn [map rsum fold_right]; rewrite (Rabs_left (-36028797018963968)), !Rabs_pos_eq by lra; lra).
  cbn [length] in H. replace 2 with (total (revalue RK 0 Rplus (contrib RK)) epairs false line gone) at 1; [|vm_compute; lra]. exact H.
Qed.
