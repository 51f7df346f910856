(** Values of runs in double arithmetic. *)
From Coq Require Import Reals Lra Lia Permutation.
From Flocq Require Import Core.
From Verif Require Import Base StructDiff Evaluator EvaluatorSpec EvaluatorProofs EvaluatorMore Fp FpSum FpSumSpec FpSumProofs.
Import ListNotations.
Open Scope R_scope.
Notation length := List.length.

Lemma fold_rsum l : forall v, fold_left Rplus l v = v + rsum l.
Proof. unfold rsum. induction l as [|a l IH]; intros v; cbn; [ring|rewrite IH; ring]. Qed.
Section Runs.
  Context {stru cfg bond : Type} (K : calc stru cfg bond R).
  Notation exactly := (revalue K 0 Rplus (contrib K)).
  Lemma machine_run close close' ops c e t full fixed i n :
    st_map fp_sum (run (recorder K) close' ops (init (recorder K) c e t full fixed i n)) = run (machine K) close ops (init (machine K) c e t full fixed i n).
  Proof.
    unfold recorder, machine. rewrite (map_run K [] (fun a b => a ++ b) (fun c s b z => [contrib K c s b z]) 0 fp_add (contrib K) fp_sum eq_refl (fun v c s b z => fp_sum_snoc v (contrib K c s b z)) close' close).
    f_equal.
  Qed.
  Lemma exact_run close close' ops c e t full fixed i n :
    st_map rsum (run (recorder K) close' ops (init (recorder K) c e t full fixed i n)) = run exactly close ops (init exactly c e t full fixed i n).
  Proof.
    unfold recorder. assert (HA : forall v c s b z, rsum (v ++ [contrib K c s b z]) = rsum v + contrib K c s b z) by (intros; rewrite rsum_app; cbn; ring).
    rewrite (map_run K [] (fun a b => a ++ b) (fun c s b z => [contrib K c s b z]) 0 Rplus (contrib K) rsum eq_refl HA close' close). f_equal.
  Qed.
  Lemma machine_val close close' ops c e t full fixed i n :
    val (run (machine K) close ops (init (machine K) c e t full fixed i n)) = fp_sum (val (run (recorder K) close' ops (init (recorder K) c e t full fixed i n))).
  Proof. now rewrite <- (machine_run close close'). Qed.
  Lemma exact_val close close' ops c e t full fixed i n :
    val (run exactly close ops (init exactly c e t full fixed i n)) = rsum (val (run (recorder K) close' ops (init (recorder K) c e t full fixed i n))).
  Proof. now rewrite <- (exact_run close close'). Qed.
  Lemma machine_cf close close' ops c e t full fixed i n :
    cf (run (machine K) close ops (init (machine K) c e t full fixed i n)) = cf (run exactly close' ops (init exactly c e t full fixed i n)) /\
    fullsum (run (machine K) close ops (init (machine K) c e t full fixed i n)) = fullsum (run exactly close' ops (init exactly c e t full fixed i n)).
  Proof. rewrite <- (machine_run close (fun _ _ => true)), <- (exact_run close' (fun _ _ => true)). split; reflexivity. Qed.

  (** complete evaluations *)
  Definition work (c : cfg) (s : stru) (full : bool) : list R := map (fun e => contrib K c s (fst e) (snd e)) (serial_work K c s full).
  Lemma apply_fold c s t : forall v, apply_trace (machine K) c s t v = fold_left fp_add (map (fun e => contrib K c s (fst e) (snd e)) t) v.
  Proof. unfold apply_trace. induction t as [|e t IH]; intros v; cbn [fold_left map]; [reflexivity|]. apply IH. Qed.
  Lemma machine_basic s (x : st stru cfg R) : let y := basic_update (machine K) s x in
    val y = fp_sum (map (fun e => contrib K (cf y) s (fst e) (snd e)) (basic_trace K (cf y) s (fullsum x) (cpu x) (ncpu x))).
  Proof.
    cbv zeta. unfold basic_update, setStructure. cbn [custom machine revalue cf set_used]. destruct (custom K s (cf x)) as [c' b]. cbn -[apply_trace]. rewrite apply_fold. reflexivity.
  Qed.
End Runs.
