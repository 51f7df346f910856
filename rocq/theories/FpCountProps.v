(** C96: PairCounter in double arithmetic. *)
From Coq Require Import String Reals Lra Lia.
From Flocq Require Import Core.
From Verif Require Import RBase R3 Trig Lattice Crystal StructDiff StructDiffSpec Evaluator EvaluatorSpec AList Masks MasksSpec BondGen BondGenSpec World WorldSpec WorldAtoms WorldTotal WorldProps PairCount PairCountSpec PairCountProofs PairCountProps Fp FpSum FpSumSpec FpSumProofs FpSumMain.
Import ListNotations.
Open Scope R_scope.
Notation length := List.length.

(** only contributions are written down *)
Lemma recorded_all {stru cfg bond} (K : calc stru cfg bond R) (P : R -> Prop) : (forall c s b z, P (contrib K c s b z)) ->
  forall close ops c e t full fixed i n, Forall P (val (run (recorder K) close ops (init (recorder K) c e t full fixed i n))).
Proof.
  intros HP close ops c e t full fixed i n.
  pose (a1 := fun x y : {l : list R | Forall P l} => exist (fun l => Forall P l) (proj1_sig x ++ proj1_sig y)%list (proj2 (Forall_app P (proj1_sig x) (proj1_sig y)) (conj (proj2_sig x) (proj2_sig y)))).
  pose (c1 := fun c s b z => exist (fun l => Forall P l) [contrib K c s b z] (Forall_cons _ (HP c s b z) (Forall_nil P))).
  pose (z1 := exist (fun l => Forall P l) [] (Forall_nil P)).
  pose proof (map_run K z1 a1 c1 [] (fun a b => a ++ b)%list (fun c s b z => [contrib K c s b z]) (fun x => proj1_sig x) eq_refl (fun v c s b z => eq_refl) (fun _ _ => true) close ops (init (revalue K z1 a1 c1) c e t full fixed i n)) as E.
  change (st_map _ (init (revalue K z1 a1 c1) c e t full fixed i n)) with (init (recorder K) c e t full fixed i n) in E. fold (recorder K) in E. rewrite <- E. exact (proj2_sig (val (run (revalue K z1 a1 c1) (fun _ _ => true) ops (init (revalue K z1 a1 c1) c e t full fixed i n)))).
Qed.
(** the count on the machine is the number of pairs, as long as fewer than 2^52 pairs were counted *)
Theorem C96_pair_count : forall (objs : adp -> Prop) (sortf : list (catom * Z) -> list (catom * Z)),
  program objs -> (forall x, objs x -> ~ has_symmetry (env_of x)) -> sorts sortf ->
  forall (close : R -> R -> bool) (close' : list R -> list R -> bool) (fixed : bool) (c : kcfg) (e : wstru objs) (t : evtype) (full : bool) (ops : list (op (wstru objs) kcfg)) (s : wstru objs),
  Forall safe_op ops ->
  let K := pair_calc objs sortf counter in
  let x := run (machine K) close (ops ++ [OpEval s])%list (init (machine K) c e t full fixed 0 1) in
  weight (val (run (recorder K) close' (ops ++ [OpEval s])%list (init (recorder K) c e t full fixed 0 1))) <= 4503599627370496 ->
  forall P, neighbours counter (cf x) (wadp objs s) P ->
  exists m, ordered_pairs (cf x) (wadp objs s) P = (2 * m)%nat /\ int_of (val x) = Z.of_nat m.
Proof.
  intros objs sortf HO NS HS close close' fixed c e t full ops s Hs K x HW P HN.
  assert (EK : revalue K 0 Rplus (contrib K) = K) by reflexivity.
  destruct (machine_cf K close (fun _ _ => true) (ops ++ [OpEval s])%list c e t full fixed 0 1) as [E1 _]. rewrite EK in E1. fold x in E1.
  assert (V : val x = val (run K (fun _ _ => true) (ops ++ [OpEval s])%list (init K c e t full fixed 0 1))).
  { unfold x. rewrite (machine_val K _ close'). pose proof (exact_val K (fun _ _ => true) close' (ops ++ [OpEval s])%list c e t full fixed 0 1) as X. rewrite EK in X. rewrite X.
    apply (fp_sum_exact (-1)); [lia| |].
    - apply recorded_all. intros c' s' b z. exists z. cbn. lra.
    - eapply Rle_trans; [exact HW|]. cbn. lra. }
  rewrite E1 in HN |- *. destruct (C84_count objs sortf HO NS HS (fun _ _ => true) fixed c e t full ops s Hs) as [_ C]. fold K in C. destruct (C P HN) as (m & A & _ & B). exists m. split; [exact A|]. rewrite V. exact B.
Qed.
Print Assumptions C96_pair_count.
(** three atoms after two *)
Example C96_count_nonvacuous :
  let big : wstru clusters := exist _ (Adp 1 (Atomic [carbon vzero; carbon (V3 1 0 0); carbon (V3 0 2 0)])) (or_intror eq_refl) in
  let K := pair_calc clusters isort counter in
  program clusters /\ (forall x, clusters x -> ~ has_symmetry (env_of x)) /\ sorts isort /\
  exists P, neighbours counter (cf (run (machine K) (fun _ _ => true) [OpEval big] (init (machine K) counter0 big EvBasic false false 0 1))) (wadp clusters big) P.
Proof.
  cbv zeta. destruct C85_nonvacuous as (_ & A & B & C & _). split; [exact A|]. split; [exact B|]. split; [exact C|]. apply C85_neighbours. apply (p_good _ A). right. reflexivity.
Qed.
