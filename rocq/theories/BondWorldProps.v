(** Property C92: BondCalculator on structures. *)
From Coq Require Import String Sorting.Sorted.
From Verif Require Import RBase R3 Trig Lattice Crystal StructDiff StructDiffSpec Evaluator EvaluatorSpec BondGen BondGenSpec World WorldSpec WorldAtoms WorldMain WorldProps
  BondCalc BondCalcSpec BondCalcSim BondCalcMain BondWorld BondWorldSpec BondWorldProofs.
Import ListNotations.
Open Scope R_scope.
Notation length := List.length.

(** C92: after any history of evaluations of the structures of a program and of changes of the settings, eval(s) lists, in
    order, every bond of s within the limits that passes masks and cone filters, each once: also in crystals with symmetry
    operations, also when the OPTIMIZED evaluator only updates the list of the structure before. *)
Theorem C92_bonds_of_structure : forall (objs : adp -> Prop) (sortf : list (catom * Z) -> list (catom * Z)), program objs -> sorts sortf ->
  forall (outer : nat -> nat -> bool) (close : bval -> bval -> bool) (c : bsettings) (e : wstru objs) (t : evtype) (ops : list (op (wstru objs) bsettings)) (s : wstru objs),
  t <> EvCheck -> Forall bond_op ops ->
  let K := bond_calc (pair_calc objs sortf (bond_quantity outer)) bond_cones in
  let x := run K close (ops ++ [OpEval s]) (init K c e t true true 0 1) in
  exists l, bond_table (cf x) (wadp objs s) l /\
    bvalue (val x) = map e_dist l /\ distances (val x) = map e_dist l /\
    directions (val x) = map (fun b => V3 (e_d0 b) (e_d1 b) (e_d2 b)) l /\
    sites0 (val x) = map e_s0 l /\ sites1 (val x) = map e_s1 l.
Proof.
  intros objs sortf HO HS outer close c e t ops s Ht Hops K x.
  destruct (bonds_of_history _ _ _ _ _ _ (bond_world_ok objs sortf HO HS outer) close c e t ops s Ht Hops) as (l & A & B & C & D & _ & F & G & H).
  exists l. split; [now apply (table_of objs sortf HO outer)|]. repeat (split; [assumption|]). assumption.
Qed.
Print Assumptions C92_bonds_of_structure.
(** C92: the list is determined by structure and settings. *)
Theorem C92_unique : forall (c : bsettings) (x : adp) (l l' : list bentry), bond_table c x l -> bond_table c x l' -> l = l'.
Proof.
  intros c x l l' [S (bs & N & H & ->)] [S' (bs' & N' & H' & ->)]. rewrite <- !sorted_order in *. apply BondCalcProofs.sorted_unique; auto. apply Permutation_map, NoDup_Permutation; auto. intros b. now rewrite H, H'.
Qed.
Print Assumptions C92_unique.
(** C92: two or more new workers with the same settings give the same list, in whatever order their results arrive. *)
Theorem C92_workers : forall (objs : adp -> Prop) (sortf : list (catom * Z) -> list (catom * Z)), program objs -> sorts sortf ->
  forall (outer : nat -> nat -> bool) (close : bval -> bval -> bool) (c : bsettings) (e : wstru objs) (t : evtype) (ops : list (op (wstru objs) bsettings)) (s : wstru objs) (N : nat) (order : list nat),
  (2 <= N)%nat -> t <> EvCheck -> Forall setup_op ops -> Forall bond_op ops -> Permutation order (seq 0 N) ->
  let K := bond_calc (pair_calc objs sortf (bond_quantity outer)) bond_cones in
  let x k := run K close (ops ++ [OpEval s]) (init K c e t true true k N) in
  exists v, merge_all (map (fun k => getParallelData (val (x k))) order) N (bzero, O) = Ok (v, N) /\
    bond_table (cf (run K close (ops ++ [OpEval s]) (init K c e t true true 0 1))) (wadp objs s) (bonds v).
Proof.
  intros objs sortf HO HS outer close c e t ops s N order HN Ht Hs Hb HP K x.
  eexists. split; [exact (parallel_bonds _ _ close c e t ops s N order HN Hs HP)|].
  destruct (bonds_history _ _ _ _ _ _ (bond_world_ok objs sortf HO HS outer) close (fun _ _ => true) c e t ops s Ht Hb) as (A & B & _).
  destruct A as (A & _). apply (table_of objs sortf HO outer); [now apply sorted_order|exact B].
Qed.
Print Assumptions C92_workers.

(** The hypotheses are met by clusters and crystals of carbon (WorldProps); with a cone of 10 degrees about the x axis one bond of
    the second cluster is listed, another one is not. *)
Definition x_cone : bsettings := {| b_rmin := 0; b_rmax := 5; b_cones := [FilterCone (V3 0 3 0) 90; FilterOff; FilterCone (V3 2 0 0) 10]; b_masked := false; b_pairmask := false; b_mask := fun _ _ _ _ => true |}.
Definition cluster3 : adp := Adp 1 (Atomic [carbon vzero; carbon (V3 1 0 0); carbon (V3 0 2 0)]).
Lemma active_x : active (b_cones x_cone) = [(V3 2 0 0, 10)].
Proof.
  cbn [b_cones x_cone]. unfold active. cbn [fold_left active_step].
  assert (N : vnorm (V3 2 0 0) = 2). { unfold vnorm, vdot. cbn [vx vy vz]. replace (2 * 2 + 0 * 0 + 0 * 0) with (2 * 2) by ring. apply sqrt_square. lra. }
  rewrite N. destruct (Rlt_dec _ 2); [reflexivity|lra].
Qed.
Example C92_nonvacuous : program clusters /\ program crystals /\ sorts isort /\ clusters cluster3 /\
  listed x_cone cluster3 (0, 1, (0, 0, (0, 0, 0)%Z))%nat /\ ~ listed x_cone cluster3 (0, 2, (0, 0, (0, 0, 0)%Z))%nat.
Proof.
  pose proof C85_nonvacuous as (A & B & _ & C & _). split; [exact B|]. split; [exact A|]. split; [exact C|]. split; [now right|].
  assert (V1 : bond_vector cluster3 (0, 1, (0, 0, (0, 0, 0)%Z))%nat = V3 1 0 0).
  { unfold bond_vector, cluster3. cbn. unfold vsub, vadd, vscale. cbn. f_equal; ring. }
  assert (V2 : bond_vector cluster3 (0, 2, (0, 0, (0, 0, 0)%Z))%nat = V3 0 2 0).
  { unfold bond_vector, cluster3. cbn. unfold vsub, vadd, vscale. cbn. f_equal; ring. }
  assert (N1 : vnorm (V3 1 0 0) = 1). { unfold vnorm, vdot. cbn [vx vy vz]. replace (1 * 1 + 0 * 0 + 0 * 0) with 1 by ring. apply sqrt_1. }
  assert (N2 : vnorm (V3 0 2 0) = 2). { unfold vnorm, vdot. cbn [vx vy vz]. replace (0 * 0 + 2 * 2 + 0 * 0) with (2 * 2) by ring. apply sqrt_square. lra. }
  assert (N3 : vnorm (V3 2 0 0) = 2). { unfold vnorm, vdot. cbn [vx vy vz]. replace (2 * 2 + 0 * 0 + 0 * 0) with (2 * 2) by ring. apply sqrt_square. lra. }
  pose proof PI_RGT_0 as HPI. unfold listed. rewrite V1, V2, N1, N2. split.
  - split; [cbn; lia|]. split; [cbn; lia|]. split; [cbn; auto|]. split; [cbn; lra|]. split; [lra|]. split; [discriminate|].
    right. exists (V3 2 0 0), 10. split; [rewrite active_x; now left|]. right. exists 0. split; [lra|]. rewrite N1, N3, cos_0. split; [unfold vdot; cbn [vx vy vz]; ring|].
    replace (0 * 180 / PI) with 0 by (field; lra). lra.
  - intros (_ & _ & _ & _ & _ & _ & [H|(ax & deg & H & HC)]); [rewrite active_x in H; discriminate|].
    rewrite active_x in H. destruct H as [[= <- <-]|[]]. destruct HC as [HC|(t & Ht & HD & HT)]; [lra|]. rewrite N2, N3 in HD. unfold vdot in HD. cbn [vx vy vz] in HD.
    assert (t < PI / 2). { apply (Rmult_le_compat_r PI) in HT; [|lra]. replace (t * 180 / PI * PI) with (t * 180) in HT by (field; lra). lra. }
    pose proof (cos_gt_0 t ltac:(lra) ltac:(lra)). lra.
Qed.
