(** A concrete world for BondCalculator: atoms on a line at whole positions (EvaluatorExample.v). *)
From Coq Require Import Sorting.Sorted.
From Verif Require Import RBase R3 Trig Lattice BondGen StructDiff StructDiffSpec StructDiffProofs Evaluator EvaluatorSpec
  EvaluatorExample BondCalc BondCalcSpec BondCalcProofs BondCalcSim BondCalcMain.
Open Scope nat_scope.

Definition zbond (i : nat) (a : Z) (j : nat) (b : Z) : bond :=
  {| b_site0 := i; b_site1 := j; b_r0 := V3 (IZR a) 0 0; b_r1 := V3 (IZR b) 0 0; b_r01 := V3 (IZR (b - a)) 0 0;
     b_distance := IZR (Z.abs (b - a)); b_u1 := mid |}.
Definition zpairs (c : ecfg * cones) (s : list Z) (i j : nat) : list bond :=
  if near (fst c) (edist s i j) then [zbond i (nth i s 0%Z) j (nth j s 0%Z)] else [].
Definition ZW : calc (list Z) (ecfg * cones) bond unit := {|
  zero := tt; add := fun _ _ => tt; Evaluator.nsites := @length Z;
  Evaluator.gen := fun c s i sel => flat_map (zpairs c s i) sel;
  Evaluator.site1 := b_site1;
  hasmask := fun c => hasmask EK (fst c); haspairmask := fun c => haspairmask EK (fst c);
  mask := fun c s i j => negb (excluded (fst c) i j);
  contrib := fun _ _ _ _ => tt; custom := fun s c => (c, false); sdif := ediff;
  outer_ok := outer_ok EK; has_stash := true; restash := fun v => v; finish := fun _ v => v |}.
Definition zwe (c : ecfg * cones) (_ : unit) (i : nat) (a : Z) (j : nat) (b : Z) : list bentry :=
  if excluded (fst c) i j then [] else
  if near (fst c) (Z.abs (a - b)) then map entryFrom (filter (passes (snd c)) [zbond i a j b]) else [].
Lemma ZW_ok : world_ok ZW snd zpairs (fun s => s) (fun _ => tt) zwe.
Proof.
  split; auto.
  - intros c s i j b. unfold zpairs. destruct (near _ _); cbn; [intros [<-|[]]; auto|intros []].
  - intros [c k] s i j. cbn. unfold excluded. destruct (nopairs c); [reflexivity|discriminate].
  - intros c s i j a b Ha Hb. unfold pair_entries, zwe, zpairs. change line_of with entryFrom. cbn [mask ZW]. destruct (excluded (fst c) i j); cbn [negb]; auto.
    unfold edist. rewrite (nth_error_nth _ _ 0%Z Ha), (nth_error_nth _ _ 0%Z Hb). destruct (near _ _); auto.
  - intros s0 s1. apply (diff_ok _ _ _ _ _ _ EK_ok s0 s1).
Qed.

Definition zc (n : Z) : ecfg * cones := ({| reach := n; nopairs := [] |}, cones0).
Notation ZK := (bond_calc ZW snd).
Definition s6 : list Z := [1; 2; 4; 8; 16; 32]%Z.
Definition s6' : list Z := [1; 3; 4; 8; 16; 32]%Z.

(** workers that are used again *)
Lemma reused : let x k := run ZK bclose [OpEval [0; 3]%Z; OpEval [0; 3]%Z] (init ZK (zc 10) [] EvOptimized true true k 2) in
  merge_all (map (fun k => getParallelData (val (x k))) [0; 1]) 2 (bzero, 0) = Ok (bzero, 2).
Proof. vm_compute. reflexivity. Qed.
Lemma serial_two : let x := run ZK bclose [OpEval [0; 3]%Z; OpEval [0; 3]%Z] (init ZK (zc 10) [] EvOptimized true true 0 1) in
  length (bonds (val x)) = 2.
Proof.
  cbv zeta.
  destruct (bonds_history ZW snd zpairs _ _ zwe ZW_ok bclose (fun _ _ => true) (zc 10) [] EvOptimized [OpEval [0; 3]%Z] [0; 3]%Z) as (_ & P & _).
  - discriminate.
  - repeat constructor.
  - cbn [app] in P. rewrite (Permutation_length P). vm_compute. reflexivity.
Qed.
Lemma fast_used : used (run ZK bclose [OpEval s6; OpEval s6'] (init ZK (zc 10) [] EvOptimized true true 0 1)) = EvOptimized.
Proof. vm_compute. reflexivity. Qed.

(** a CHECK calculator that evaluated some bonds *)
Definition xcheck := run ZK bclose [OpEval s6] (init ZK (zc 10) [] EvCheck true true 0 1).
Lemma xcheck_ok : kind xcheck = EvCheck /\ bonds (val xcheck) <> [] /\ used (optimized_update ZK s6' xcheck) <> EvBasic.
Proof.
  assert (F : fresh (init ZK (zc 10) [] EvCheck true true 0 1)) by (split; reflexivity).
  split; [vm_compute; reflexivity|]. split; [|vm_compute; discriminate].
  destruct (fresh_eval ZW snd bclose s6 _ (init ZK (zc 10) [] EvCheck true true 0 1) F) as [E1 E2].
  assert (EX : xcheck = state_of (eval ZK bclose s6 (init ZK (zc 10) [] EvCheck true true 0 1)) (init ZK (zc 10) [] EvCheck true true 0 1))
    by (unfold xcheck, run; cbn [fold_left step]; reflexivity).
  rewrite <- EX in E1, E2.
  rewrite E2, E1. rewrite finish_adds. cbn [ncpu init Nat.ltb Nat.leb bonds]. intros H. apply (f_equal (@length _)) in H.
  rewrite <- (Permutation_length (sort_perm _)) in H. vm_compute in H. discriminate.
Qed.
