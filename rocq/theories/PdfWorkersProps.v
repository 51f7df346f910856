(** C93: PDFs computed by several workers on structures. *)
From Coq Require Import String Permutation.
From Verif Require Merge MergeProofs.
From Verif Require Import RBase R3 Trig Sums Lattice LatticeSpec Crystal CrystalExample StructDiff StructDiffSpec Evaluator PeakWidth PdfGrid PdfSpec PdfProofs PdfMain PdfFinal PdfExample Debye DebyeSpec DebyeProofs DebyeSum DebyeMain DebyeExample DebyeExample2 DebyeProps
  BondGen World WorldSpec Visited VisitedSpec VisitedCalc VisitedProps Shares SiteSums PdfWorkers PdfWorkersProofs.
Import ListNotations.
Open Scope R_scope.
Notation length := List.length.

(** DebyePDFCalculator: the work is split among N copies of a calculator with any history, taken before or after the structure
    was set; their values merged in any order give the calculator just as a serial evaluation leaves it, or the exception
    which that throws. C87 says what its value is. *)
Theorem C93_debye ops sf mw env d x w masked mask full outer dk cnt nf N order :
  good_env (env_of x) -> drun ops (newDebye sf mw env) = Ok d -> (1 <= N)%nat -> Permutation order (seq 0 N) ->
  (forall k, (k < N)%nat -> dk k = d \/ Debye.setStructure (debye_view x) d = Ok (dk k)) ->
  debye_merged outer w masked mask full x d dk cnt nf N order = debye_eval w masked mask full x d.
Proof. intros GE Hd. apply debye_merge; [exact GE|exact (reach_dinv _ _ _ _ _ Hd)]. Qed.
Print Assumptions C93_debye.
(** PDFCalculator: the same. C88 says what its value is. *)
Theorem C93_pdf ops pk sf env e d x w masked mask full outer dk cnt nf N order :
  prun ops (newPDF pk sf env e) = Ok d -> (1 <= N)%nat -> Permutation order (seq 0 N) ->
  (forall k, (k < N)%nat -> dk k = d \/ dk k = PdfGrid.setStructure (pdf_view w x) d) ->
  pdf_merged outer w masked mask full x d dk cnt nf N order = pdf_eval w masked mask full x d.
Proof.
  intros Hd. apply pdf_merge. destruct (prun_ok ops pk sf env e) as (z & Ez & Wz). rewrite Hd in Ez. injection Ez as ->. exact (wf_conf _ Wz).
Qed.
Print Assumptions C93_pdf.
(** Setting a structure again changes nothing in a DebyePDFCalculator. *)
Theorem C93_set_again ops sf mw env d s y : drun ops (newDebye sf mw env) = Ok d -> Debye.setStructure s d = Ok y -> Debye.setStructure s y = Ok y.
Proof. intros Hd. exact (set_twice s d y (reach_dinv _ _ _ _ _ Hd)). Qed.
Print Assumptions C93_set_again.
Lemma history_sizes : exists y1 y2,
  drun [DRstep 1; DEval narrow []] (newDebye sf1 mw2 []) = Ok y1 /\ drun [DRstep 1; DEval wide []; DEval narrow []] (newDebye sf1 mw2 []) = Ok y2 /\
  (length (dval y1) <= 100 < length (dval y2))%nat.
Proof.
  destruct new_rstep1 as (x & E & Hx & Ho & Hh & A1 & A2 & A3 & A4 & A5 & A6 & A7). pose proof PI_34 as Hpi.
  assert (Hoq : forall n, 12 <= n -> oqstep 25 (n * 1) = PI / n). { intros n Hn. unfold oqstep. replace (Rltb 4 (25 * (n * 1) / PI)) with true; [now rewrite Rmult_1_r|]. symmetry. apply Rltb_true. apply lt_div_iff; lra. }
  assert (H1 : exists y1, drun [DRstep 1; DEval narrow []] (newDebye sf1 mw2 []) = Ok y1 /\ (length (dval y1) <= 100)%nat).
  { destruct (set_opt_ok narrow x 12%Z Hx Ho) as (y & Es & Hy & Hcur & _ & Hc & _ & _ & Hq & Hd & _); [lra| |rewrite A3; lra|].
    - rewrite cache_lims. cbn [with_ds dc ds chisteps]. rewrite nhi_narrow by auto. destruct (Z.leb_spec 12 (chisteps x - 50)); [reflexivity|lia].
    - exists y. change [DRstep 1; DEval narrow []] with ([DRstep 1] ++ [DEval narrow []]). rewrite drun_app, E. unfold drun_from. rewrite (eval_nil narrow x y Es).
      split; [reflexivity|]. destruct Hcur as (_ & _ & -> & _). rewrite A3, A4, Hoq in Hq by lra.
      assert (Hm : k_qmax (dc y) = 25) by (rewrite Hd; exact A4). enough (qmaxSteps (dc y) <= 100)%Z by lia. apply Z.nlt_ge. rewrite qmaxSteps_lt' by apply Hy. rewrite Hq, Hm. lra. }
  assert (H2 : exists y2, drun [DRstep 1; DEval wide []; DEval narrow []] (newDebye sf1 mw2 []) = Ok y2 /\ (100 < length (dval y2))%nat).
  { destruct (set_opt_ok wide x 20%Z Hx Ho) as (y & Es & Hy & Hcur & _ & Hc & Hoy & _ & Hq & Hd & _); [lra| |rewrite A3; lra|].
    - rewrite cache_lims. cbn [with_ds dc ds chisteps]. rewrite nhi_wide by auto. destruct (Z.leb_spec 20 (chisteps x - 50)); [reflexivity|lia].
    - assert (B : k_rmax (dc y) = 10 /\ k_rstep (dc y) = 1 /\ k_maxext (dc y) = 10 /\ k_mw (dc y) = mw2 /\ k_qmax (dc y) = 25) by (rewrite Hd; cbn; auto).
      destruct B as (B1 & B2 & B3 & B4 & B5).
      destruct (set_opt_ok narrow y 20%Z Hy Hoy) as (z & Es2 & Hz & Hcz & _ & Hcz' & _ & _ & Hqz & Hdz & _); [lra| |rewrite B2; lra|].
      + rewrite cache_lims. cbn [with_ds dc ds chisteps]. rewrite nhi_narrow by auto. rewrite Hc. reflexivity.
      + exists z. change [DRstep 1; DEval wide []; DEval narrow []] with (([DRstep 1] ++ [DEval wide []]) ++ [DEval narrow []]). rewrite !drun_app, E. unfold drun_from. rewrite (eval_nil wide x y Es), (eval_nil narrow y z Es2).
        split; [reflexivity|]. destruct Hcz as (_ & _ & -> & _). rewrite B2, B5, Hoq in Hqz by lra.
        assert (Hm : k_qmax (dc z) = 25) by (rewrite Hdz; exact B5). enough (100 < qmaxSteps (dc z))%Z by lia. rewrite qmaxSteps_lt' by apply Hz. rewrite Hqz, Hm. lra. }
  destruct H1 as (y1 & ? & ?), H2 as (y2 & ? & ?). exists y1, y2. auto.
Qed.
(** Calculators that are not copies but have the same settings cannot always be merged: the value of one that has evaluated
    another structure before can have another size, then the merge throws. *)
Theorem C93_equal_settings_refuted : exists sf mw env ops1 ops2 s y1 y2,
  drun (ops1 ++ [DEval s []]) (newDebye sf mw env) = Ok y1 /\ drun (ops2 ++ [DEval s []]) (newDebye sf mw env) = Ok y2 /\
  (forall o, In o ops2 -> In o ops1 \/ exists s', o = DEval s' []) /\ (forall o, In o ops1 -> In o ops2) /\
  forall ncpu nf, (0 < ncpu)%Z -> let m := {| Merge.mval := dval y1; Merge.mcount := 0; Merge.nfinish := nf |} in
    Merge.mergeParallelData Rplus (fun v => v) (dval y2) ncpu m = Throw InvalidArgument m.
Proof.
  destruct history_sizes as (y1 & y2 & E1 & E2 & L). exists sf1, mw2, [], [DRstep 1], [DRstep 1; DEval wide []], narrow, y1, y2.
  split; [exact E1|]. split; [exact E2|]. split; [intros o [<-|[<-|[]]]; [left; now left|right; eauto]|]. split; [intros o [<-|[]]; now left|].
  intros ncpu nf Hn m. apply MergeProofs.merge_bad; [exact Hn|]. cbn [Merge.mval m]. lia.
Qed.
Print Assumptions C93_equal_settings_refuted.
(** A crystal, two workers that report in the reverse order, one copied before and one after the structure was set. *)
Example C93_nonvacuous : exists d y z, good_env (env_of alloy) /\ drun [] (newDebye sf1 mw2 []) = Ok d /\ Debye.setStructure (debye_view alloy) d = Ok y /\ debye_eval PWDebyeWaller false (fun _ _ => true) false alloy d = Ok z /\
  Permutation [1; 0]%nat (seq 0 2) /\ prun [] (newPDF ex_box ex_sf [] ex_none) = Ok ex_start /\ (0 < length (dval z))%nat.
Proof.
  destruct C87_nonvacuous as (d & z & P & GE & Hd & Hz & _ & _ & _ & _ & _ & HL & _).
  assert (HS : exists y, Debye.setStructure (debye_view alloy) d = Ok y). { unfold debye_eval in Hz. destruct (Debye.setStructure (debye_view alloy) d); [eauto|discriminate|discriminate]. }
  destruct HS as [y Hy]. exists d, y, z. repeat (split; [assumption|]). split; [apply perm_swap|]. split; [reflexivity|]. lia.
Qed.
