(** Property C103: structures edited in place. *)
From Verif Require Import RBase StructDiff Evaluator EvaluatorSpec EvaluatorHist EvaluatorRun EvaluatorMore EvaluatorExample Live LiveSpec LiveProofs LiveMain.
Open Scope nat_scope.

(** C103: whatever the program does with its structures between the calls, a calculator is at every moment in the state it would have
    if each call had been given a structure of its own with the contents of that moment; also through wrappers and by eval(). *)
Theorem C103_as_told : forall (stru cfg bond V wrap : Type) (K : calc stru cfg bond V) (close : V -> V -> bool) (seen : wrap -> stru -> stru)
    (c : cfg) (empty : stru) (t : evtype) (full fixed : bool) (i n : nat) (ops : list (lop stru cfg wrap)),
  same_to_user (core (lrun K close seen ops (lstart K c empty t full fixed i n)))
               (run K close (told seen empty [] None ops) (init K c empty t full fixed i n)).
Proof.
  intros stru cfg bond V wrap K close seen c empty t full fixed i n ops.
  destruct (start_agrees K seen empty c t full fixed i n) as [A E].
  apply (abs_same seen). rewrite (proj1 (history K close seen empty [] None ops _ A)). now rewrite E.
Qed.
Print Assumptions C103_as_told.

(** C103: eval of any object, after any history of edits, evaluations and changes of the settings: the value is the total over the pairs of
    the contents the object has now. *)
Theorem C103_value_of_the_present_contents : forall (stru cfg bond V wrap : Type) (K : calc stru cfg bond V)
    (opp : V -> V) (pairs : cfg -> stru -> nat -> nat -> list bond) (A E : Type)
    (atoms : stru -> list A) (env : stru -> E) (w : cfg -> E -> Z -> nat -> A -> nat -> A -> V),
  calc_ok K opp pairs atoms env w ->
  forall (close : V -> V -> bool) (seen : wrap -> stru -> stru) (fixed : bool) (c : cfg) (empty : stru) (t : evtype) (full : bool)
         (ops : list (lop stru cfg wrap)) (u : uptr wrap) (s : stru),
  fixed = true \/ index_free K w -> Forall lsafe ops -> mode_ok K w full (told seen empty [] None ops) ->
  look seen (now ops) u = Some s ->
  let x := core (lrun K close seen (ops ++ [LEval u]) (lstart K c empty t full fixed 0 1)) in
  val x = total K pairs (fullsum x) (cf x) s.
Proof.
  intros stru cfg bond V wrap K opp pairs A E atoms env w OK close seen fixed c empty t full ops u s HF HS HM HL x.
  assert (ET : told seen empty [] None (ops ++ [LEval u]) = told seen empty [] None ops ++ [OpEval s]).
  { assert (G : forall ops l cur, look seen (fold_left (fun l o => match o with LNew s => l ++ [s] | LEdit k s => upd k s l | _ => l end) ops l) u = Some s ->
      @told stru cfg wrap seen empty l cur (ops ++ [LEval u]) = told seen empty l cur ops ++ [OpEval s]).
    { clear. intros ops. induction ops as [|o ops IH]; intros l cur H; cbn [app told fold_left] in *; [now rewrite H|].
      destruct o; cbn [told] in *; try (rewrite IH by exact H; reflexivity).
      - destruct (look seen l u0); rewrite IH by exact H; reflexivity.
      - destruct (look seen l u0); rewrite IH by exact H; reflexivity. }
    apply G. exact HL. }
  assert (HT : Forall safe_op (told seen empty [] None ops)).
  { assert (G : forall ops l cur, Forall lsafe ops -> Forall safe_op (@told stru cfg wrap seen empty l cur ops)).
    { clear. intros ops. induction ops as [|o ops IH]; intros l cur H; cbn [told]; [constructor|]. inversion H as [|? ? H1 H2]; subst.
      destruct o; cbn [told lsafe] in *; try contradiction; try (constructor; [exact I|]); try (apply IH; exact H2).
      destruct (look seen l u); [constructor; [exact I|]|]; apply IH; exact H2. }
    apply G. exact HS. }
  destruct (C103_as_told stru cfg bond V wrap K close seen c empty t full fixed 0 1 (ops ++ [LEval u])) as (S1 & S2 & S3 & S4 & S5 & _).
  fold x in S1, S2, S5. rewrite S1, S2, S5, ET.
  exact (serial_history K opp pairs atoms env w OK close fixed c empty t full (told seen empty [] None ops) s HF HT HM).
Qed.
Print Assumptions C103_value_of_the_present_contents.

(** C103, defect: results computed from *mstructure after an edit mix the evaluated sites with the present ones. bvdiff() reads outside of its
    arrays exactly when there are more sites than were evaluated ... *)
Theorem C103_bvdiff_bounds : forall (vobs vsim : list R) (cntsites : nat), length vobs = length vsim ->
  (bvdiff_now vobs vsim cntsites = None <-> length vobs < cntsites).
Proof.
  intros vobs vsim cntsites E. unfold bvdiff_now.
  assert (G : forall l, (optall (map (fun i => match nth_error vobs i, nth_error vsim i with Some a, Some b => Some (Rabs a - Rabs b)%R | _, _ => None end) l) = None)
                 <-> exists i, In i l /\ length vobs <= i).
  { induction l as [|i l IH]; cbn [map optall].
    - split; [discriminate|]. intros (i & [] & _).
    - destruct (nth_error vobs i) as [a|] eqn:E1.
      + assert (I1 : i < length vobs) by (apply nth_error_Some; congruence).
        destruct (nth_error vsim i) as [b|] eqn:E2; [|apply nth_error_None in E2; lia].
        destruct (optall _) as [r|] eqn:EO.
        * split; [discriminate|]. intros (j & [<-|Hj] & HL); [lia|]. assert (H : Some r = None) by (apply IH; eauto). discriminate.
        * split; [|auto]. intros _. destruct (proj1 IH eq_refl) as (j & Hj & HL). exists j. split; [now right|exact HL].
      + apply nth_error_None in E1. split; [|auto]. intros _. exists i. split; [now left|exact E1]. }
  rewrite G. split; [intros (i & Hi & HL); apply in_seq in Hi; lia|]. intros H. exists (length vobs). split; [apply in_seq; lia|lia].
Qed.
Print Assumptions C103_bvdiff_bounds.

(** ... and siteSquareOverlaps() reads or writes outside of its arrays exactly when an overlapping site is gone. *)
Theorem C103_overlap_bounds : forall (rows : list (nat * nat * R)) (occ : list R),
  siteSquareOverlaps_now rows occ = None <->
  exists i j olp, In (i, j, olp) rows /\ (0 < olp)%R /\ (length occ <= i \/ length occ <= j).
Proof.
  intros rows occ. unfold siteSquareOverlaps_now.
  set (f := fun rv row => _).
  assert (N : forall l, fold_left f l None = None) by (induction l; auto).
  assert (G : forall l v, length v = length occ ->
    (fold_left f l (Some v) = None <-> exists i j olp, In (i, j, olp) l /\ (0 < olp)%R /\ (length occ <= i \/ length occ <= j))).
  { induction l as [|[[i j] olp] l IH]; intros v HV; cbn [fold_left].
    - split; [discriminate|]. intros (i & j & o & [] & _).
    - assert (STEP : forall v', length v' = length occ -> (~ ((0 < olp)%R /\ (length occ <= i \/ length occ <= j))) ->
        (fold_left f l (Some v') = None <-> exists i' j' o, In (i', j', o) ((i, j, olp) :: l) /\ (0 < o)%R /\ (length occ <= i' \/ length occ <= j'))).
      { intros v' HV' HN. rewrite (IH v' HV'). split.
        - intros (i' & j' & o & H1 & H2). exists i', j', o. split; [now right|exact H2].
        - intros (i' & j' & o & [H1|H1] & H2); [injection H1 as <- <- <-; contradiction|]. exists i', j', o. auto. }
      unfold f at 2. destruct (Rleb olp 0) eqn:EO.
      + apply Rleb_true in EO. apply STEP; auto. intros [H _]. apply (Rlt_irrefl 0). eapply Rlt_le_trans; eauto.
      + apply Rleb_false in EO. destruct (nth_error v i) as [a|] eqn:E1.
        * assert (I1 : i < length occ) by (rewrite <- HV; apply nth_error_Some; congruence).
          destruct (nth_error occ j) as [o|] eqn:E2.
          -- assert (I2 : j < length occ) by (apply nth_error_Some; congruence). apply STEP; [now rewrite upd_length|lia].
          -- apply nth_error_None in E2. rewrite N. split; [|auto]. intros _. exists i, j, olp. split; [now left|]. auto.
        * apply nth_error_None in E1. rewrite N. split; [|auto]. intros _. exists i, j, olp. split; [now left|]. split; [exact EO|left; lia]. }
  specialize (G rows (repeat 0%R (length occ)) (repeat_length _ _)). rewrite <- G. destruct (fold_left f rows (Some (repeat 0%R (length occ)))); cbn; split; congruence.
Qed.
Print Assumptions C103_overlap_bounds.

(** C103, defect, for structures: a molecule of two sites is evaluated, then an atom is appended (bond valences) or removed (overlaps). *)
Theorem C103_results_after_edit_refuted :
  bvdiff_now [1; -2]%R [1; -2]%R 3 = None /\ siteSquareOverlaps_now [(0, 1, 1%R); (1, 0, 1%R)] [1%R] = None /\
  bvdiff_now [1; -2]%R [1; -2]%R 2 <> None /\ siteSquareOverlaps_now [(0, 1, 1%R); (1, 0, 1%R)] [1; 1]%R <> None.
Proof.
  split; [apply C103_bvdiff_bounds; cbn; lia|]. split.
  - apply C103_overlap_bounds. exists 0, 1, 1%R. cbn. split; [now left|]. split; [apply Rlt_0_1|lia].
  - split.
    + intros H. apply C103_bvdiff_bounds in H; cbn in *; lia.
    + intros H. apply C103_overlap_bounds in H as (i & j & o & HI & _ & HL). cbn in *. destruct HI as [HI|[HI|[]]]; injection HI as <- <- <-; lia.
Qed.
Print Assumptions C103_results_after_edit_refuted.

(** C103: a program that moves and appends atoms, evaluates through a wrapper and by eval(); both evaluators were used and the values follow. *)
Definition editing : list (lop (list Z) ecfg unit) :=
  [LNew [0; 3; 9; 20; 31; 43]%Z; LNew [5; 6]%Z; LEval (UObj 0); LEdit 0 [0; 4; 9; 20; 31; 43]%Z; LEvalCurrent;
   LEdit 0 [0; 4; 9; 20; 31; 43; 44]%Z; LEval (UWrap tt (UObj 0)); LEval (UObj 1); LEdit 1 [5; 8]%Z].
Definition line : ecfg := {| reach := 10; nopairs := [] |}.
Example C103_nonvacuous :
  Forall lsafe editing /\ now editing = [[0; 4; 9; 20; 31; 43; 44]%Z; [5; 8]%Z] /\
  look (fun (_ : unit) (s : list Z) => s) (now editing) (UWrap tt (UObj 0)) = Some [0; 4; 9; 20; 31; 43; 44]%Z /\
  (let x k := core (lrun EK Z.eqb (fun (_ : unit) s => s) (firstn k editing) (lstart EK line [] EvOptimized true true 0 1)) in
   used (x 3) = EvBasic /\ used (x 5) = EvOptimized /\ used (x 7) = EvOptimized /\ val (x 3) <> val (x 5) /\ val (x 5) <> val (x 7) /\
   val (x 5) = total EK epairs true line [0; 4; 9; 20; 31; 43]%Z).
Proof.
  split; [repeat constructor|]. split; [reflexivity|]. split; [reflexivity|]. cbv zeta. repeat split; vm_compute; try reflexivity; discriminate.
Qed.
