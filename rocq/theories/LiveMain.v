(** Proofs for C103: histories. *)
From Verif Require Import RBase StructDiff Evaluator EvaluatorSpec Live LiveSpec LiveProofs.
Open Scope nat_scope.

Section Hist.
  Context {stru cfg bond V wrap : Type} (K : calc stru cfg bond V) (close : V -> V -> bool) (seen : wrap -> stru -> stru) (empty : stru).
  Notation live := (live stru cfg V wrap).
  Notation read := (read seen).

  (** the memory holds what the specification says *)
  Record agrees (l : list stru) (cur : option (uptr wrap)) (x : live) : Prop := {
    ag_wf : wf x;
    ag_nodup : NoDup (objs (mem x));
    ag_cells : map (cell (mem x)) (objs (mem x)) = l;
    ag_empty : cell (mem x) 0 = empty;
    ag_cur : match cur with Some u => resolve (mem x) u = Some (ms (core x)) | None => ms (core x) = PObj 0 end
  }.

  Lemma look_read l cur x u : agrees l cur x -> look seen l u = option_map (read (mem x)) (resolve (mem x) u).
  Proof.
    intros [_ _ E _ _]. induction u as [k|w u IH]; cbn.
    - rewrite <- E, nth_error_map. now destruct (nth_error (objs (mem x)) k).
    - rewrite IH. now destruct (resolve (mem x) u).
  Qed.
  Lemma resolve_theirs (m : memory stru) u p : @resolve stru wrap m u = Some p -> theirs m (root p).
  Proof.
    revert p. induction u as [k|w u IH]; cbn; intros p.
    - destruct (nth_error (objs m) k) eqn:E; cbn; [|discriminate]. intros H. injection H as <-. right. eapply nth_error_In; eauto.
    - destruct (resolve m u) eqn:E; cbn; [|discriminate]. intros H. injection H as <-. cbn. auto.
  Qed.
  Lemma resolve_objs (m m' : memory stru) u : objs m' = objs m -> @resolve stru wrap m' u = resolve m u.
  Proof. intros E. induction u as [k|w u IH]; cbn; [now rewrite E|now rewrite IH]. Qed.
  (** addresses are handed out in order *)
  Lemma resolve_more (m m' : memory stru) u p a : objs m' = objs m ++ [a] -> @resolve stru wrap m u = Some p -> resolve m' u = Some p.
  Proof.
    intros E. revert p. induction u as [k|w u IH]; cbn; intros p.
    - destruct (nth_error (objs m) k) eqn:EN; cbn; [|discriminate]. rewrite E, nth_error_app1 by (apply nth_error_Some; congruence). now rewrite EN.
    - destruct (resolve m u) eqn:ER; cbn; [|discriminate]. rewrite (IH _ eq_refl). auto.
  Qed.

  Lemma current_read l cur x : agrees l cur x -> look_current seen empty l cur = read (mem x) (ms (core x)) /\ theirs (mem x) (root (ms (core x))).
  Proof.
    intros A. split; [|apply (ag_wf _ _ _ A)]. unfold look_current. pose proof (ag_cur _ _ _ A) as HC. destruct cur as [u|].
    - rewrite (look_read l (Some u) x u A), HC. reflexivity.
    - rewrite HC. cbn. symmetry. apply A.
  Qed.

  (** evaluations and setStructure keep the agreement *)
  Lemma agrees_kept l cur cur' x y : agrees l cur x -> kept seen x y ->
    match cur' with Some u => resolve (mem x) u = Some (ms (core y)) | None => ms (core y) = PObj 0 end -> agrees l cur' y.
  Proof.
    intros [W ND E E0 C] (WY & EO & RY) HC. split; auto.
    - now rewrite EO.
    - rewrite EO, <- E. apply map_ext_in. intros a Ha. apply (RY (PObj a)). right. exact Ha.
    - rewrite <- E0. apply (RY (PObj 0)). now left.
    - destruct cur' as [u|]; auto. now rewrite (resolve_objs (mem x)).
  Qed.

  Lemma agrees_with l cur x f : agrees l cur x -> ms (f (core x)) = ms (core x) ->
    (last (f (core x)) = last (core x) \/ last (f (core x)) = None) -> agrees l cur (with_core f x).
  Proof.
    intros [W ND E E0 C] H1 H2. split; auto; cbn; rewrite ?H1; auto. destruct W as [W1 W2 W3 W4]. split; cbn; rewrite ?H1; auto.
    intros q HQ. destruct H2 as [H2|H2]; rewrite H2 in HQ; [auto|discriminate].
  Qed.

  Lemma map_edit (c : nat -> stru) k a s (l : list nat) : NoDup l -> nth_error l k = Some a ->
    map (fun b => if b =? a then s else c b) l = upd k s (map c l).
  Proof.
    revert k. induction l as [|b l IH]; intros [|k] ND HK; cbn in HK; try discriminate; inversion ND as [|? ? N1 N2]; subst.
    - injection HK as ->. cbn. rewrite Nat.eqb_refl. f_equal. apply map_ext_in. intros d Hd. destruct (Nat.eqb_spec d a); [subst; contradiction|reflexivity].
    - cbn. destruct (Nat.eqb_spec b a) as [->|]; [apply nth_error_In in HK; contradiction|]. f_equal. now apply IH.
  Qed.
  Lemma upd_none {A} k (s : A) l : nth_error l k = None -> upd k s l = l.
  Proof. revert k. induction l as [|b l IH]; intros [|k] H; cbn in *; try discriminate; auto. now rewrite IH. Qed.

  Lemma history l cur ops : forall x, agrees l cur x ->
    let y := lrun K close seen ops x in
    abs seen y = run K close (told seen empty l cur ops) (abs seen x) /\
    exists cur', agrees (fold_left (fun l o => match o with LNew s => l ++ [s] | LEdit k s => upd k s l | _ => l end) ops l) cur' y.
  Proof.
    revert l cur. induction ops as [|o ops IH]; intros l cur x A.
    - cbn. split; eauto.
    - cbv zeta. cbn [lrun fold_left]. change (fold_left (fun y o => lstep K close seen o y) ops ?z) with (lrun K close seen ops z).
      destruct o as [s|k s|u| |f|u|t|b|i n]; cbn [told lstep].
      + (* new *)
        cbn [allocate]. set (y := with_mem _ x).
        assert (AY : agrees (l ++ [s]) cur y /\ abs seen y = abs seen x).
        { destruct A as [[W1 W2 W3 W4] ND E E0 C]. subst y. split.
          - split; cbn [with_mem mem core cell objs next].
            + split; cbn [with_mem mem core cell objs next]; auto.
              * intros a Ha. apply in_app_iff in Ha as [Ha|[<-|[]]]; [apply W2 in Ha|]; lia.
              * destruct W3 as [W3|W3]; [now left|]. right. apply in_app_iff. now left.
              * intros q HQ. destruct (W4 q HQ) as [Q1 Q2]. split; [lia|]. intros [H|H]; [apply Q2; now left|].
                apply in_app_iff in H as [H|[H|[]]]; [apply Q2; now right|lia].
            + apply (Permutation_NoDup (Permutation_cons_append _ _)). constructor; auto. intros H. apply W2 in H. lia.
            + rewrite map_app. cbn. rewrite Nat.eqb_refl, <- E. f_equal. apply map_ext_in. intros a Ha. apply W2 in Ha.
              destruct (Nat.eqb_spec a (next (mem x))); [lia|reflexivity].
            + destruct (Nat.eqb_spec 0 (next (mem x))); [lia|exact E0].
            + destruct cur as [u|]; auto. eapply resolve_more; [|exact C]. reflexivity.
          - unfold abs. cbn [with_mem mem core cached]. f_equal. destruct (last (core x)) as [q|] eqn:EL; [|reflexivity]. cbn [option_map]. f_equal. apply read_ext. cbn [cell].
            destruct (W4 q eq_refl) as [Q1 _]. destruct (Nat.eqb_spec (root q) (next (mem x))); [lia|reflexivity]. }
        destruct AY as [AY EY]. destruct (IH _ _ _ AY) as [I1 I2]. split; [now rewrite I1, EY|exact I2].
      + (* edit *)
        destruct (nth_error (objs (mem x)) k) as [a|] eqn:EK.
        2:{ assert (EU : upd k s l = l) by (apply upd_none; rewrite <- (ag_cells _ _ _ A), nth_error_map, EK; reflexivity). rewrite EU. apply IH. exact A. }
        set (y := with_mem _ x).
        assert (AY : agrees (upd k s l) cur y /\ abs seen y = abs seen x).
        { destruct A as [[W1 W2 W3 W4] ND E E0 C]. subst y. assert (IA : In a (objs (mem x))) by (eapply nth_error_In; eauto). split.
          - split; cbn [with_mem mem core edit cell objs next]; auto.
            + split; cbn [with_mem mem core edit cell objs next]; auto.
            + rewrite <- E. now apply map_edit.
            + apply W2 in IA. destruct (Nat.eqb_spec 0 a); [lia|exact E0].
            + destruct cur as [u|]; auto. rewrite <- C. now apply resolve_objs.
          - unfold abs. cbn [with_mem mem core cached]. f_equal. destruct (last (core x)) as [q|] eqn:EL; [|reflexivity]. cbn [option_map]. f_equal. apply read_ext. cbn [cell edit].
            destruct (W4 q eq_refl) as [_ Q2]. destruct (Nat.eqb_spec (root q) a) as [EQ|]; [|reflexivity]. exfalso. apply Q2. right. now rewrite EQ. }
        destruct AY as [AY EY]. destruct (IH _ _ _ AY) as [I1 I2]. split; [now rewrite I1, EY|exact I2].
      + (* eval *)
        rewrite (look_read l cur x u A). destruct (resolve (mem x) u) as [p|] eqn:ER; cbn [option_map]; [|apply IH; exact A].
        destruct (eval_sim K close seen p x (ag_wf _ _ _ A) (resolve_theirs _ _ _ ER)) as (S1 & S2 & S3 & S4).
        assert (AY : agrees l (Some u) (leval K close seen p x)) by (eapply agrees_kept; eauto; cbn; now rewrite S4).
        destruct (IH _ _ _ AY) as [I1 I2]. split; [|exact I2]. rewrite I1, S1. reflexivity.
      + (* eval current *)
        destruct (current_read l cur x A) as [HR HT]. rewrite HR.
        destruct (eval_sim K close seen (ms (core x)) x (ag_wf _ _ _ A) HT) as (S1 & S2 & S3 & S4).
        assert (AY : agrees l cur (leval K close seen (ms (core x)) x)) by (eapply agrees_kept; eauto; rewrite S4; apply A).
        destruct (IH _ _ _ AY) as [I1 I2]. split; [|exact I2]. rewrite I1, S1. reflexivity.
      + assert (AY : agrees l cur (with_core (configure f) x)) by (apply agrees_with; auto).
        destruct (IH _ _ _ AY) as [I1 I2]. split; [|exact I2]. rewrite I1. reflexivity.
      + (* setStructure *)
        rewrite (look_read l cur x u A). destruct (resolve (mem x) u) as [p|] eqn:ER; cbn [option_map]; [|apply IH; exact A].
        pose proof (wf_set K seen p x (ag_wf _ _ _ A) (resolve_theirs _ _ _ ER)) as WS. destruct (mem_set K seen p x) as (M1 & M2 & M3 & M4).
        assert (AY : agrees l (Some u) (lsetStructure K seen p x)).
        { eapply agrees_kept; eauto; [|cbn; now rewrite M3]. split; [exact WS|]. rewrite M1. auto. }
        destruct (IH _ _ _ AY) as [I1 I2]. split; [|exact I2]. rewrite I1, abs_set. reflexivity.
      + assert (AY : agrees l cur (with_core (lsetType K t) x)).
        { apply agrees_with; auto; unfold lsetType; destruct (evtype_eqb _ _); auto; destruct (match t with EvNone => _ | _ => _ end); auto. }
        destruct (IH _ _ _ AY) as [I1 I2]. split; [|exact I2]. rewrite I1. cbn [run fold_left step]. f_equal.
        unfold setEvaluatorType, lsetType. change (kind (abs seen x)) with (kind (core x)). unfold abs, with_core. cbn [mem cached core].
        destruct (evtype_eqb (kind (core x)) t); [reflexivity|]. destruct t; cbn [state_of]; try reflexivity; destruct (has_stash K); reflexivity.
      + assert (AY : agrees l cur (with_core (setFullSum b) x)) by (apply agrees_with; auto).
        destruct (IH _ _ _ AY) as [I1 I2]. split; [|exact I2]. rewrite I1. reflexivity.
      + set (y := if n <? 1 then x else _).
        assert (AY : agrees l cur y /\ abs seen y = step K close (OpParallel i n) (abs seen x)).
        { subst y. cbn [step]. unfold setupParallelRun. destruct (n <? 1) eqn:EN; [auto|]. split.
          - apply agrees_with; auto; cbn beta; unfold setupParallelRun; rewrite EN; cbn; auto.
          - reflexivity. }
        destruct AY as [AY EY]. destruct (IH _ _ _ AY) as [I1 I2]. split; [|exact I2]. rewrite I1, EY. reflexivity.
  Qed.

  Lemma start_agrees c t full fixed i n : agrees [] None (lstart K c empty t full fixed i n) /\
    abs seen (lstart K c empty t full fixed i n) = init K c empty t full fixed i n.
  Proof.
    split; [|reflexivity]. split; cbn; auto; try constructor; cbn; try (intros; contradiction || discriminate); try lia; auto. now left.
  Qed.

  Lemma abs_same (x : live) (y : st stru cfg V) : abs seen x = y -> same_to_user (core x) y.
  Proof. intros <-. unfold same_to_user. repeat split. Qed.
End Hist.
