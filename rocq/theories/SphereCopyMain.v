(** Programs with iterators and their copies. *)
From Verif Require Import RBase Sphere SphereSpec SphereProofs SphereMain SphereCopy SphereCopySpec SphereCopyProofs.
Open Scope R_scope.

Lemma irun_app f l1 : forall l2 w, irun f (l1 ++ l2) w = match irun f l1 w with Some w' => irun f l2 w' | None => None end.
Proof. induction l1 as [|a l1 IH]; intros; cbn [app irun]; [reflexivity|]. destruct (istep f a w); [apply IH|reflexivity]. Qed.
Lemma makers_app a b : makers (a ++ b) = makers a ++ makers b.
Proof. unfold makers. now rewrite filter_app. Qed.
Lemma calls_app k a b : calls k (a ++ b) = calls k a ++ calls k b.
Proof. unfold calls. now rewrite flat_map_app. Qed.
Lemma nth_updE {A} (l : list A) i x j : (i < length l)%nat -> nth_error (upd i x l) j = if (j =? i)%nat then Some x else nth_error l j.
Proof.
  revert i j. induction l as [|a l IH]; intros i j H; cbn [length] in H; [lia|]. destruct i as [|i], j as [|j]; cbn [upd nth_error Nat.eqb]; auto.
  apply IH. lia.
Qed.
Lemma upd_len {A} (l : list A) i x : length (upd i x l) = length l.
Proof. revert i. induction l as [|a l IH]; intros [|i]; cbn [upd length]; auto. Qed.

(** What one call on the k-th object does *)
Lemma on_spec k f w w' : on k f w = Some w' -> exists i t v, nth_error w k = Some i /\ nth_error w (i_ref i) = Some t /\
  f i (i_ref i =? k)%nat (mkView (i_data i) (mno (i_data t))) = Some v /\ length w' = length w /\
  forall j, nth_error w' j = if (j =? k)%nat then Some (with_data (here v) i) else
                             if (j =? i_ref i)%nat then Some (with_data (with_mno (there v) (i_data t)) t) else nth_error w j.
Proof.
  unfold on. destruct (nth_error w k) as [i|] eqn:Ei; [|discriminate]. destruct (nth_error w (i_ref i)) as [t|] eqn:Et; [|discriminate].
  destruct (f _ _ _) as [v|] eqn:Ev; [|discriminate]. intros [= <-]. exists i, t, v.
  assert (Hk : (k < length w)%nat) by (apply nth_error_Some; congruence). assert (Hr : (i_ref i < length w)%nat) by (apply nth_error_Some; congruence).
  split; [reflexivity|split; [exact Et|split; [exact Ev|split; [now rewrite !upd_len|]]]].
  intros j. rewrite nth_updE by (rewrite upd_len; exact Hk). destruct (j =? k)%nat; [reflexivity|]. now rewrite nth_updE by exact Hr.
Qed.

(** References are bound once. *)
Definition bound (l : list iop) (w : list iter) : Prop :=
  length w = length (makers l) /\
  (forall k i, nth_error w k = Some i -> match nth_error (makers l) k with
     | Some (INew a b c) => i_ref i = k /\ i_rmin i = a /\ i_rmax i = b /\ i_lat i = c
     | Some (ICopy _) => i_ref i <> k /\ exists t, nth_error w (i_ref i) = Some t /\ i_ref t = i_ref i
     | _ => False end) /\
  (forall k, (length w <= k)%nat -> calls k l = []).
Lemma bound_ref l w k i : bound l w -> nth_error w k = Some i -> exists t, nth_error w (i_ref i) = Some t /\ i_ref t = i_ref i.
Proof.
  intros (_ & B & _) E. pose proof (B k i E) as H. destruct (nth_error (makers l) k) as [[a b c|j|j|j]|]; try contradiction.
  - destruct H as (H & _). rewrite H. eauto.
  - apply H.
Qed.
Lemma on_bound l a w w' k f : bound l w -> on k f w = Some w' -> makers [a] = [] -> (forall j, j <> k -> calls j [a] = []) -> bound (l ++ [a]) w'.
Proof.
  intros (B1 & B2 & B3) E Hm Hc. destruct (on_spec _ _ _ _ E) as (i & t & v & Ei & Et & _ & EL & N).
  assert (R : forall j x, nth_error w' j = Some x -> exists y, nth_error w j = Some y /\ i_ref x = i_ref y /\ i_rmin x = i_rmin y /\ i_rmax x = i_rmax y /\ i_lat x = i_lat y).
  { intros j x Hx. rewrite N in Hx. destruct (Nat.eqb_spec j k) as [->|]; [injection Hx as <-; exists i; auto|].
    destruct (Nat.eqb_spec j (i_ref i)) as [->|]; [injection Hx as <-; exists t; auto|]. exists x; auto. }
  assert (R' : forall j y, nth_error w j = Some y -> exists x, nth_error w' j = Some x /\ i_ref x = i_ref y).
  { intros j y Hy. rewrite N. destruct (Nat.eqb_spec j k) as [->|]; [eexists; split; [reflexivity|]; cbn; congruence|].
    destruct (Nat.eqb_spec j (i_ref i)) as [->|]; [eexists; split; [reflexivity|]; cbn; congruence|]. eauto. }
  split; [|split].
  - rewrite makers_app, Hm, app_nil_r. now rewrite EL.
  - intros j x Hx. destruct (R j x Hx) as (y & Hy & R1 & R2 & R3 & R4). pose proof (B2 j y Hy) as H. rewrite makers_app, Hm, app_nil_r.
    rewrite R1, R2, R3, R4. destruct (nth_error (makers l) j) as [[p q r|p|p|p]|]; try contradiction; [exact H|].
    destruct H as (H1 & z & H2 & H3). split; [exact H1|]. destruct (R' _ _ H2) as (z' & Z1 & Z2). exists z'. split; [exact Z1|congruence].
  - intros j Hj. rewrite calls_app, B3 by lia. cbn [app]. apply Hc. assert (k < length w)%nat by (apply nth_error_Some; congruence). lia.
Qed.
Lemma step_bound f l a w w' : bound l w -> istep f a w = Some w' -> bound (l ++ [a]) w'.
Proof.
  intros B E. destruct a as [rmin rmax L|k|k|k]; cbn [istep] in E.
  - destruct (on_spec _ _ _ _ E) as (i & t & v & Ei & Et & _ & EL & N). destruct B as (B1 & B2 & B3).
    rewrite nth_error_app2, Nat.sub_diag in Ei by lia. cbn in Ei. injection Ei as <-. cbn [i_ref] in *.
    rewrite nth_error_app2, Nat.sub_diag in Et by lia. cbn in Et. injection Et as <-.
    rewrite app_length in EL. cbn [length] in EL.
    split; [|split].
    + rewrite makers_app, app_length. cbn [makers filter length]. lia.
    + intros j x Hx. rewrite N in Hx. rewrite makers_app. destruct (Nat.eqb_spec j (length w)) as [->|Hn].
      * injection Hx as <-. rewrite nth_error_app2 by lia. rewrite B1, Nat.sub_diag. cbn. auto.
      * assert (Hj : (j < length w)%nat). { assert (j < length (w ++ [mkIter rmin rmax L blank (length w)]))%nat by (apply nth_error_Some; congruence). rewrite app_length in H. cbn in H. lia. }
        rewrite nth_error_app1 in Hx by exact Hj. rewrite nth_error_app1 by lia. pose proof (B2 j x Hx) as H.
        destruct (nth_error (makers l) j) as [[p q r|p|p|p]|]; try contradiction; [exact H|]. destruct H as (H1 & z & H2 & H3). split; [exact H1|].
        exists z. split; [|exact H3]. rewrite N. assert (i_ref x < length w)%nat by (apply nth_error_Some; congruence).
        destruct (Nat.eqb_spec (i_ref x) (length w)); [lia|]. now rewrite nth_error_app1.
    + intros j Hj. rewrite calls_app, B3 by lia. reflexivity.
  - destruct (nth_error w k) as [i|] eqn:Ei; [|discriminate]. injection E as <-. destruct (bound_ref _ _ _ _ B Ei) as (t & Et & Er). destruct B as (B1 & B2 & B3).
    split; [|split].
    + rewrite makers_app, !app_length. cbn [makers filter length]. lia.
    + intros j x Hx. rewrite makers_app. destruct (Nat.eq_dec j (length w)) as [->|Hn].
      * rewrite nth_error_app2, Nat.sub_diag in Hx by lia. cbn in Hx. injection Hx as <-. rewrite nth_error_app2 by lia. rewrite B1, Nat.sub_diag. cbn.
        assert (i_ref i < length w)%nat by (apply nth_error_Some; congruence). split; [lia|]. exists t. split; [now rewrite nth_error_app1|exact Er].
      * assert (Hj : (j < length w)%nat). { assert (j < length (w ++ [i]))%nat by (apply nth_error_Some; congruence). rewrite app_length in H. cbn in H. lia. }
        rewrite nth_error_app1 in Hx by exact Hj. rewrite nth_error_app1 by lia. pose proof (B2 j x Hx) as H.
        destruct (nth_error (makers l) j) as [[p q r|p|p|p]|]; try contradiction; [exact H|]. destruct H as (H1 & z & H2 & H3). split; [exact H1|].
        exists z. split; [|exact H3]. rewrite nth_error_app1; [exact H2|]. apply nth_error_Some; congruence.
    + intros j Hj. rewrite app_length in Hj. rewrite calls_app, B3 by lia. reflexivity.
  - eapply on_bound; eauto. intros j Hj. cbn. destruct (Nat.eqb_spec k j); [congruence|reflexivity].
  - eapply on_bound; eauto. intros j Hj. cbn. destruct (Nat.eqb_spec k j); [congruence|reflexivity].
Qed.
Lemma run_bound f l w : irun f l [] = Some w -> bound l w.
Proof.
  revert w. induction l as [|a l IH] using rev_ind; intros w E.
  - cbn in E. injection E as <-. split; [reflexivity|split]; [intros [|k] i; discriminate|reflexivity].
  - rewrite irun_app in E. destruct (irun f l []) as [w0|]; [|discriminate]. cbn [irun] in E. destruct (istep f a w0) as [w1|] eqn:E1; [|discriminate].
    injection E as <-. eapply step_bound; eauto.
Qed.

(** *** Originals *)
Lemma go_on_app a b L f c d : forall s, go_on a b L f (c ++ d) s = match go_on a b L f c s with Some s' => go_on a b L f d s' | None => None end.
Proof. induction c as [|x c IH]; intros s; cbn [app go_on]; [reflexivity|]. destruct (if x then _ else _); [apply IH|reflexivity]. Qed.
Lemma alone_app a b L f c d : alone a b L f (c ++ d) = match alone a b L f c with Some s => go_on a b L f d s | None => None end.
Proof. unfold alone. destruct (rewind a b L f); [apply go_on_app|reflexivity]. Qed.
Lemma idle_app l a : copies_idle (l ++ [a]) -> copies_idle l.
Proof.
  intros H k [j Hj]. destruct (H k) as [H1 H2]. { exists j. rewrite makers_app. rewrite nth_error_app1; [exact Hj|]. apply nth_error_Some; congruence. }
  split; intros HI; [apply H1|apply H2]; apply in_or_app; auto.
Qed.
Lemma constructed_app l a k p q r : constructed (l ++ [a]) k p q r -> constructed l k p q r \/ (k = length (makers l) /\ a = INew p q r).
Proof.
  unfold constructed. rewrite makers_app. intros H. destruct (Nat.ltb_spec k (length (makers l))).
  - rewrite nth_error_app1 in H by assumption. auto.
  - rewrite nth_error_app2 in H by assumption. right. destruct (makers [a]) as [|x [|y z]] eqn:E.
    + destruct (k - length (makers l))%nat; discriminate.
    + destruct (k - length (makers l))%nat as [|u] eqn:U; [|destruct u; discriminate]. cbn in H. injection H as ->.
      split; [lia|]. destruct a; cbn in E; try discriminate; now (injection E as -> -> ->).
    + destruct a; cbn in E; discriminate.
Qed.
Lemma originals f l : forall w, irun f l [] = Some w -> copies_idle l -> forall k p q r, constructed l k p q r ->
  exists i, nth_error w k = Some i /\ alone p q r f (calls k l) = Some (i_data i).
Proof.
  induction l as [|a l IH] using rev_ind; intros w E HI k p q r HC.
  - unfold constructed in HC. destruct k; discriminate.
  - rewrite irun_app in E. destruct (irun f l []) as [w0|] eqn:E0; [|discriminate]. cbn [irun] in E. destruct (istep f a w0) as [w1|] eqn:E1; [|discriminate].
    injection E as <-. pose proof (run_bound f l w0 E0) as B. pose proof B as (B1 & B2 & B3).
    rewrite calls_app. destruct (constructed_app _ _ _ _ _ _ HC) as [HC'|(-> & ->)].
    + destruct (IH w0 eq_refl (idle_app _ _ HI) k p q r HC') as (i & Ei & Ea).
      destruct a as [rmin rmax L|j|j|j]; cbn [istep] in E1.
      * destruct (on_spec _ _ _ _ E1) as (i' & t & v & Ei' & Et & _ & EL & N).
        rewrite nth_error_app2, Nat.sub_diag in Ei' by lia. cbn in Ei'. injection Ei' as <-. cbn [i_ref] in *.
        exists i. split; [|rewrite app_nil_r; exact Ea]. rewrite N. assert (k < length w0)%nat by (apply nth_error_Some; congruence).
        destruct (Nat.eqb_spec k (length w0)); [lia|]. now rewrite nth_error_app1.
      * destruct (nth_error w0 j) as [x|]; [|discriminate]. injection E1 as <-. exists i. split; [|rewrite app_nil_r; exact Ea].
        rewrite nth_error_app1; [exact Ei|]. apply nth_error_Some; congruence.
      * destruct (on_spec _ _ _ _ E1) as (i' & t & v & Ei' & Et & Ev & EL & N).
        assert (Hr : i_ref i' = j).
        { pose proof (B2 j i' Ei') as H. destruct (nth_error (makers l) j) as [[x y z|x|x|x]|] eqn:Em; try contradiction; [apply H|].
          exfalso. destruct (HI j) as [H1 _]; [exists x; rewrite makers_app; rewrite nth_error_app1; [exact Em|apply nth_error_Some; congruence]|].
          apply H1. apply in_or_app. right. now left. }
        rewrite Hr, Nat.eqb_refl in Ev. rewrite Hr in *. rewrite Ei' in Et. injection Et as <-.
        change (mkView (i_data i') (mno (i_data i'))) with (self (i_data i')) in Ev. rewrite self_next_o in Ev.
        cbn [calls flat_map]. destruct (Nat.eqb_spec j k) as [->|Hn].
        -- rewrite Ei in Ei'. injection Ei' as <-. eexists. split; [rewrite N, Nat.eqb_refl; reflexivity|].
           rewrite alone_app, Ea. cbn [app go_on]. pose proof (B2 k i Ei) as H. unfold constructed in HC'. rewrite HC' in H. destruct H as (_ & <- & <- & <-).
           destruct (next_o _ _ _ _ _) as [s'|]; [|discriminate]. cbn [option_map] in Ev. injection Ev as <-. reflexivity.
        -- exists i. split; [|rewrite app_nil_r; exact Ea]. rewrite N. destruct (Nat.eqb_spec k j); [congruence|exact Ei].
      * destruct (on_spec _ _ _ _ E1) as (i' & t & v & Ei' & Et & Ev & EL & N).
        assert (Hr : i_ref i' = j).
        { pose proof (B2 j i' Ei') as H. destruct (nth_error (makers l) j) as [[x y z|x|x|x]|] eqn:Em; try contradiction; [apply H|].
          exfalso. destruct (HI j) as [_ H1]; [exists x; rewrite makers_app; rewrite nth_error_app1; [exact Em|apply nth_error_Some; congruence]|].
          apply H1. apply in_or_app. right. now left. }
        rewrite Hr, Nat.eqb_refl in Ev. rewrite Hr in *. rewrite Ei' in Et. injection Et as <-.
        change (mkView (i_data i') (mno (i_data i'))) with (self (i_data i')) in Ev. rewrite self_rewind in Ev.
        cbn [calls flat_map]. destruct (Nat.eqb_spec j k) as [->|Hn].
        -- rewrite Ei in Ei'. injection Ei' as <-. eexists. split; [rewrite N, Nat.eqb_refl; reflexivity|].
           rewrite alone_app, Ea. cbn [app go_on]. pose proof (B2 k i Ei) as H. unfold constructed in HC'. rewrite HC' in H. destruct H as (_ & <- & <- & <-).
           destruct (rewind _ _ _ _) as [s'|]; [|discriminate]. cbn [option_map] in Ev. injection Ev as <-. reflexivity.
        -- exists i. split; [|rewrite app_nil_r; exact Ea]. rewrite N. destruct (Nat.eqb_spec k j); [congruence|exact Ei].
    + cbn [istep] in E1. destruct (on_spec _ _ _ _ E1) as (i' & t & v & Ei' & Et & Ev & EL & N).
      rewrite nth_error_app2, Nat.sub_diag in Ei' by lia. cbn in Ei'. injection Ei' as <-. cbn [i_ref i_data i_rmin i_rmax i_lat] in *.
      rewrite nth_error_app2, Nat.sub_diag in Et by lia. cbn in Et. injection Et as <-. cbn [i_data] in Ev. rewrite Nat.eqb_refl in Ev.
      change (mkView blank (mno blank)) with (self blank) in Ev. rewrite self_rewind in Ev.
      eexists. split; [rewrite N, B1, Nat.eqb_refl; reflexivity|]. rewrite B3 by lia. cbn [calls flat_map app]. unfold alone. cbn [go_on].
      destruct (rewind _ _ _ _) as [s'|]; [|discriminate]. cbn [option_map] in Ev. injection Ev as <-. reflexivity.
Qed.

(** *** Copies *)
Lemma step_stuck f l a w w' k : bound l w -> copied l k -> istep f a w = Some w' -> shown w' k = shown w k.
Proof.
  intros B [j0 HC] E. pose proof B as (B1 & B2 & B3). unfold shown.
  assert (Hk : (k < length w)%nat) by (rewrite B1; apply nth_error_Some; congruence).
  assert (NR : forall i j, nth_error w j = Some i -> i_ref i <> k).
  { intros i j Ei Hi. destruct (bound_ref _ _ _ _ B Ei) as (t & Et & Er). rewrite Hi in Et, Er. pose proof (B2 k t Et) as H. rewrite HC in H. destruct H as [H _]. congruence. }
  destruct a as [rmin rmax L|j|j|j]; cbn [istep] in E.
  - destruct (on_spec _ _ _ _ E) as (i & t & v & Ei & _ & _ & EL & N). rewrite nth_error_app2, Nat.sub_diag in Ei by lia. cbn in Ei. injection Ei as <-. cbn [i_ref] in N.
    rewrite N. destruct (Nat.eqb_spec k (length w)); [lia|]. now rewrite nth_error_app1.
  - destruct (nth_error w j); [|discriminate]. injection E as <-. now rewrite nth_error_app1.
  - destruct (on_spec _ _ _ _ E) as (i & t & v & Ei & Et & Ev & EL & N). rewrite N. pose proof (NR i j Ei) as Hr.
    destruct (Nat.eqb_spec k j) as [->|Hn].
    + destruct (Nat.eqb_spec (i_ref i) j); [contradiction|]. apply stays_o in Ev. cbn [here] in Ev. rewrite Ei. cbn. now rewrite Ev.
    + destruct (Nat.eqb_spec k (i_ref i)); [congruence|reflexivity].
  - destruct (on_spec _ _ _ _ E) as (i & t & v & Ei & Et & Ev & EL & N). rewrite N. pose proof (NR i j Ei) as Hr.
    destruct (Nat.eqb_spec k j) as [->|Hn].
    + destruct (Nat.eqb_spec (i_ref i) j); [contradiction|]. apply stays_rewind in Ev. cbn [here] in Ev. rewrite Ei. cbn. now rewrite Ev.
    + destruct (Nat.eqb_spec k (i_ref i)); [congruence|reflexivity].
Qed.
Lemma stuck f l' : forall l w w' k, bound l w -> copied l k -> irun f l' w = Some w' -> shown w' k = shown w k.
Proof.
  induction l' as [|a l' IH]; intros l w w' k B HC E; cbn [irun] in E; [now injection E as <-|].
  destruct (istep f a w) as [w1|] eqn:E1; [|discriminate]. rewrite <- (step_stuck f l a w w1 k B HC E1).
  apply (IH (l ++ [a]) w1); [eapply step_bound; eauto| |exact E]. destruct HC as [j HC]. exists j. rewrite makers_app, nth_error_app1; [exact HC|].
  apply nth_error_Some; congruence.
Qed.
(** a loop over a copy *)
Lemma copy_loop f i0 k : forall n w i a b c,
  (0 < f)%nat -> nth_error w i0 = Some i -> i_ref i = k -> i0 <> k -> (o (i_data i) < hi_o (i_data i))%Z -> shown w k = Some (a, b, c) ->
  exists w', irun f (repeat (INext i0) n) w = Some w' /\ option_map i_data (nth_error w' i0) = Some (i_data i) /\ shown w' k = Some (a, b, (c + Z.of_nat n)%Z).
Proof.
  induction n as [|n IH]; intros w i a b c Hf Ei Er Hn Ho Hs; cbn [repeat irun].
  - exists w. rewrite Ei, Hs. cbn [option_map Z.of_nat]. rewrite Z.add_0_r. auto.
  - destruct f as [|f]; [lia|]. cbn [istep]. unfold on. rewrite Ei, Er. unfold shown in Hs. destruct (nth_error w k) as [t|] eqn:Et; [|discriminate]. cbn in Hs. injection Hs as Hm Hnn Hoo.
    destruct (Nat.eqb_spec k i0) as [|_]; [congruence|]. rewrite next_other by (cbn [here]; exact Ho). cbn [here there].
    assert (Lk : (k < length w)%nat) by (apply nth_error_Some; congruence). assert (Li : (i0 < length w)%nat) by (apply nth_error_Some; congruence).
    match goal with |- exists w', irun _ _ ?W = _ /\ _ => set (w1 := W) end.
    assert (N : forall j, nth_error w1 j = if (j =? i0)%nat then Some (with_data (i_data i) i) else if (j =? k)%nat then Some (with_data (with_mno (add_o (mno (i_data t))) (i_data t)) t) else nth_error w j).
    { intros j. unfold w1. rewrite nth_updE by (rewrite upd_len; exact Li). destruct (j =? i0)%nat; [reflexivity|]. now rewrite nth_updE by exact Lk. }
    destruct (IH w1 (with_data (i_data i) i) a b (c + 1)%Z) as (w' & E' & D' & S'); try assumption; try lia.
    + rewrite N, Nat.eqb_refl. reflexivity.
    + unfold shown. rewrite N. destruct (Nat.eqb_spec k i0); [congruence|]. rewrite Nat.eqb_refl. cbn [option_map with_data i_data]. rewrite wm_mno. unfold mno, add_o. rewrite Hm, Hnn, Hoo. reflexivity.
    + exists w'. split; [exact E'|]. split; [exact D'|]. rewrite S'. do 2 f_equal. lia.
Qed.
