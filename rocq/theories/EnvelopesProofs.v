From Coq Require Import String OrderedTypeEx.
From Verif Require Import Base RBase PdfGrid Envelopes EnvelopesSpec.
Open Scope R_scope.
Open Scope list_scope.
Notation slt := String_as_OT.lt.
Arguments string_dec : simpl never.

Fixpoint ksorted (m : emap) : Prop := match m with [] => True | (k, _) :: m' => Forall (fun e => slt k (fst e)) m' /\ ksorted m' end.
Lemma slt_irrefl k : ~ slt k k.
Proof. intros H. apply String_as_OT.lt_not_eq in H. apply H. reflexivity. Qed.
Lemma slt_neq a b : slt a b -> a <> b. Proof. intros H ->. now apply slt_irrefl in H. Qed.
Lemma cmp_gt a b : String_as_OT.cmp a b = Gt -> slt b a.
Proof. intros H. apply String_as_OT.cmp_lt. rewrite String_as_OT.cmp_antisym, H. reflexivity. Qed.

Lemma Forall_lt_mset k0 k a m : slt k0 k -> Forall (fun e => slt k0 (fst e)) m -> Forall (fun e => slt k0 (fst e)) (mset k a m).
Proof.
  intros Hk. induction m as [|[k' b] m IH]; intros H; cbn; [repeat constructor; auto|]. inversion H; subst.
  destruct (String_as_OT.cmp k k'); repeat constructor; auto.
Qed.
Lemma ksorted_mset k a m : ksorted m -> ksorted (mset k a m).
Proof.
  induction m as [|[k' b] m IH]; cbn; [auto|]. intros [H1 H2]. destruct (String_as_OT.cmp k k') eqn:E; cbn.
  - apply String_as_OT.cmp_eq in E. subst. auto.
  - apply String_as_OT.cmp_lt in E. split; [|auto]. constructor; auto. eapply Forall_impl; [|apply H1]. intros [x y]; cbn. intros; eapply String_as_OT.lt_trans; eauto.
  - apply cmp_gt in E. split; [now apply Forall_lt_mset|auto].
Qed.
Lemma mfind_lt k m : Forall (fun e => slt k (fst e)) m -> mfind k m = None.
Proof. induction m as [|[k' b] m IH]; cbn; auto. intros H. inversion H; subst. cbn in *. destruct (string_dec k k') as [->|]; auto. now apply slt_irrefl in H2. Qed.
Lemma mfind_mset t k a m : ksorted m -> mfind t (mset k a m) = if string_dec t k then Some a else mfind t m.
Proof.
  induction m as [|[k' b] m IH]; cbn; [auto|]. intros [H1 H2]. destruct (String_as_OT.cmp k k') eqn:E; cbn.
  - apply String_as_OT.cmp_eq in E. subst. destruct (string_dec t k'); auto.
  - auto.
  - apply cmp_gt, slt_neq in E. rewrite IH by auto. destruct (string_dec t k') as [->|]; auto. destruct (string_dec k' k); congruence.
Qed.
Lemma In_mset e k a m : In e (mset k a m) -> e = (k, a) \/ In e m.
Proof.
  induction m as [|[k' b] m IH]; cbn; [intuition|]. destruct (String_as_OT.cmp k k'); cbn; intuition.
Qed.
Lemma merase_sub k m e : In e (merase k m) -> In e m.
Proof. induction m as [|[k' b] m IH]; cbn; auto. destruct (string_dec k k'); cbn; intuition. Qed.
Lemma ksorted_merase k m : ksorted m -> ksorted (merase k m).
Proof.
  induction m as [|[k' b] m IH]; cbn; auto. intros [H1 H2]. destruct (string_dec k k'); auto. cbn. split; auto.
  apply Forall_forall. intros e He. apply merase_sub in He. now apply (proj1 (Forall_forall _ _) H1).
Qed.
Lemma mfind_merase t k m : ksorted m -> mfind t (merase k m) = if string_dec t k then None else mfind t m.
Proof.
  induction m as [|[k' b] m IH]; cbn; [destruct (string_dec t k); auto|]. intros [H1 H2]. destruct (string_dec k k') as [->|N]; cbn.
  - destruct (string_dec t k') as [->|]; auto. now apply mfind_lt.
  - rewrite IH by auto. destruct (string_dec t k') as [->|]; auto. destruct (string_dec k' k); congruence.
Qed.
Lemma mfind_In t a m : mfind t m = Some a -> In (t, a) m.
Proof. induction m as [|[k' b] m IH]; cbn; [discriminate|]. destruct (string_dec t k') as [->|]; [injection 1 as ->; auto|auto]. Qed.
Lemma In_mfind t a m : ksorted m -> In (t, a) m -> mfind t m = Some a.
Proof.
  induction m as [|[k' b] m IH]; cbn; [tauto|]. intros [H1 H2] [H|H].
  - injection H as -> ->. destruct (string_dec t t); congruence.
  - destruct (string_dec t k') as [->|]; auto. apply (proj1 (Forall_forall _ _) H1) in H. now apply slt_irrefl in H.
Qed.
Lemma pop_sub a m e : In e (pop_loop a m) -> In e m.
Proof. induction m as [|[k' b] m IH]; cbn; auto. destruct (Nat.eqb b a); cbn; intuition. Qed.
Lemma ksorted_pop a m : ksorted m -> ksorted (pop_loop a m).
Proof.
  induction m as [|[k' b] m IH]; cbn; auto. intros [H1 H2]. destruct (Nat.eqb b a); auto. cbn. split; auto.
  apply Forall_forall. intros e He. apply pop_sub in He. now apply (proj1 (Forall_forall _ _) H1).
Qed.
Lemma mfind_pop t a m : ksorted m -> (forall k k', In (k, a) m -> In (k', a) m -> k = k') ->
  mfind t (pop_loop a m) = match mfind t m with Some b => if Nat.eq_dec b a then None else Some b | None => None end.
Proof.
  induction m as [|[k' b] m IH]; cbn [pop_loop mfind]; [auto|]. intros [H1 H2] Hu. destruct (Nat.eqb_spec b a) as [->|N].
  - destruct (string_dec t k') as [->|Nt].
    + rewrite mfind_lt by auto. destruct (Nat.eq_dec a a); congruence.
    + destruct (mfind t m) as [b|] eqn:E; auto. destruct (Nat.eq_dec b a) as [->|]; auto.
      apply mfind_In in E. exfalso. apply Nt. apply Hu; cbn; auto.
  - cbn [mfind]. destruct (string_dec t k') as [->|]; [destruct (Nat.eq_dec b a); congruence|]. apply IH; auto.
    intros k1 k2 I1 I2. apply Hu; cbn; auto.
Qed.

Definition inv (o : owner) (s : held) : Prop :=
  heap o = objs s /\ ksorted (menv o) /\ (forall t, mfind t (menv o) = holds s t) /\
  (forall k a, In (k, a) (menv o) -> type_at (heap o) a = Some k).

Lemma type_at_app h a e k : type_at h a = Some k -> type_at (h ++ [e]) a = Some k.
Proof. unfold type_at. destruct (nth_error h a) eqn:E; [|discriminate]. rewrite nth_error_app1; [now rewrite E|]. apply nth_error_Some. congruence. Qed.
Lemma type_at_new h e : type_at (h ++ [e]) (List.length h) = Some (etype e).
Proof. unfold type_at. rewrite nth_error_app2, Nat.sub_diag by lia. reflexivity. Qed.
Lemma upd_firstn {A} a (e : A) h : (a < List.length h)%nat -> upd a e h = firstn a h ++ e :: skipn (S a) h.
Proof. revert h. induction a as [|a IH]; intros [|x h] H; cbn in *; try lia; auto. f_equal. apply IH. lia. Qed.

Lemma step_inv cr o s x : inv o s ->
  match held_step cr s x with
  | Some s' => exists o', (estep cr o x = Ok o' \/ exists e, estep cr o x = Throw e o') /\ inv o' s'
  | None => estep cr o x = UB
  end.
Proof.
  intros (H1 & H2 & H3 & H4). destruct x as [e|a e|[a|]|tp|p|tp|]; cbn [held_step estep].
  - eexists. split; [left; reflexivity|]. split; cbn; [now rewrite H1|]. split; auto. split; auto. intros k a Ha. apply type_at_app; auto.
  - rewrite <- H1. unfold type_at at 1. destruct (nth_error (heap o) a) as [e0|] eqn:E; cbn [option_map]; [|reflexivity].
    destruct (string_dec (etype e0) (etype e)) as [Ht|]; [|reflexivity].
    assert (La : (a < List.length (heap o))%nat) by (apply nth_error_Some; congruence).
    eexists. split; [left; reflexivity|]. split; cbn; [now apply upd_firstn|]. split; auto. split; auto.
    intros k b Hb. specialize (H4 k b Hb). unfold type_at in *. rewrite nth_error_upd. destruct (Nat.eqb_spec a b) as [->|]; auto.
    destruct (Nat.ltb_spec b (List.length (heap o))); [|lia]. rewrite E in H4. cbn in *. congruence.
  - cbn [addEnvelope]. rewrite <- H1. unfold type_at at 1. destruct (nth_error (heap o) a) as [e0|] eqn:E; cbn [option_map]; [|reflexivity].
    eexists. split; [left; reflexivity|]. split; cbn; [auto|]. split; [now apply ksorted_mset|]. split.
    + intros t. rewrite mfind_mset by auto. unfold set_type. destruct (string_dec t (etype e0)); auto.
    + intros k b Hb. apply In_mset in Hb. destruct Hb as [Hb|Hb]; auto. injection Hb as -> ->. unfold type_at. now rewrite E.
  - eexists. split; [right; eexists; reflexivity|]. repeat split; auto.
  - unfold addEnvelopeByType. destruct (cr tp) as [e|].
    + eexists. split; [left; reflexivity|]. split; cbn; [now rewrite H1|]. split; [now apply ksorted_mset|]. split.
      * intros t. rewrite mfind_mset by auto. unfold set_type. rewrite H1. destruct (string_dec t (etype e)); auto.
      * intros k b Hb. apply In_mset in Hb. destruct Hb as [Hb|Hb]; [injection Hb as -> ->; apply type_at_new|]. apply type_at_app; auto.
    + eexists. split; [right; eexists; reflexivity|]. repeat split; auto.
  - destruct p as [a|]; cbn [popEnvelope].
    + eexists. split; [left; reflexivity|]. split; cbn; [auto|]. split; [now apply ksorted_pop|]. split.
      * intros t. rewrite mfind_pop; auto; [rewrite H3; destruct (holds s t); auto|]. intros k k' I1 I2. apply H4 in I1, I2. congruence.
      * intros k b Hb. apply pop_sub in Hb. auto.
    + eexists. split; [left; reflexivity|]. split; cbn; [auto|]. split; auto. split; auto. intros t. rewrite H3. destruct (holds s t); auto.
  - eexists. split; [left; reflexivity|]. split; cbn; [auto|]. split; [now apply ksorted_merase|]. split.
    + intros t. rewrite mfind_merase by auto. unfold set_type. destruct (string_dec t tp); auto.
    + intros k b Hb. apply merase_sub in Hb. auto.
  - eexists. split; [left; reflexivity|]. split; cbn; [auto|]. split; auto. split; auto. intros k b [].
Qed.
Lemma run_inv cr l : forall o s, inv o s ->
  match held_run cr l s with Some s' => exists o', erun cr l o = Some o' /\ inv o' s' | None => erun cr l o = None end.
Proof.
  induction l as [|x l IH]; intros o s H; cbn [held_run erun]; [eauto|].
  pose proof (step_inv cr o s x H) as Hs. destruct (held_step cr s x) as [s'|]; [|now rewrite Hs].
  destruct Hs as (o' & [E|[e E]] & H'); rewrite E; now apply IH.
Qed.
Lemma inv_empty : inv empty_owner nothing_held.
Proof. repeat split; cbn; auto. intros k a []. Qed.

(** applying *)
Lemma map2_ok f xs ys : List.length xs = List.length ys -> map2 f xs ys = Ok (map (fun p => f (fst p) (snd p)) (combine xs ys)).
Proof. revert ys. induction xs as [|x xs IH]; intros [|y ys] H; cbn in *; try discriminate; auto. rewrite IH by lia. reflexivity. Qed.
Lemma combine_map_snd (g : R -> R -> R) xs ys : List.length xs = List.length ys ->
  combine xs (map (fun p => g (fst p) (snd p)) (combine xs ys)) = map (fun p => (fst p, g (fst p) (snd p))) (combine xs ys).
Proof. revert ys. induction xs as [|x xs IH]; intros [|y ys] H; cbn in *; try discriminate; auto. f_equal. apply IH. lia. Qed.
Definition prod_of (h : list envelope_obj) (m : emap) (r : R) : R :=
  fold_right (fun ka acc => match nth_error h (snd ka) with Some e => eval e r * acc | None => acc end) 1 m.
Lemma apply_fold h m xs : forall ys, List.length xs = List.length ys -> (forall k a, In (k, a) m -> nth_error h a <> None) ->
  fold_left (fun acc ka => match nth_error h (snd ka) with None => UB | Some e => bind acc (map2 (fun r z => z * eval e r) xs) end) m (Ok ys)
  = Ok (map (fun p => snd p * prod_of h m (fst p)) (combine xs ys)).
Proof.
  induction m as [|[k a] m IH]; intros ys Hl Hm; cbn [fold_left snd].
  - f_equal. unfold prod_of. cbn [fold_right]. rewrite <- (map_id ys) at 1. clear Hm. revert ys Hl. induction xs as [|x xs IH]; intros [|y ys] Hl; cbn in *; try discriminate; auto.
    rewrite Rmult_1_r. f_equal. rewrite map_id. rewrite <- (map_id ys) at 1. apply IH. lia.
  - destruct (nth_error h a) as [e|] eqn:E; [|exfalso; eapply Hm; [left; reflexivity|auto]]. cbn [bind]. rewrite map2_ok by auto.
    rewrite IH; [|rewrite map_length, combine_length; lia|intros; eapply Hm; right; eauto].
    f_equal. rewrite (combine_map_snd (fun r z => z * eval e r)) by auto. rewrite map_map. apply map_ext. intros [r z]. cbn.
    rewrite E. unfold prod_of. ring.
Qed.
Lemma prod_factor o s r : inv o s -> prod_of (heap o) (menv o) r = factor s (map fst (menv o)) r.
Proof.
  intros (H1 & H2 & H3 & H4). rewrite H1 in *. unfold prod_of, factor.
  assert (Hg : forall m, (forall k a, In (k, a) m -> holds s k = Some a) -> fold_right (fun ka acc => match nth_error (objs s) (snd ka) with Some e => eval e r * acc | None => acc end) 1 m =
    fold_right (fun t acc => match holds s t with Some a => match nth_error (objs s) a with Some e => eval e r * acc | None => acc end | None => acc end) 1 (map fst m)).
  { induction m as [|[k a] m IH]; intros Hm; cbn [fold_right map fst snd]; auto. rewrite (Hm k a) by (cbn; auto). rewrite IH; auto. intros; apply Hm; cbn; auto. }
  apply Hg. intros k a Hk. rewrite <- H3. now apply In_mfind.
Qed.
Lemma used_In o s t : inv o s -> (In t (map fst (menv o)) <-> holds s t <> None).
Proof.
  intros (H1 & H2 & H3 & H4). rewrite <- H3. rewrite in_map_iff. split.
  - intros ([k a] & <- & Hk). cbn. rewrite (In_mfind k a); [discriminate|auto|auto].
  - intros H. destruct (mfind t (menv o)) as [a|] eqn:E; [|congruence]. exists (t, a). split; auto. now apply mfind_In.
Qed.
Lemma ksorted_NoDup m : ksorted m -> NoDup (map fst m).
Proof.
  induction m as [|[k a] m IH]; cbn; [constructor|]. intros [H1 H2]. constructor; auto. intros H. apply in_map_iff in H.
  destruct H as ([k' b] & <- & Hk). apply (proj1 (Forall_forall _ _) H1) in Hk. now apply slt_irrefl in Hk.
Qed.
(** a sorted map is determined by what it finds *)
Lemma ksorted_ext m m' : ksorted m -> ksorted m' -> (forall t, mfind t m = mfind t m') -> m = m'.
Proof.
  revert m'. induction m as [|[k a] m IH]; intros [|[k' b] m'] H H' He.
  - auto.
  - specialize (He k'). cbn in He. destruct (string_dec k' k'); congruence.
  - specialize (He k). cbn in He. destruct (string_dec k k); congruence.
  - cbn in H, H'. destruct H as [H1 H2], H' as [H1' H2'].
    assert (k = k') as <-.
    { destruct (String_as_OT.cmp k k') eqn:E; [now apply String_as_OT.cmp_eq in E| |]; exfalso.
      - apply String_as_OT.cmp_lt in E. specialize (He k). cbn [mfind] in He. destruct (string_dec k k); [|congruence]. destruct (string_dec k k') as [->|]; [now apply slt_irrefl in E|].
        rewrite mfind_lt in He; [discriminate|]. eapply Forall_impl; [|apply H1']. intros [x y]; cbn; intros; eapply String_as_OT.lt_trans; eauto.
      - apply cmp_gt in E. specialize (He k'). cbn [mfind] in He. destruct (string_dec k' k'); [|congruence]. destruct (string_dec k' k) as [->|]; [now apply slt_irrefl in E|].
        rewrite mfind_lt in He; [discriminate|]. eapply Forall_impl; [|apply H1]. intros [x y]; cbn; intros; eapply String_as_OT.lt_trans; eauto. }
    assert (a = b) as <-. { specialize (He k). cbn in He. destruct (string_dec k k); congruence. }
    f_equal. apply IH; auto. intros t. specialize (He t). cbn in He. destruct (string_dec t k) as [->|]; auto. now rewrite !mfind_lt.
Qed.
