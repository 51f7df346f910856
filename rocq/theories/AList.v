(** Association lists as the model of std::map / boost::unordered_map with unique keys. *)
From Verif Require Import Base.

Section AList.
  Context {K V : Type} (eqd : forall x y : K, {x = y} + {x <> y}).

  (** find / at / count *)
  Fixpoint afind (k : K) (m : list (K * V)) : option V :=
    match m with
    | [] => None
    | (k', v) :: r => if eqd k k' then Some v else afind k r
    end.

  (** [m[k] = v]: overwrite in place or append. *)
  Fixpoint aset (k : K) (v : V) (m : list (K * V)) : list (K * V) :=
    match m with
    | [] => [(k, v)]
    | (k', v') :: r => if eqd k k' then (k, v) :: r else (k', v') :: aset k v r
    end.

  (** erase(k) *)
  Definition aerase (k : K) (m : list (K * V)) : list (K * V) :=
    filter (fun e => if eqd k (fst e) then false else true) m.

  Definition akeys (m : list (K * V)) : list K := map fst m.

  Lemma afind_aset k k' v m :
    afind k (aset k' v m) = if eqd k k' then Some v else afind k m.
  Proof.
    induction m as [|[a b] m IH]; cbn.
    - destruct (eqd k k'); auto.
    - destruct (eqd k' a) as [->|Hne]; cbn.
      + destruct (eqd k a); auto.
      + rewrite IH. destruct (eqd k a) as [->|]; auto. destruct (eqd a k'); congruence.
  Qed.

  Lemma afind_aerase k k' m :
    afind k (aerase k' m) = if eqd k k' then None else afind k m.
  Proof.
    unfold aerase. induction m as [|[a b] m IH]; cbn [filter afind fst].
    - destruct (eqd k k'); auto.
    - destruct (eqd k' a) as [->|Hne]; cbn [afind].
      + rewrite IH. destruct (eqd k a); auto.
      + destruct (eqd k a) as [->|]; auto. destruct (eqd a k'); congruence.
  Qed.

  Lemma afind_filter k (f : K * V -> bool) m :
    NoDup (akeys m) ->
    afind k (filter f m) = match afind k m with Some v => if f (k, v) then Some v else None | None => None end.
  Proof.
    induction m as [|[a b] m IH]; cbn; intros Hnd; auto.
    inversion Hnd as [|? ? Hni Hnd']; subst.
    destruct (eqd k a) as [->|Hne].
    - destruct (f (a, b)); cbn; [destruct (eqd a a); congruence|].
      rewrite IH by auto. destruct (afind a m) eqn:E; auto.
      exfalso; apply Hni. clear -E. induction m as [|[c d] m IH]; cbn in *; [discriminate|].
      destruct (eqd a c) as [->|]; auto.
    - destruct (f (a, b)); cbn; [destruct (eqd k a); [congruence|auto]|auto].
  Qed.

  Lemma afind_Some_In k v m : afind k m = Some v -> In (k, v) m.
  Proof.
    induction m as [|[a b] m IH]; cbn; [discriminate|].
    destruct (eqd k a) as [->|]; [intros [= ->]; auto|auto].
  Qed.

  Lemma afind_None k m : afind k m = None <-> ~ In k (akeys m).
  Proof.
    induction m as [|[a b] m IH]; cbn; [tauto|].
    destruct (eqd k a) as [->|Hne].
    - split; [discriminate|intros H; exfalso; auto].
    - rewrite IH; split; intros H; intuition congruence.
  Qed.

  Lemma In_afind k v m : NoDup (akeys m) -> In (k, v) m -> afind k m = Some v.
  Proof.
    induction m as [|[a b] m IH]; cbn; [tauto|]. intros Hnd [H|H].
    - injection H as -> ->. destruct (eqd k k); congruence.
    - inversion Hnd as [|? ? Hni Hnd']; subst. destruct (eqd k a) as [->|]; auto.
      exfalso; apply Hni. change a with (fst (a, v)). now apply in_map.
  Qed.

  Lemma akeys_aset k v m : forall x, In x (akeys (aset k v m)) <-> x = k \/ In x (akeys m).
  Proof.
    intros x. induction m as [|[a b] m IH]; cbn; [intuition|].
    destruct (eqd k a) as [->|]; cbn; [|rewrite IH]; intuition congruence.
  Qed.

  Lemma NoDup_aset k v m : NoDup (akeys m) -> NoDup (akeys (aset k v m)).
  Proof.
    induction m as [|[a b] m IH]; cbn; intros Hnd; [repeat constructor; auto|].
    inversion Hnd as [|? ? Hni Hnd']; subst. destruct (eqd k a) as [->|Hne]; cbn; constructor; auto.
    intros H. apply akeys_aset in H. intuition congruence.
  Qed.

  Lemma NoDup_filter_keys (f : K * V -> bool) m : NoDup (akeys m) -> NoDup (akeys (filter f m)).
  Proof.
    induction m as [|[a b] m IH]; cbn; intros Hnd; auto.
    inversion Hnd as [|? ? Hni Hnd']; subst. destruct (f (a, b)); cbn; auto.
    constructor; auto. intros H; apply Hni. unfold akeys in *. apply in_map_iff in H as [[c d] [<- H]].
    apply filter_In in H as [H _]. now apply (in_map fst) in H.
  Qed.

  Lemma NoDup_aerase k m : NoDup (akeys m) -> NoDup (akeys (aerase k m)).
  Proof. apply NoDup_filter_keys. Qed.

  Lemma Permutation_afind k m m' : NoDup (akeys m) -> Permutation m m' -> afind k m' = afind k m.
  Proof.
    intros Hnd Hp. assert (Hnd' : NoDup (akeys m')).
    { unfold akeys in *. eapply Permutation_NoDup; [|exact Hnd]. now apply Permutation_map. }
    destruct (afind k m) as [v|] eqn:E.
    - apply afind_Some_In in E. apply In_afind; auto. eapply Permutation_in; eauto.
    - apply afind_None in E. apply afind_None. intros H; apply E.
      unfold akeys in *. eapply Permutation_in; [|exact H]. apply Permutation_map. now symmetry.
  Qed.

  (** map over values, e.g. negation of every stored mask *)
  Lemma afind_mapval (f : V -> V) k m :
    afind k (map (fun e => (fst e, f (snd e))) m) = option_map f (afind k m).
  Proof. induction m as [|[a b] m IH]; cbn; auto. destruct (eqd k a); auto. Qed.

  Lemma akeys_mapval (f : V -> V) (m : list (K * V)) :
    akeys (map (fun e => (fst e, f (snd e))) m) = akeys m.
  Proof. unfold akeys. rewrite map_map. reflexivity. Qed.
End AList.
