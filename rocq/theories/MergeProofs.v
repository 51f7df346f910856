(** Proofs for Merge.v. *)
From Verif Require Import Base Merge MergeSpec.
Open Scope Z_scope.

Section P.
  Context {D : Type} (dplus : D -> D -> D) (dzero : D) (finish : list D -> list D).
  Notation merge := (mergeParallelData dplus finish).
  Notation all := (merge_all dplus finish).

  Lemma zip_length a : forall b, length a = length b -> length (zip_plus dplus a b) = length a.
  Proof. induction a as [|x a IH]; intros [|y b] H; cbn in *; try lia. rewrite IH; lia. Qed.
  Lemma zip_nth d a : forall b i, length a = length b -> (i < length a)%nat ->
    nth i (zip_plus dplus a b) d = dplus (nth i a d) (nth i b d).
  Proof.
    induction a as [|x a IH]; intros [|y b] i H Hi; cbn in *; try lia.
    destruct i; auto. apply IH; lia.
  Qed.

  Lemma merge_full p ncpu x : ncpu <= mcount x -> merge p ncpu x = Throw RuntimeError x.
  Proof. intros H. unfold mergeParallelData. apply Z.leb_le in H. now rewrite H. Qed.
  Lemma merge_bad p ncpu x : mcount x < ncpu -> length p <> length (mval x) -> merge p ncpu x = Throw InvalidArgument x.
  Proof.
    intros H Hl. unfold mergeParallelData. apply Z.leb_gt in H. rewrite H. unfold executeParallelMerge.
    apply Nat.eqb_neq in Hl. now rewrite Hl.
  Qed.
  Lemma merge_ok p ncpu x : mcount x < ncpu -> length p = length (mval x) ->
    merge p ncpu x =
    Ok (let y := {| mval := zip_plus dplus (mval x) p; mcount := mcount x + 1; nfinish := nfinish x |} in
        if mcount x + 1 =? ncpu then finishValue finish y else y).
  Proof.
    intros H Hl. unfold mergeParallelData. apply Z.leb_gt in H. rewrite H. unfold executeParallelMerge.
    apply Nat.eqb_eq in Hl. now rewrite Hl.
  Qed.

  (** value before finishValue *)
  Fixpoint plain (ps : list (list D)) (v : list D) : list D :=
    match ps with [] => v | p :: r => plain r (zip_plus dplus v p) end.
  Lemma plain_length n ps : forall v, length v = n -> Forall (fun p => length p = n) ps -> length (plain ps v) = n.
  Proof.
    induction ps as [|p ps IH]; intros v Hv H; cbn; auto. inversion H; subst. apply IH; auto.
    rewrite zip_length; auto.
  Qed.
  Lemma plain_nth d n ps : forall v i, length v = n -> Forall (fun p => length p = n) ps -> (i < n)%nat ->
    nth i (plain ps v) d = column dplus v ps i d.
  Proof.
    induction ps as [|p ps IH]; intros v i Hv H Hi; cbn; auto. inversion H; subst.
    rewrite IH; auto; [|rewrite zip_length; auto].
    unfold column. rewrite zip_nth by (auto; lia). reflexivity.
  Qed.

  Lemma filter_all {A} (f : A -> bool) l : Forall (fun p => f p = true) (filter f l).
  Proof. induction l as [|a l IH]; cbn; auto. destruct (f a) eqn:E; auto. Qed.

  (** state after any sequence of merges *)
  Lemma merge_all_state ps ncpu : forall x, 0 <= mcount x < ncpu ->
    let n := length (mval x) in
    let acc := accepted n (Z.to_nat (ncpu - mcount x)) ps in
    let y := all ps ncpu x in
    mcount y = mcount x + Z.of_nat (length acc) /\
    (if Nat.eqb (length acc) (Z.to_nat (ncpu - mcount x))
     then mval y = finish (plain acc (mval x)) /\ nfinish y = S (nfinish x)
     else mval y = plain acc (mval x) /\ nfinish y = nfinish x).
  Proof.
    assert (Full : forall qs z, ncpu <= mcount z -> all qs ncpu z = z).
    { induction qs as [|q qs IHq]; intros z Hz; cbn; auto. rewrite merge_full by auto. now apply IHq. }
    induction ps as [|p ps IH]; intros x Hx n acc y.
    - assert (E : acc = []) by (unfold acc, accepted; cbn; now rewrite firstn_nil).
      rewrite E. unfold y. cbn. split; [lia|].
      destruct (Z.to_nat (ncpu - mcount x)) eqn:Em; [lia|auto].
    - unfold acc, accepted. cbn [filter].
      destruct (Nat.eqb_spec (length p) n) as [El|El].
      + destruct (Z.to_nat (ncpu - mcount x)) as [|m] eqn:Em; [lia|]. cbn [firstn length Nat.eqb].
        unfold y. cbn [merge_all]. rewrite (merge_ok p ncpu x) by (auto; lia). cbn [mcount].
        destruct (Z.eqb_spec (mcount x + 1) ncpu) as [Ez|Ez].
        * assert (m = 0%nat) by lia. subst m. cbn [firstn length Nat.eqb].
          rewrite Full by (cbn; lia). cbn. repeat split; lia.
        * set (x1 := {| mval := zip_plus dplus (mval x) p; mcount := mcount x + 1; nfinish := nfinish x |}).
          assert (Hl : length (mval x1) = n) by (cbn; apply zip_length; auto).
          specialize (IH x1). rewrite Hl in IH. cbn [mcount x1] in IH.
          replace (Z.to_nat (ncpu - (mcount x + 1))) with m in IH by lia.
          destruct IH as [IH1 IH2]; [lia|]. fold (accepted n m ps).
          cbn [merge_all]. rewrite IH1. split; [lia|]. exact IH2.
      + unfold y. cbn [merge_all]. rewrite (merge_bad p ncpu x) by (auto; lia). now apply IH.
  Qed.

  Theorem merge_protocol x ps ncpu d : 0 <= mcount x < ncpu ->
    let n := length (mval x) in
    let acc := accepted n (Z.to_nat (ncpu - mcount x)) ps in
    let y := all ps ncpu x in
    mcount y = mcount x + Z.of_nat (length acc) /\
    exists v, length v = n /\ (forall i, (i < n)%nat -> nth i v d = column dplus (mval x) acc i d) /\
      (if mcount y =? ncpu then mval y = finish v /\ nfinish y = S (nfinish x)
       else mval y = v /\ nfinish y = nfinish x).
  Proof.
    intros Hx n acc y. destruct (merge_all_state ps ncpu x Hx) as [H1 H2]. fold n acc y in H1, H2.
    assert (HF : Forall (fun p : list D => length p = n) acc).
    { unfold acc, accepted. apply Forall_forall. intros p Hp. apply (In_nth _ _ []) in Hp. destruct Hp as (k & Hk & <-).
      rewrite firstn_length in Hk.
      set (m := Z.to_nat (ncpu - mcount x)) in *. set (fl := filter _ ps) in *.
      assert (Hin : In (nth k (firstn m fl) []) fl).
      { assert (Hi : In (nth k (firstn m fl) []) (firstn m fl)) by (apply nth_In; rewrite firstn_length; lia).
        generalize dependent (nth k (firstn m fl) []). intros q Hi. rewrite <- (firstn_skipn m fl). apply in_or_app. auto. }
      apply filter_In in Hin. destruct Hin as [_ Hin]. now apply Nat.eqb_eq. }
    split; auto. exists (plain acc (mval x)). split; [apply plain_length; auto|]. split.
    - intros i Hi. apply plain_nth with (n := n); auto.
    - assert (Eb : (mcount y =? ncpu) = Nat.eqb (length acc) (Z.to_nat (ncpu - mcount x))).
      { rewrite H1. destruct (Z.eqb_spec (mcount x + Z.of_nat (length acc)) ncpu),
          (Nat.eqb_spec (length acc) (Z.to_nat (ncpu - mcount x))); lia || reflexivity. }
      rewrite Eb. exact H2.
  Qed.

  Theorem merge_rejects x p ncpu :
    (ncpu <= mcount x -> merge p ncpu x = Throw RuntimeError x) /\
    (mcount x < ncpu -> length p <> length (mval x) -> merge p ncpu x = Throw InvalidArgument x).
  Proof. split; [apply merge_full|apply merge_bad]. Qed.

  Lemma column_perm (d : D) : (forall a b, dplus a b = dplus b a) -> (forall a b c, dplus a (dplus b c) = dplus (dplus a b) c) ->
    forall ps qs start i, Permutation ps qs -> column dplus start ps i d = column dplus start qs i d.
  Proof.
    intros C A ps qs start i HP. unfold column. generalize (nth i start d) as v. induction HP; intros v; cbn; auto.
    - f_equal. rewrite <- !A. f_equal. apply C.
    - now rewrite IHHP1, IHHP2.
  Qed.
End P.

Lemma filter_id {A} (f : A -> bool) l : Forall (fun p => f p = true) l -> filter f l = l.
Proof. induction 1 as [|x l Hx _ IH]; cbn; auto. now rewrite Hx, IH. Qed.
Lemma nth_zero {D} (z : D) (v : list D) i : nth i (map (fun _ => z) v) z = z.
Proof. revert i; induction v as [|x v IH]; intros [|i]; cbn; auto. Qed.
Theorem merge_after_reset {D} (dplus : D -> D -> D) (dzero : D) (finish : list D -> list D) x ps :
  ps <> [] -> Forall (fun p => length p = length (mval x)) ps ->
  let ncpu := Z.of_nat (length ps) in
  let y := merge_all dplus finish ps ncpu (resetValue dzero x) in
  mcount y = ncpu /\ nfinish y = S (nfinish x) /\
  exists v, mval y = finish v /\ length v = length (mval x) /\
    forall i, (i < length (mval x))%nat -> nth i v dzero = fold_left (fun acc p => dplus acc (nth i p dzero)) ps dzero.
Proof.
  intros Hne HF ncpu y.
  assert (HL : (0 < length ps)%nat) by (destruct ps; [congruence|cbn; lia]).
  destruct (merge_protocol dplus finish (resetValue dzero x) ps ncpu dzero) as (H1 & v & H2 & H3 & H4).
  { cbn. unfold ncpu. lia. }
  fold y in H1, H4. cbn [mcount resetValue] in *.
  assert (HA : accepted (length (mval (resetValue dzero x))) (Z.to_nat (ncpu - 0)) ps = ps).
  { unfold accepted. rewrite filter_id.
    - unfold ncpu. rewrite Z.sub_0_r, Nat2Z.id. apply firstn_all.
    - eapply Forall_impl; [|exact HF]. cbn. intros p Hp. rewrite map_length. now apply Nat.eqb_eq. }
  rewrite HA in *. rewrite H1 in H4 |- *. change (0 + Z.of_nat (length ps)) with ncpu in *. rewrite Z.eqb_refl in H4. destruct H4 as [H4 H5].
  split; auto. split; auto. exists v. split; auto. split; [rewrite H2; cbn; apply map_length|].
  intros i Hi. rewrite H3 by (cbn; rewrite map_length; auto). unfold column. cbn [mval resetValue]. now rewrite nth_zero.
Qed.
