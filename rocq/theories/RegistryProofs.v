From Coq Require Import String.
From Verif Require Import Base AList Registry RegistrySpec.
Open Scope list_scope.
Arguments string_dec : simpl never.

Section Proofs.
  Context {C : Type} (type_of : C -> string).
  Notation registry := (@registry C).
  Notation find := (@find C).

  (** invariant: keys unique, addresses below [fresh], equal addresses are equal prototypes, and every
      prototype is registered under its own type *)
  Record inv (r : registry) : Prop := {
    i_keys : NoDup (akeys (reg r));
    i_fresh : forall n p, find r n = Some p -> fst p < fresh r;
    i_same : forall n m p q, find r n = Some p -> find r m = Some q -> fst p = fst q -> p = q;
    i_own : forall n p, find r n = Some p -> find r (type_of (snd p)) = Some p
  }.

  Lemma inv_empty : inv empty_registry.
  Proof. split; cbn; try discriminate; constructor. Qed.

  Lemma find_set r n p k m : find (mkReg (aset string_dec n p (reg r)) k) m = if string_dec m n then Some p else find r m.
  Proof. unfold Registry.find. cbn [reg]. apply afind_aset. Qed.

  Lemma inv_register c r r' : inv r -> registerThisType type_of c r = Ok r' -> inv r'.
  Proof.
    intros [Hk Hf Hs Ho]. unfold registerThisType. destruct (find r (type_of c)) eqn:E; [discriminate|]. intros [= <-].
    split.
    - cbn. now apply NoDup_aset.
    - intros n p. rewrite find_set. cbn [fresh]. destruct (string_dec n (type_of c)); [intros [= <-]; cbn; lia|].
      intros H. apply Hf in H. lia.
    - intros n m p q. rewrite !find_set. destruct (string_dec n (type_of c)), (string_dec m (type_of c)).
      + congruence.
      + intros [= <-] H Ha. apply Hf in H. cbn in Ha. lia.
      + intros H [= <-] Ha. apply Hf in H. cbn in Ha. lia.
      + apply Hs.
    - intros n p. rewrite !find_set. destruct (string_dec n (type_of c)) as [->|Hne].
      + intros [= <-]. cbn. destruct (string_dec (type_of c) (type_of c)); congruence.
      + intros H. destruct (string_dec (type_of (snd p)) (type_of c)) as [Ht|]; [|eauto].
        apply Ho in H. congruence.
  Qed.

  Lemma inv_put r n p : inv r -> find r (type_of (snd p)) = Some p ->
    (find r n = None \/ exists q, find r n = Some q /\ fst q = fst p) ->
    inv (mkReg (aset string_dec n p (reg r)) (fresh r)).
  Proof.
    intros [Hk Hf Hs Ho] Hp Hn. split.
    - cbn. now apply NoDup_aset.
    - intros m q. rewrite find_set. cbn [fresh]. destruct (string_dec m n); [intros [= <-]; eauto|eauto].
    - intros a b q1 q2. rewrite !find_set. destruct (string_dec a n), (string_dec b n); intros; try congruence.
      + injection H as <-. eapply Hs; eauto.
      + injection H0 as <-. eapply Hs; eauto.
      + eapply (Hs a b); eauto.
    - intros m q. rewrite !find_set. destruct (string_dec m n) as [->|Hne].
      + intros [= <-]. destruct (string_dec (type_of (snd p)) n); auto.
      + intros H. destruct (string_dec (type_of (snd q)) n) as [Ht|]; [|eauto].
        apply Ho in H. rewrite Ht in H. destruct Hn as [Hn|(q' & Hn & Ha)]; [congruence|].
        rewrite H in Hn. injection Hn as <-. f_equal. symmetry. eapply Hs; eauto.
  Qed.

  Lemma inv_alias tp al r r' : inv r -> aliasType tp al r = Ok r' -> inv r'.
  Proof.
    intros Hi. unfold aliasType. destruct (find r tp) as [p|] eqn:E; [|discriminate].
    destruct (find r al) as [q|] eqn:E2.
    - destruct (Nat.eqb_spec (fst q) (fst p)); [|discriminate]. intros [= <-]. apply inv_put; eauto.
      eapply i_own; eauto.
    - intros [= <-]. apply inv_put; auto. eapply i_own; eauto.
  Qed.

  Lemma erase_all_spec a m : erase_all (C := C) a m = (filter (fun e => negb (Nat.eqb (fst (snd e)) a)) m, length (filter (fun e => Nat.eqb (fst (snd e)) a) m)).
  Proof.
    induction m as [|[k p] m IH]; cbn [erase_all filter]; auto.
    rewrite IH. cbn [snd]. destruct (Nat.eqb (fst p) a); cbn; auto.
  Qed.

  Lemma find_filter (r : registry) f k n : NoDup (akeys (reg r)) ->
    find (mkReg (filter f (reg r)) k) n = match find r n with Some p => if f (n, p) then Some p else None | None => None end.
  Proof. intros H. unfold Registry.find. cbn [reg]. now apply afind_filter. Qed.

  Lemma inv_dereg tp r : inv r -> inv (fst (deregisterType tp r)).
  Proof.
    intros Hi. unfold deregisterType. destruct (find r tp) as [p|] eqn:E; [|exact Hi].
    rewrite erase_all_spec. cbn [fst]. destruct Hi as [Hk Hf Hs Ho].
    split.
    - cbn. now apply NoDup_filter_keys.
    - intros n q. rewrite find_filter by auto. destruct (find r n) eqn:En; [|discriminate].
      destruct (negb _); [|discriminate]. intros [= <-]. cbn. eauto.
    - intros n m q1 q2. rewrite !find_filter by auto. destruct (find r n) eqn:En, (find r m) eqn:Em; try discriminate;
        repeat (destruct (negb _); try discriminate). intros [= <-] [= <-]. eapply Hs; eauto.
    - intros n q. rewrite !find_filter by auto. destruct (find r n) eqn:En; [|discriminate].
      destruct (negb _) eqn:Eb; [|discriminate]. intros [= <-]. cbn [snd] in Eb. rewrite (Ho _ _ En). cbn [snd]. now rewrite Eb.
  Qed.

  Lemma inv_step r o : inv r -> inv (reg_step type_of r o).
  Proof.
    intros Hi. destruct o; cbn [reg_step].
    - destruct (registerThisType type_of c r) eqn:E; eauto using inv_register.
      unfold registerThisType in E. destruct (find r (type_of c)); [injection E as _ <-; auto|discriminate].
    - destruct (aliasType tp al r) eqn:E; eauto using inv_alias.
      unfold aliasType in E. destruct (find r tp); [|injection E as _ <-; auto].
      destruct (find r al); [destruct (Nat.eqb _ _)|]; try discriminate. injection E as _ <-; auto.
    - now apply inv_dereg.
  Qed.

  Lemma inv_run l : inv (reg_run type_of l).
  Proof.
    unfold reg_run. rewrite <- fold_left_rev_right. induction (rev l); cbn; [apply inv_empty|now apply inv_step].
  Qed.

  (** same prototype iff same type *)
  Lemma same_type r n m p q : inv r -> find r n = Some p -> find r m = Some q ->
    Nat.eqb (fst p) (fst q) = if string_dec (type_of (snd p)) (type_of (snd q)) then true else false.
  Proof.
    intros [Hk Hf Hs Ho] Hp Hq. destruct (string_dec _ _) as [Ht|Ht].
    - apply Ho in Hp. apply Ho in Hq. rewrite Ht, Hq in Hp. injection Hp as ->. apply Nat.eqb_refl.
    - apply Nat.eqb_neq. intros Ha. apply Ht. now rewrite (Hs _ _ _ _ Hp Hq Ha).
  Qed.

  Lemma create_find (r : registry) n : createByType r n = option_map snd (find r n).
  Proof. reflexivity. Qed.

  Lemma register_spec c r n : createByType (reg_step type_of r (Register c)) n = spec_step type_of (createByType r) (Register c) n.
  Proof.
    cbn [reg_step spec_step]. unfold registerThisType. rewrite !create_find.
    destruct (find r (type_of c)) eqn:E; cbn [option_map]; [reflexivity|].
    unfold put. rewrite create_find, find_set. destruct (string_dec n (type_of c)); reflexivity.
  Qed.

  Lemma alias_spec tp al r n : inv r -> createByType (reg_step type_of r (Alias tp al)) n = spec_step type_of (createByType r) (Alias tp al) n.
  Proof.
    intros Hi. cbn [reg_step spec_step]. unfold aliasType. rewrite !create_find.
    destruct (find r tp) as [p|] eqn:E; cbn [option_map]; [|reflexivity].
    destruct (find r al) as [q|] eqn:E2; cbn [option_map].
    - destruct (Nat.eqb_spec (fst q) (fst p)); [|reflexivity].
      rewrite !create_find, find_set. destruct (string_dec n al) as [->|]; [|reflexivity]. rewrite E2. f_equal.
      rewrite (i_same _ Hi _ _ _ _ E2 E e). reflexivity.
    - unfold put. rewrite create_find, find_set. destruct (string_dec n al); reflexivity.
  Qed.

  Lemma dereg_spec tp r n : inv r -> createByType (reg_step type_of r (Deregister tp)) n = spec_step type_of (createByType r) (Deregister tp) n.
  Proof.
    intros Hi. cbn [reg_step spec_step]. unfold deregisterType. rewrite !create_find.
    destruct (find r tp) as [p|] eqn:E; cbn [option_map]; [|reflexivity].
    rewrite erase_all_spec. cbn [fst]. rewrite find_filter by apply Hi.
    rewrite !create_find. destruct (find r n) as [q|] eqn:En; cbn [option_map snd]; [|reflexivity].
    rewrite (same_type _ _ _ _ _ Hi En E). destruct (string_dec _ _); reflexivity.
  Qed.

  Lemma run_spec l n : createByType (reg_run type_of l) n = spec_names type_of l n.
  Proof.
    revert n. induction l as [|o l IH] using rev_ind; intros n; [reflexivity|].
    unfold reg_run, spec_names in *. rewrite !fold_left_app. cbn [fold_left].
    fold (reg_run type_of l) in IH. fold (reg_run type_of l).
    set (r := reg_run type_of l) in *. set (f := fold_left (spec_step type_of) l (fun _ => None)) in *.
    assert (Hi : inv r) by apply inv_run.
    assert (Hext : createByType (reg_step type_of r o) n = spec_step type_of (createByType r) o n)
      by (destruct o; auto using register_spec, alias_spec, dereg_spec).
    rewrite Hext. destruct o; cbn [spec_step]; rewrite ?IH.
    - destruct (f (type_of c)); unfold put; rewrite ?IH; auto.
    - destruct (f tp), (f al); unfold put; rewrite ?IH; auto.
    - destruct (f tp); rewrite ?IH; auto.
  Qed.

  Lemma registered_iff (r : registry) n : isRegisteredType r n = true <-> createByType r n <> None.
  Proof. unfold isRegisteredType. rewrite create_find. destruct (find r n); cbn; split; congruence. Qed.

  Lemma In_find r n p : inv r -> (In (n, p) (reg r) <-> find r n = Some p).
  Proof. intros Hi. split; [apply In_afind, Hi|apply afind_Some_In]. Qed.

  Lemma aliased_spec r al tp : inv r ->
    (In (al, tp) (getAliasedTypes type_of r) <-> exists c, createByType r al = Some c /\ type_of c = tp /\ al <> tp).
  Proof.
    intros Hi. unfold getAliasedTypes. rewrite in_flat_map. split.
    - intros ([n p] & Hin & H). cbn [fst snd] in H. destruct (string_dec n _); [easy|].
      destruct H as [[= <- <-]|[]]. apply In_find in Hin; auto. exists (snd p). rewrite create_find, Hin. auto.
    - intros (c & Hc & <- & Hne). rewrite create_find in Hc. destruct (find r al) as [p|] eqn:E; [|discriminate].
      injection Hc as <-. exists (al, p). split; [now apply In_find|]. cbn [fst snd].
      destruct (string_dec al _); [contradiction|now left].
  Qed.

  Lemma types_spec r tp : inv r ->
    (In tp (getRegisteredTypes type_of r) <-> exists c, createByType r tp = Some c /\ type_of c = tp).
  Proof.
    intros Hi. unfold getRegisteredTypes. rewrite in_map_iff. split.
    - intros ([n p] & <- & Hin). cbn [snd]. apply In_find in Hin; auto. apply (i_own _ Hi) in Hin.
      exists (snd p). rewrite create_find, Hin. auto.
    - intros (c & Hc & Ht). rewrite create_find in Hc. destruct (find r tp) as [p|] eqn:E; [|discriminate].
      injection Hc as <-. exists (tp, p). cbn [snd]. split; auto. now apply In_find.
  Qed.

  (** the number of removed names *)
  Lemma dereg_count tp r : inv r ->
    exists L, NoDup L /\ length L = snd (deregisterType tp r) /\
      forall n, In n L <-> createByType r n <> None /\ createByType (fst (deregisterType tp r)) n = None.
  Proof.
    intros Hi. unfold deregisterType. destruct (find r tp) as [p|] eqn:E.
    - rewrite erase_all_spec. cbn [fst snd].
      exists (akeys (filter (fun e => Nat.eqb (fst (snd e)) (fst p)) (reg r))). split; [|split].
      + apply NoDup_filter_keys, Hi.
      + unfold akeys. now rewrite map_length.
      + intros n. rewrite !create_find, find_filter by apply Hi. unfold akeys. rewrite in_map_iff. split.
        * intros ([k q] & <- & Hin). apply filter_In in Hin as [Hin Ha]. apply In_find in Hin; auto. cbn [fst snd] in *.
          rewrite Hin, Ha. cbn. split; congruence.
        * intros [H1 H2]. destruct (find r n) as [q|] eqn:En; [|easy]. cbn [snd] in H2.
          destruct (Nat.eqb (fst q) (fst p)) eqn:Ea; [|discriminate].
          exists (n, q). split; auto. apply filter_In. split; auto. now apply In_find.
    - exists []. cbn. split; [constructor|]. split; auto. intros n. split; [easy|intros [H1 H2]; contradiction].
  Qed.
End Proofs.
