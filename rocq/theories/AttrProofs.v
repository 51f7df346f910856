From Coq Require Import String Reals.
From Verif Require Import Base AList Attr AttrSpec.
Open Scope list_scope.
Arguments string_dec : simpl never.

Section Proofs.
  Context {St : Type}.
  Notation described := (@described St).

  Lemma construct_spec (s : St) l : state (construct s l) = s /\ (forall n, lookupattr n (construct s l) = newest n l) /\ NoDup (akeys (table (construct s l))).
  Proof.
    unfold construct, newest. rewrite <- fold_left_rev_right. induction (rev l) as [|[k a] r IH]; cbn [fold_right newest_rev].
    - split; [reflexivity|split; [reflexivity|constructor]].
    - destruct IH as (H1 & H2 & H3). unfold register at 1. cbn [state fst snd]. split; [exact H1|]. split.
      + intros n. unfold lookupattr, register at 1. cbn [table fst snd]. rewrite afind_aset. destruct (string_dec n k); auto. apply H2.
      + unfold register at 1. cbn [table fst snd]. now apply NoDup_aset.
  Qed.

  Lemma count_acc name (d : list described) k :
    fold_left (countvisit name) (build d) k = k + length (providers name d).
  Proof.
    revert k. induction d as [|[s l] d IH]; intros k; cbn [build map fold_left providers filter]; [cbn; lia|].
    fold (build d). fold (providers name d). rewrite IH. unfold countvisit. cbn [fst snd].
    destruct (construct_spec s l) as (_ & H & _). rewrite H. destruct (newest name l); cbn [length]; lia.
  Qed.

  Lemma count_spec name (d : list described) : countattr name (build d) = length (providers name d).
  Proof. unfold countattr. now rewrite count_acc. Qed.

  Lemma check_spec name (d : list described) : checkAttributeName name (build d) =
    match providers name d with [] => Some RuntimeError | [_] => None | _ => Some LogicError end.
  Proof. unfold checkAttributeName. rewrite count_spec. destruct (providers name d) as [|? [|? ?]]; reflexivity. Qed.

  Lemma get_acc name (d : list described) v :
    providers name d = [] -> fold_left (getvisit name) (build d) v = v.
  Proof.
    revert v. induction d as [|[s l] d IH]; intros v; cbn [build map fold_left providers filter]; [reflexivity|].
    fold (build d). fold (providers name d). cbn [fst snd]. unfold getvisit at 2. destruct (construct_spec s l) as (_ & H & _). rewrite H.
    destruct (newest name l); [discriminate|]. apply IH.
  Qed.

  Lemma get_one name (d : list described) x v : providers name d = [x] ->
    exists a, newest name (snd x) = Some a /\ fold_left (getvisit name) (build d) v = Some (getter a (fst x)).
  Proof.
    revert v. induction d as [|[s l] d IH]; intros v; cbn [build map fold_left providers filter]; [discriminate|].
    fold (build d). fold (providers name d). cbn [fst snd]. unfold getvisit at 2. destruct (construct_spec s l) as (Hs & H & _). rewrite H, Hs.
    destruct (newest name l) as [a|] eqn:E.
    - intros [= <- Hp]. exists a. split; auto. now rewrite get_acc.
    - apply IH.
  Qed.

  (** replace the state of the only provider *)
  Definition with_state name (s' : St) (x : described) : described :=
    match newest name (snd x) with Some _ => (s', snd x) | None => x end.

  Lemma construct_state s s' l : mkInst s' (table (construct (St := St) s l)) = construct s' l.
  Proof.
    unfold construct. rewrite <- !fold_left_rev_right. induction (rev l) as [|[k a] r IH]; cbn [fold_right]; [reflexivity|].
    unfold register at 1 3. cbn [state table fst snd]. rewrite <- IH. reflexivity.
  Qed.
  Lemma construct_self s l : mkInst (state (construct (St := St) s l)) (table (construct s l)) = construct s l.
  Proof. destruct (construct s l); reflexivity. Qed.

  Lemma set_none name x (d : list described) : providers name d = [] -> setvisit name x (build d) = Ok (build d).
  Proof.
    induction d as [|[s l] d IH]; cbn [build map setvisit providers filter]; [reflexivity|].
    fold (build d). fold (providers name d). cbn [fst snd]. destruct (construct_spec s l) as (Hs & H & _). rewrite H.
    destruct (newest name l); [discriminate|]. intros Hp. rewrite IH by auto. now rewrite construct_self.
  Qed.

  Lemma with_none name s' (d : list described) : providers name d = [] -> map (with_state name s') d = d.
  Proof.
    induction d as [|[s l] d IH]; cbn [map providers filter]; [reflexivity|]. fold (providers name d).
    unfold with_state at 1. cbn [snd]. destruct (newest name l); [discriminate|]. intros H. now rewrite IH.
  Qed.

  Lemma set_one name x (d : list described) p : providers name d = [p] ->
    exists a, newest name (snd p) = Some a /\ setvisit name x (build d) =
      match setValue a x (fst p) with
      | Ok s' => Ok (build (map (with_state name s') d))
      | Throw e s' => Throw e (build (map (with_state name s') d))
      | UB => UB
      end.
  Proof.
    induction d as [|[s l] d IH]; cbn [build map setvisit providers filter]; [discriminate|].
    fold (build d). fold (providers name d). cbn [fst snd]. destruct (construct_spec s l) as (Hs & H & _). rewrite H, Hs.
    destruct (newest name l) as [a|] eqn:E.
    - intros [= <- Hp]. exists a. split; auto. cbn [fst snd]. rewrite set_none by auto.
      destruct (setValue a x s) as [s'|e s'|]; auto; unfold build; cbn [map]; rewrite with_none by auto; unfold with_state; cbn [snd]; rewrite E; cbn [fst snd];
        rewrite construct_state; reflexivity.
    - intros Hp. destruct (IH Hp) as (a & Ha & Hset). exists a. split; auto. rewrite Hset.
      destruct (setValue a x (fst p)) as [s'|e s'|]; auto; unfold build; cbn [map]; 
        (assert (Hw : with_state name s' (s, l) = (s, l)) by (unfold with_state; cbn [snd]; now rewrite E)); rewrite Hw; cbn [fst snd];
        rewrite <- Hs at 1; rewrite construct_self; reflexivity.
  Qed.

  Lemma providers_with name n s' (d : list described) : providers n (map (with_state name s') d) = map (with_state name s') (providers n d).
  Proof.
    induction d as [|[s l] d IH]; cbn [map providers filter]; [reflexivity|]. fold (providers n d). fold (providers n (map (with_state name s') d)).
    rewrite IH. assert (Hs : snd (with_state name s' (s, l)) = l) by (unfold with_state; destruct (newest name (snd (s, l))); reflexivity).
    rewrite Hs. cbn [snd]. destruct (newest n l); reflexivity.
  Qed.

  Lemma names_spec b (d : list described) n :
    In n (flat_map (namesvisit b) (build d)) <->
    exists x a, In x d /\ newest n (snd x) = Some a /\ (b = true -> isreadonly a = false).
  Proof.
    rewrite in_flat_map. unfold build, namesvisit. split.
    - intros (c & Hc & Hn). apply in_map_iff in Hc as ([s l] & <- & Hx). apply in_map_iff in Hn as ([k a] & <- & Hf).
      apply filter_In in Hf as [Hi Hb]. cbn [fst snd] in *. destruct (construct_spec s l) as (_ & H & Hnd).
      exists (s, l), a. split; auto. split; [cbn [snd]; rewrite <- H; now apply In_afind|].
      intros ->. cbn in Hb. now destruct (isreadonly a).
    - intros ([s l] & a & Hx & Ha & Hb). exists (construct s l). split; [apply in_map_iff; exists (s, l); auto|].
      destruct (construct_spec s l) as (_ & H & Hnd). cbn [snd] in Ha. rewrite <- H in Ha. apply afind_Some_In in Ha.
      apply in_map_iff. exists (n, a). split; auto. apply filter_In. split; auto. cbn [snd].
      destruct b; cbn; auto. now rewrite Hb.
  Qed.

  Lemma providers_In name (d : list described) : providers name d <> [] <-> exists x a, In x d /\ newest name (snd x) = Some a.
  Proof.
    split.
    - destruct (providers name d) as [|x l] eqn:E; [easy|]. intros _.
      assert (Hx : In x (providers name d)) by (rewrite E; now left). apply filter_In in Hx as [Hx Hn].
      destruct (newest name (snd x)) as [a|] eqn:Ea; [|easy]. eauto.
    - intros (x & a & Hx & Ha) E. assert (Hf : In x (providers name d)) by (apply filter_In; rewrite Ha; auto). rewrite E in Hf. easy.
  Qed.

  Lemma newest_In name l (a : attr St) : newest name l = Some a -> In name (map fst l).
  Proof.
    unfold newest. intros H. apply (in_rev (map fst l)). rewrite <- map_rev. revert H.
    induction (rev l) as [|[k b] r IH]; cbn; [discriminate|]. destruct (string_dec name k); [now left|right; auto].
  Qed.

  (** *** Names of different components differ *)
  Inductive kind := KPwm | KProf | KBase | KEnvQ | KEnvS | KEnvSp | KEnvSt | KCalc.
  Definition kind_of (c : component) : kind :=
    match c with
    | PwConstant | PwDebyeWaller | PwJeong => KPwm
    | ProfGaussian | ProfCropped => KProf
    | BaseZero | BaseLinear => KBase
    | EnvQResolution => KEnvQ | EnvScale => KEnvS | EnvSpherical => KEnvSp | EnvStepCut => KEnvSt
    | CalcPdf | CalcDebyePdf | CalcBvs | CalcOverlap | CalcPlain => KCalc
    end.
  Lemma kind_dec (a b : kind) : {a = b} + {a <> b}.
  Proof. decide equality. Qed.

  Lemma name_kind n c c' : In n (map fst (registered_names c)) -> In n (map fst (registered_names c')) -> kind_of c = kind_of c'.
  Proof.
    destruct c, c'; cbn; intros H H'; try reflexivity; exfalso; repeat destruct H as [<-|H]; try easy;
      repeat destruct H' as [H'|H']; try discriminate; easy.
  Qed.

  Lemma newest_snd name (l : list (string * attr St)) a : newest name l = Some a -> In (name, a) l.
  Proof.
    unfold newest. intros H. apply in_rev. revert H. induction (rev l) as [|[k b] r IH]; cbn; [discriminate|].
    destruct (string_dec name k) as [->|]; [intros [= ->]; now left|right; auto].
  Qed.
  Lemma newest_ex name (l : list (string * attr St)) : In name (map fst l) -> exists a, newest name l = Some a.
  Proof.
    unfold newest. intros H. apply (in_rev (map fst l)) in H. rewrite <- map_rev in H. revert H.
    induction (rev l) as [|[k b] r IH]; cbn; [easy|]. intros [E|H]; destruct (string_dec name k); eauto; congruence.
  Qed.
  (** the names of a component with the flag of each; registered twice means registered with the same flag *)
  Lemma flag_fun c n b b' : In (n, b) (registered_names c) -> In (n, b') (registered_names c) -> b = b'.
  Proof.
    destruct c; cbn; intros H H'; repeat destruct H as [H|H]; try easy; injection H as <- <-;
      repeat destruct H' as [H'|H']; try easy; injection H'; congruence.
  Qed.
  Lemma instance_names (cs : list component) (d : list described) name : Forall2 instance_of cs d ->
    ((exists x a, In x d /\ newest name (snd x) = Some a) <-> exists c b, In c cs /\ In (name, b) (registered_names c)) /\
    ((exists x a, In x d /\ newest name (snd x) = Some a /\ setter a <> None) <-> exists c, In c cs /\ In (name, true) (registered_names c)).
  Proof.
    assert (Hn : forall c (x : described) a, instance_of c x -> newest name (snd x) = Some a -> In (name, negb (isreadonly a)) (registered_names c)).
    { intros c x a Hi Ha. rewrite <- Hi. apply newest_snd in Ha.
      apply (in_map (fun e : string * attr St => (fst e, negb (isreadonly (snd e))))) in Ha. exact Ha. }
    assert (He : forall c (x : described) b, instance_of c x -> In (name, b) (registered_names c) ->
              exists a, newest name (snd x) = Some a /\ negb (isreadonly a) = b).
    { intros c x b Hi Hb. destruct (newest_ex name (snd x)) as (a & Ha).
      - rewrite <- Hi in Hb. apply (in_map fst) in Hb. rewrite map_map in Hb. exact Hb.
      - exists a. split; auto. eapply flag_fun; eauto. }
    assert (Hs : forall a : attr St, negb (isreadonly a) = true <-> setter a <> None).
    { intros a. unfold isreadonly. destruct (setter a); cbn; split; congruence. }
    intros HF. split; split.
    - intros (x & a & Hx & Ha). induction HF as [|c y cs d Hi HF IH]; [easy|]. destruct Hx as [->|Hx].
      + exists c, (negb (isreadonly a)). split; [now left|eauto].
      + destruct (IH Hx) as (c' & b & Hc & Hb). exists c', b. split; [now right|auto].
    - intros (c & b & Hc & Hb). induction HF as [|c' y cs d Hi HF IH]; [easy|]. destruct Hc as [->|Hc].
      + destruct (He _ _ _ Hi Hb) as (a & Ha & _). exists y, a. split; [now left|auto].
      + destruct (IH Hc) as (x & a & Hx & Ha). exists x, a. split; [now right|auto].
    - intros (x & a & Hx & Ha & Hset). induction HF as [|c y cs d Hi HF IH]; [easy|]. destruct Hx as [->|Hx].
      + exists c. split; [now left|]. apply Hs in Hset. rewrite <- Hset. eauto.
      + destruct (IH Hx) as (c' & Hc & Hb). exists c'. split; [now right|auto].
    - intros (c & Hc & Hb). induction HF as [|c' y cs d Hi HF IH]; [easy|]. destruct Hc as [->|Hc].
      + destruct (He _ _ _ Hi Hb) as (a & Ha & Hf). apply Hs in Hf. exists y, a. split; [now left|auto].
      + destruct (IH Hc) as (x & a & Hx & Ha). exists x, a. split; [now right|auto].
  Qed.

  Lemma providers_le1 name (cs : list component) (d : list described) :
    NoDup (map kind_of cs) -> Forall2 instance_of cs d -> length (providers name d) <= 1.
  Proof.
    intros Hnd HF. induction HF as [|c [s l] cs d Hi HF IH]; [cbn; lia|].
    cbn [map] in Hnd. inversion Hnd as [|? ? Hni Hnd']; subst. cbn [providers filter]. fold (providers name d). cbn [snd].
    destruct (newest name l) as [a|] eqn:E; [|auto].
    assert (Hz : providers name d = []); [|rewrite Hz; cbn; lia].
    destruct (providers name d) as [|y r] eqn:Ep; auto. exfalso. apply Hni.
    assert (Hy : In y (providers name d)) by (rewrite Ep; now left). apply filter_In in Hy as [Hy Hn].
    destruct (newest name (snd y)) as [b|] eqn:Eb; [|easy].
    apply newest_In in E. apply newest_In in Eb.
    assert (Hc : forall c (x : described), instance_of c x -> map fst (snd x) = map fst (registered_names c)).
    { intros c0 x Hx. unfold instance_of in Hx. rewrite <- Hx, map_map. reflexivity. }
    change l with (snd (s, l)) in E. rewrite (Hc _ _ Hi) in E.
    clear - HF Hy Eb E Hc. induction HF as [|c' y' cs d Hi' HF IH]; [easy|]. cbn [map]. destruct Hy as [->|Hy].
    - left. rewrite (Hc _ _ Hi') in Eb. symmetry. eapply name_kind; eauto.
    - right. auto.
  Qed.

  Lemma env_kinds envs : (forall e, In e envs -> is_envelope e) -> NoDup envs ->
    NoDup (map kind_of envs) /\ forall k, In k (map kind_of envs) -> k = KEnvQ \/ k = KEnvS \/ k = KEnvSp \/ k = KEnvSt.
  Proof.
    intros He Hnd. split.
    - induction Hnd as [|e l Hni Hnd IH]; cbn; constructor.
      + intros H. apply Hni. apply in_map_iff in H as (e' & Hk & He').
        assert (e = e'); [|congruence]. assert (H1 := He e (or_introl eq_refl)). assert (H2 := He e' (or_intror He')).
        destruct H1 as [->|[->|[->| ->]]], H2 as [->|[->|[->| ->]]]; cbn in Hk; congruence.
      + apply IH. intros; apply He; now right.
    - intros k Hk. apply in_map_iff in Hk as (e & <- & Hin). apply He in Hin. destruct Hin as [->|[->|[->| ->]]]; cbn; auto.
  Qed.

  Lemma NoDup_env_calc envs c : is_envelope EnvScale -> (forall e, In e envs -> is_envelope e) -> NoDup envs -> kind_of c = KCalc ->
    NoDup (map kind_of (envs ++ [c])).
  Proof.
    intros _ He Hnd Hk. destruct (env_kinds _ He Hnd) as [H1 H2]. rewrite map_app. cbn [map]. rewrite Hk.
    apply Permutation_NoDup with (l := KCalc :: map kind_of envs); [apply Permutation_cons_append|].
    constructor; auto. intros H. apply H2 in H. intuition discriminate.
  Qed.

  Lemma pdf_kinds pwm prof bas envs : is_pwm pwm -> is_profile prof -> is_baseline bas ->
    (forall e, In e envs -> is_envelope e) -> NoDup envs -> NoDup (map kind_of (pdf_accept pwm prof bas envs)).
  Proof.
    intros Hp Hr Hb He Hnd. destruct (env_kinds _ He Hnd) as [H1 H2]. unfold pdf_accept. cbn [map].
    assert (Kp : kind_of pwm = KPwm) by (destruct Hp as [->|[->| ->]]; reflexivity).
    assert (Kr : kind_of prof = KProf) by (destruct Hr as [->| ->]; reflexivity).
    assert (Kb : kind_of bas = KBase) by (destruct Hb as [->| ->]; reflexivity). rewrite Kp, Kr, Kb.
    assert (H0 : NoDup (map kind_of (envs ++ [CalcPdf]))) by (apply NoDup_env_calc; auto; right; left; reflexivity).
    assert (Hin : forall k, In k (map kind_of (envs ++ [CalcPdf])) -> k = KEnvQ \/ k = KEnvS \/ k = KEnvSp \/ k = KEnvSt \/ k = KCalc).
    { intros k. rewrite map_app, in_app_iff. intros [H|[<-|[]]]; [apply H2 in H; tauto|cbn; auto]. }
    repeat constructor; auto; cbn; intros H; repeat destruct H as [H|H]; try discriminate; apply Hin in H; intuition discriminate.
  Qed.

  Lemma debye_kinds pwm envs : is_pwm pwm -> (forall e, In e envs -> is_envelope e) -> NoDup envs -> NoDup (map kind_of (debye_accept pwm envs)).
  Proof.
    intros Hp He Hnd. destruct (env_kinds _ He Hnd) as [H1 H2]. unfold debye_accept. cbn [map].
    assert (Kp : kind_of pwm = KPwm) by (destruct Hp as [->|[->| ->]]; reflexivity). rewrite Kp.
    assert (H0 : NoDup (map kind_of (envs ++ [CalcDebyePdf]))) by (apply NoDup_env_calc; auto; right; left; reflexivity).
    constructor; auto. rewrite map_app, in_app_iff. intros [H|[H|[]]]; [apply H2 in H; intuition discriminate|discriminate].
  Qed.
End Proofs.
