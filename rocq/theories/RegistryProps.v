(** C40: the class registry. *)
From Coq Require Import String.
From Verif Require Import Base AList Registry RegistrySpec RegistryProofs.
Open Scope list_scope.

(** Every name resolves after any history exactly as in the specification: registration adds the type under its own
    name if the name is free, an alias of a known type is added if its name is free, deregistration drops all names
    of the type, and no call changes any other name. *)
Theorem C40_names : forall (C : Type) (type_of : C -> string) l n,
  createByType (reg_run type_of l) n = spec_names type_of l n.
Proof. intros. apply run_spec. Qed.
Print Assumptions C40_names.

(** createByType succeeds iff the name is registered; a registered name stands for one type, which is registered
    under its own name and creates the same class. *)
Theorem C40_resolves : forall (C : Type) (type_of : C -> string) l n, let r := reg_run type_of l in
  (isRegisteredType r n = true <-> createByType r n <> None) /\
  (forall c, createByType r n = Some c -> createByType r (type_of c) = Some c) /\
  (forall al tp, In (al, tp) (getAliasedTypes type_of r) <-> exists c, createByType r al = Some c /\ type_of c = tp /\ al <> tp) /\
  (forall tp, In tp (getRegisteredTypes type_of r) <-> exists c, createByType r tp = Some c /\ type_of c = tp).
Proof.
  intros C type_of l n r. assert (Hi := inv_run type_of l). fold r in Hi. split; [apply registered_iff|split; [|split]].
  - intros c Hc. rewrite create_find in *. destruct (find r n) as [p|] eqn:E; [|discriminate]. injection Hc as <-.
    now rewrite (i_own _ _ Hi _ _ E).
  - intros. now apply aliased_spec.
  - intros. now apply types_spec.
Qed.
Print Assumptions C40_resolves.

(** A call throws only in the stated cases, and then nothing changes. *)
Theorem C40_errors : forall (C : Type) (type_of : C -> string) l, let r := reg_run type_of l in
  (forall c, if isRegisteredType r (type_of c) then registerThisType type_of c r = Throw LogicError r
             else exists r', registerThisType type_of c r = Ok r') /\
  (forall tp al, match createByType r tp, createByType r al with
                 | None, _ => aliasType tp al r = Throw LogicError r
                 | Some c, Some d => if string_dec (type_of d) (type_of c) then exists r', aliasType tp al r = Ok r' /\ forall n, createByType r' n = createByType r n
                                     else aliasType tp al r = Throw LogicError r
                 | Some _, None => exists r', aliasType tp al r = Ok r'
                 end).
Proof.
  intros C type_of l r. assert (Hi := inv_run type_of l). fold r in Hi. split.
  - intros c. unfold isRegisteredType, registerThisType. destruct (find r (type_of c)); eauto.
  - intros tp al. assert (Ha := alias_spec type_of tp al r). cbn [reg_step spec_step] in Ha. revert Ha. unfold aliasType. rewrite !create_find.
    destruct (find r tp) as [p|] eqn:E; [|reflexivity]. destruct (find r al) as [q|] eqn:E2; cbn [option_map]; [|eauto].
    rewrite (same_type type_of _ _ _ _ _ Hi E2 E). destruct (string_dec _ _); eauto.
Qed.
Print Assumptions C40_errors.

(** deregisterType removes the names of that type and no other, and returns how many there were. *)
Theorem C40_deregister : forall (C : Type) (type_of : C -> string) l tp,
  let r := reg_run type_of l in let (r', k) := deregisterType tp r in
  (forall n, createByType r' n =
     match createByType r tp, createByType r n with
     | Some c, Some d => if string_dec (type_of d) (type_of c) then None else Some d
     | _, x => x
     end) /\
  exists L, NoDup L /\ length L = k /\ forall n, In n L <-> createByType r n <> None /\ createByType r' n = None.
Proof.
  intros C type_of l tp r. assert (Hi := inv_run type_of l). fold r in Hi.
  assert (Hd := fun n => dereg_spec type_of tp r n Hi). assert (Hc := dereg_count type_of tp r Hi).
  cbn [reg_step spec_step] in Hd. destruct (deregisterType tp r) as [r' k]. cbn [fst snd] in *. split; [|exact Hc].
  intros n. rewrite Hd. destruct (createByType r tp); [|reflexivity]. destruct (createByType r n); reflexivity.
Qed.
Print Assumptions C40_deregister.

(** A scattering factor table registers under its type and its radiation type, and under no other name. *)
Theorem C40_sft_register : forall (C : Type) (type_of radiation : C -> string) (l : list (regop C)) (c : C),
  let r := reg_run type_of l in
  createByType r (type_of c) = None -> createByType r (radiation c) = None ->
  exists r', registerSft type_of radiation c r = Ok r' /\ forall n,
    createByType r' n = if string_dec n (type_of c) then Some c else if string_dec n (radiation c) then Some c else createByType r n.
Proof.
  intros C type_of radiation l c r H1 H2. assert (Hr := C40_names C type_of (l ++ [Register c]) (type_of c)).
  assert (E1 : exists r1, registerThisType type_of c r = Ok r1).
  { assert (X := proj1 (C40_errors C type_of l) c). fold r in X. destruct (isRegisteredType r (type_of c)) eqn:E; auto. apply registered_iff in E. congruence. }
  destruct E1 as [r1 E1].
  assert (N1 : forall n, createByType r1 n = if string_dec n (type_of c) then Some c else createByType r n).
  { intros n. assert (X := C40_names C type_of (l ++ [Register c]) n). unfold reg_run, spec_names in X. rewrite !fold_left_app in X. fold (reg_run type_of l) (spec_names type_of l) in X. fold r in X. cbn [fold_left reg_step] in X.
    rewrite E1 in X. rewrite X. cbn [spec_step]. rewrite <- !(C40_names C type_of l). fold r. rewrite H1. unfold put. destruct (string_dec n (type_of c)); auto. now rewrite <- (C40_names C type_of l). }
  assert (R1 : r1 = reg_run type_of (l ++ [Register c])).
  { unfold reg_run. rewrite fold_left_app. fold (reg_run type_of l). fold r. cbn [fold_left reg_step]. now rewrite E1. }
  unfold registerSft. rewrite E1. assert (X := proj2 (C40_errors C type_of (l ++ [Register c])) (type_of c) (radiation c)). rewrite <- R1 in X.
  rewrite !N1 in X. destruct (string_dec (type_of c) (type_of c)) as [_|N]; [|congruence]. destruct (string_dec (radiation c) (type_of c)) as [EQ|NE].
  - destruct (string_dec (type_of c) (type_of c)) as [_|N]; [|congruence]. destruct X as (r' & -> & X). exists r'. split; auto. intros n. rewrite X, N1. destruct (string_dec n (type_of c)); auto.
    destruct (string_dec n (radiation c)); congruence.
  - rewrite H2 in X. destruct X as (r' & E2). rewrite E2. exists r'. split; auto. intros n.
    assert (Y := C40_names C type_of ((l ++ [Register c]) ++ [Alias (type_of c) (radiation c)]) n). unfold reg_run, spec_names in Y. rewrite (fold_left_app _ (l ++ [Register c])) in Y. rewrite (fold_left_app _ (l ++ [Register c])) in Y.
    fold (reg_run type_of (l ++ [Register c])) (spec_names type_of (l ++ [Register c])) in Y. rewrite <- R1 in Y. cbn [fold_left reg_step] in Y. rewrite E2 in Y. rewrite Y. cbn [spec_step].
    rewrite <- !(C40_names C type_of (l ++ [Register c])), <- R1, !N1. destruct (string_dec (type_of c) (type_of c)) as [_|N]; [|congruence].
    destruct (string_dec (radiation c) (type_of c)); [congruence|]. rewrite H2. unfold put. rewrite <- (C40_names C type_of (l ++ [Register c])), <- R1, N1.
    destruct (string_dec n (radiation c)), (string_dec n (type_of c)); auto.
Qed.
Print Assumptions C40_sft_register.

(** A failed registration of a scattering factor table does not leave the registry unchanged: the type is registered
    before its radiation alias is refused.  Here a second table for the radiation "X". *)
Theorem C40_sft_register_refuted :
  exists (C : Type) (type_of radiation : C -> string) (l : list (regop C)) (c : C) r',
    registerSft type_of radiation c (reg_run type_of l) = Throw LogicError r' /\
    createByType (reg_run type_of l) (type_of c) = None /\ createByType r' (type_of c) = Some c.
Proof.
  exists bool, (fun b : bool => if b then "xray" else "myxray")%string, (fun _ : bool => "X")%string,
    [Register true; Alias "xray" "X"]%string, false. eexists. split; [reflexivity|]. split; reflexivity.
Qed.
Print Assumptions C40_sft_register_refuted.

Example C40_nonvacuous :
  let ty := fun b : bool => (if b then "xray" else "neutron")%string in
  let r := reg_run ty [Register true; Alias "xray" "X"; Register false; Alias "X" "gamma"; Alias "neutron" "X"; Register true]%string in
  createByType r "gamma" = Some true /\ createByType r "X" = Some true /\ snd (deregisterType "X" r) = 3 /\
  createByType (fst (deregisterType "gamma" r)) "xray" = None /\ createByType (fst (deregisterType "gamma" r)) "neutron" = Some false.
Proof. repeat split. Qed.
