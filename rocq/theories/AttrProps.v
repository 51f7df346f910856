(** C41: named attributes. *)
From Coq Require Import String Reals Lra.
From Verif Require Import Base AList RBase Attr AttrSpec AttrProofs.
Open Scope list_scope.

(** Reading: an unknown name throws DoubleAttributeError (a runtime_error), a name that two instances provide throws
    logic_error, otherwise the getter registered last by the instance that has the name is applied to its state. *)
Theorem C41_get : forall (St : Type) (d : list (St * list (string * attr St))) name,
  match providers name d with
  | [] => getDoubleAttr name (build d) = GetThrow RuntimeError
  | [x] => exists a, newest name (snd x) = Some a /\ getDoubleAttr name (build d) = Got (getter a (fst x))
  | _ => getDoubleAttr name (build d) = GetThrow LogicError
  end.
Proof.
  intros St d name. unfold getDoubleAttr. rewrite check_spec. destruct (providers name d) as [|x [|y r]] eqn:E; auto.
  destruct (get_one name d x None E) as (a & Ha & Hg). exists a. split; auto. now rewrite Hg.
Qed.
Print Assumptions C41_get.

(** Writing: the same errors, which change nothing; a read-only attribute throws DoubleAttributeError and changes nothing;
    otherwise the registered setter is applied to the state of that instance and all other instances stay as they are.
    (When the setter itself throws, the state is what the setter left.) *)
Theorem C41_set : forall (St : Type) (d : list (St * list (string * attr St))) name v,
  match providers name d with
  | [] => setDoubleAttr name v (build d) = Throw RuntimeError (build d)
  | [x] => exists a d1 d2, newest name (snd x) = Some a /\ d = d1 ++ x :: d2 /\
      setDoubleAttr name v (build d) =
        match setter a with
        | None => Throw RuntimeError (build d)
        | Some f =>
          match f v (fst x) with
          | Ok s => Ok (build (d1 ++ (s, snd x) :: d2))
          | Throw e s => Throw e (build (d1 ++ (s, snd x) :: d2))
          | UB => UB
          end
        end
  | _ => setDoubleAttr name v (build d) = Throw LogicError (build d)
  end.
Proof.
  intros St d name v. unfold setDoubleAttr. rewrite check_spec. destruct (providers name d) as [|x [|y r]] eqn:E; auto.
  destruct (set_one name v d x E) as (a & Ha & Hs).
  assert (Hd : exists d1 d2, d = d1 ++ x :: d2 /\ forall s, map (with_state name s) d = d1 ++ (s, snd x) :: d2).
  { clear Hs. revert E. induction d as [|[s0 l] d IH]; cbn [providers filter]; [discriminate|]. fold (providers name d). cbn [snd].
    destruct (newest name l) as [b|] eqn:Eb.
    - intros [= <- Hp]. exists [], d. split; [reflexivity|]. intros s. cbn [map app]. rewrite with_none by auto.
      unfold with_state. cbn [snd]. now rewrite Eb.
    - intros Hp. destruct (IH Hp) as (d1 & d2 & -> & Hm). exists ((s0, l) :: d1), d2. split; [reflexivity|].
      intros s. cbn [map app]. rewrite Hm. unfold with_state at 1. cbn [snd]. now rewrite Eb. }
  destruct Hd as (d1 & d2 & Hd & Hm). exists a, d1, d2. split; auto. split; auto. rewrite Hs. unfold setValue, isreadonly.
  destruct (setter a) as [f|].
  - destruct (f v (fst x)); rewrite ?Hm; reflexivity.
  - rewrite Hm. rewrite Hd. destruct x; reflexivity.
Qed.
Print Assumptions C41_set.

(** Reading a writable attribute after it was written applies its getter to the state left by its setter; reading any other
    name still uses the getter of its own instance. *)
Theorem C41_get_after_set : forall (St : Type) (d : list (St * list (string * attr St))) name v o',
  setDoubleAttr name v (build d) = Ok o' ->
  exists x a f s, providers name d = [x] /\ newest name (snd x) = Some a /\ setter a = Some f /\ f v (fst x) = Ok s /\
    getDoubleAttr name o' = Got (getter a s) /\
    forall n y b, providers n d = [y] -> newest n (snd y) = Some b ->
      getDoubleAttr n o' = Got (getter b (match newest name (snd y) with Some _ => s | None => fst y end)).
Proof.
  intros St d name v o'. unfold setDoubleAttr. rewrite check_spec. destruct (providers name d) as [|x [|y r]] eqn:E; try discriminate.
  destruct (set_one name v d x E) as (a & Ha & Hs). rewrite Hs. unfold setValue, isreadonly.
  destruct (setter a) as [f|] eqn:Ef; [|discriminate]. destruct (f v (fst x)) as [s| |] eqn:Es; try discriminate. intros [= <-].
  exists x, a, f, s. split; auto. split; auto. split; auto. split; auto.
  assert (Hg : forall n y b, providers n d = [y] -> newest n (snd y) = Some b ->
      getDoubleAttr n (build (map (with_state name s) d)) = Got (getter b (match newest name (snd y) with Some _ => s | None => fst y end))).
  { intros n y b Hy Hb. unfold getDoubleAttr. rewrite check_spec, providers_with, Hy. cbn [map].
    destruct (get_one n (map (with_state name s) d) (with_state name s y) None) as (b' & Hb' & Hr); [rewrite providers_with, Hy; reflexivity|].
    rewrite Hr. assert (Hsnd : snd (with_state name s y) = snd y) by (unfold with_state; destruct (newest name (snd y)); reflexivity).
    rewrite Hsnd, Hb in Hb'. injection Hb' as <-. f_equal. f_equal. unfold with_state. destruct (newest name (snd y)); reflexivity. }
  split; [|exact Hg]. rewrite (Hg name x a E Ha), Ha. reflexivity.
Qed.
Print Assumptions C41_get_after_set.

(** hasDoubleAttr and the lists of names tell exactly which names are registered and which of them have a setter. *)
Theorem C41_names : forall (St : Type) (d : list (St * list (string * attr St))) name,
  (hasDoubleAttr name (build d) = true <-> exists x a, In x d /\ newest name (snd x) = Some a) /\
  (In name (namesOfDoubleAttributes (build d)) <-> exists x a, In x d /\ newest name (snd x) = Some a) /\
  (In name (namesOfWritableDoubleAttributes (build d)) <-> exists x a, In x d /\ newest name (snd x) = Some a /\ setter a <> None).
Proof.
  intros St d name. split; [|split].
  - unfold hasDoubleAttr. rewrite count_spec. assert (Hp := providers_In name d). destruct (providers name d); cbn; split.
    + discriminate.
    + intros H. apply Hp in H. easy.
    + intros _. apply Hp. discriminate.
    + reflexivity.
  - unfold namesOfDoubleAttributes. rewrite names_spec. split; intros (x & a & H); exists x, a; [tauto|]. split; [tauto|]. split; [tauto|discriminate].
  - unfold namesOfWritableDoubleAttributes. rewrite names_spec. unfold isreadonly.
    split; intros (x & a & H1 & H2 & H3); exists x, a; (split; [auto|split; [auto|]]).
    + specialize (H3 eq_refl). now destruct (setter a).
    + intros _. now destruct (setter a).
Qed.
Print Assumptions C41_names.

(** Whatever peak width model, profile, baseline and set of envelopes of different types the PDF calculators use, no name is
    provided twice: reading a listed name always succeeds. *)
Theorem C41_calculators : forall (St : Type) pwm profile baseline envelopes (d : list (St * list (string * attr St))) name,
  is_pwm pwm -> is_profile profile -> is_baseline baseline -> (forall e, In e envelopes -> is_envelope e) -> NoDup envelopes ->
  Forall2 instance_of (pdf_accept pwm profile baseline envelopes) d \/ Forall2 instance_of (debye_accept pwm envelopes) d ->
  if hasDoubleAttr name (build d) then exists v, getDoubleAttr name (build d) = Got v
  else getDoubleAttr name (build d) = GetThrow RuntimeError.
Proof.
  intros St pwm prof bas envs d name Hp Hr Hb He Hnd HF.
  assert (Hle : (length (providers name d) <= 1)%nat).
  { destruct HF as [HF|HF]; eapply providers_le1; [|exact HF| |exact HF]; [now apply pdf_kinds|now apply debye_kinds]. }
  unfold hasDoubleAttr. rewrite count_spec. assert (Hg := C41_get St d name).
  destruct (providers name d) as [|x [|y r]]; cbn [length Nat.eqb negb] in *; [exact Hg| |lia].
  destruct Hg as (a & _ & Hg). eauto.
Qed.
Print Assumptions C41_calculators.

(** The names a calculator lists are the documented ones of its parts, and those it lists as writable are the documented
    ones that are not computed: qstep of the PDF calculator (but not of the Debye one), the extended range and rmaxused. *)
Theorem C41_calculator_names : forall (St : Type) (cs : list component) (d : list (St * list (string * attr St))) name,
  Forall2 instance_of cs d ->
  (In name (namesOfDoubleAttributes (build d)) <-> exists c, In c cs /\ In name (documented c)) /\
  (In name (namesOfWritableDoubleAttributes (build d)) <-> exists c, In c cs /\ In name (documented c) /\ ~ In name (computed c)).
Proof.
  intros St cs d name HF. destruct (C41_names St d name) as (_ & Hr & Hw). destruct (instance_names cs d name HF) as [H1 H2].
  rewrite Hr, H1, Hw, H2. clear. split; split.
  - intros (c & b & Hc & Hb). exists c. split; auto. clear Hc. destruct c; cbn in *; intuition congruence.
  - intros (c & Hc & Hn). assert (Hb : exists b, In (name, b) (registered_names c)); [|destruct Hb; eauto].
    clear Hc. destruct c; cbn in Hn; repeat destruct Hn as [<-|Hn]; try easy; cbn; eauto 15.
  - intros (c & Hc & Hb). exists c. split; auto. clear Hc. destruct c; cbn in Hb; repeat destruct Hb as [Hb|Hb]; try easy; injection Hb as <-; cbn; intuition congruence.
  - intros (c & Hc & Hn & Hm). exists c. split; auto. clear Hc. destruct c; cbn in Hn; repeat destruct Hn as [<-|Hn]; try easy; cbn in *; tauto.
Qed.
Print Assumptions C41_calculator_names.

(** Registering a name again replaces the attribute without an error; a name present in two instances is listed but can be
    neither read nor written. *)
Theorem C41_duplicates : forall (St : Type) (s : St) l name a b,
  getDoubleAttr name (build [(s, l ++ [(name, a); (name, b)])]) = Got (getter b s) /\
  (forall s' v, hasDoubleAttr name (build [(s, [(name, a)]); (s', [(name, b)])]) = true /\
     getDoubleAttr name (build [(s, [(name, a)]); (s', [(name, b)])]) = GetThrow LogicError /\
     setDoubleAttr name v (build [(s, [(name, a)]); (s', [(name, b)])]) = Throw LogicError (build [(s, [(name, a)]); (s', [(name, b)])])).
Proof.
  intros St s l name a b. split.
  - assert (Hn : newest name (l ++ [(name, a); (name, b)]) = Some b).
    { unfold newest. rewrite rev_app_distr. cbn. destruct (string_dec name name); congruence. }
    assert (Hg := C41_get St [(s, l ++ [(name, a); (name, b)])] name). unfold providers in Hg. cbn [filter snd] in Hg. rewrite Hn in Hg.
    destruct Hg as (c & Hc & Hg). cbn [snd fst] in *. congruence.
  - intros s' v. assert (H1 : forall c : attr St, newest name [(name, c)] = Some c) by (intros c; unfold newest; cbn; destruct (string_dec name name); congruence).
    assert (Hp : providers name [(s, [(name, a)]); (s', [(name, b)])] = [(s, [(name, a)]); (s', [(name, b)])]) by (unfold providers; cbn [filter snd]; rewrite !H1; reflexivity).
    assert (Hg := C41_get St [(s, [(name, a)]); (s', [(name, b)])] name). assert (Hs := C41_set St [(s, [(name, a)]); (s', [(name, b)])] name v).
    rewrite Hp in Hg, Hs. split; [|split; auto]. unfold hasDoubleAttr. rewrite count_spec, Hp. reflexivity.
Qed.
Print Assumptions C41_duplicates.

(** An envelope with a scale attribute beside a calculator with a validated and a read-only one. *)
Definition ex_env : R * list (string * attr R) := (1%R, [("scale"%string, mkAttr (fun s => s) (Some (fun v _ => Ok v)))]).
Definition ex_calc : R * list (string * attr R) :=
  (5%R, [("rmax"%string, mkAttr (fun s => s) (Some (fun v s => if Rltb v 0 then Throw InvalidArgument s else Ok v)));
         ("twice"%string, mkAttr (fun s => 2 * s)%R None)]).
Example C41_nonvacuous :
  let d := [ex_env; ex_calc] in
  (exists o', setDoubleAttr "rmax" 7%R (build d) = Ok o' /\ getDoubleAttr "twice" o' = Got 14%R /\ getDoubleAttr "scale" o' = Got 1%R) /\
  setDoubleAttr "rmax" (-1)%R (build d) = Throw InvalidArgument (build d) /\
  setDoubleAttr "twice" 3%R (build d) = Throw RuntimeError (build d) /\
  getDoubleAttr "qmax" (build d) = GetThrow RuntimeError /\
  namesOfWritableDoubleAttributes (build d) = ["scale"; "rmax"]%string.
Proof.
  assert (H7 : Rltb 7 0 = false) by (apply Rltb_false; lra). assert (H1 : Rltb (-1) 0 = true) by (apply Rltb_true; lra).
  cbn zeta. split; [|split; [|split; [reflexivity|split; reflexivity]]].
  - exists (build [ex_env; (7%R, snd ex_calc)]). split; [|split; [|reflexivity]].
    + lazy -[Rltb IZR Rmult]. rewrite H7. reflexivity.
    + assert (E14 : 14%R = (2 * 7)%R) by lra. rewrite E14. reflexivity.
  - lazy -[Rltb IZR Rmult]. rewrite H1. reflexivity.
Qed.

(** A bond valence calculator: rmaxused is listed, is not listed as writable and cannot be written. *)
Definition ex_bvs : R * list (string * attr R) :=
  (5%R, [("rmin"%string, mkAttr (fun _ => 0%R) (Some (fun _ s => Ok s))); ("rmax"%string, mkAttr (fun s => s) (Some (fun v _ => Ok v)));
         ("valenceprecision"%string, mkAttr (fun _ => 1%R) (Some (fun _ s => Ok s))); ("rmaxused"%string, mkAttr (fun s => s) None)]).
Example C41_nonvacuous_names :
  Forall2 instance_of [CalcBvs] [ex_bvs] /\
  In "rmaxused"%string (namesOfDoubleAttributes (build [ex_bvs])) /\
  ~ In "rmaxused"%string (namesOfWritableDoubleAttributes (build [ex_bvs])) /\
  setDoubleAttr "rmaxused" 3%R (build [ex_bvs]) = Throw RuntimeError (build [ex_bvs]).
Proof.
  assert (HF : Forall2 instance_of [CalcBvs] [ex_bvs]) by (constructor; [reflexivity|constructor]).
  destruct (C41_calculator_names R [CalcBvs] [ex_bvs] "rmaxused"%string HF) as [Hr Hw].
  split; [exact HF|]. split; [|split; [|reflexivity]].
  - apply Hr. exists CalcBvs. split; [now left|]. cbn. tauto.
  - intros H. apply Hw in H as (c & [<-|[]] & _ & Hn). apply Hn. now left.
Qed.
