(** C75: the value of a calculator was computed with the settings in force, whoever changed them. *)
From Verif Require Import Base Owners OwnersSpec OwnersProofs.
Open Scope nat_scope.

Section Props.
  Context {P Q : Type} (Peqb : P -> P -> bool) (Qeqb : Q -> Q -> bool).
  Notation step := (step Peqb Qeqb).
  Notation run := (run Peqb Qeqb).

  (** Whatever calculators and components were made, shared, changed and evaluated before, an evaluation leaves a
      value computed with the settings now in force for the calculator and for the objects that it points to. *)
  Theorem C75_value_of_current_settings (l : list (call P Q)) (i : nat) :
    Forall by_setter l -> i < length (calcs (run l)) ->
    value_settings (step (run l) (Eval i)) i = settings (run l) i /\
    settings (step (run l) (Eval i)) i = settings (run l) i /\ settings (run l) i <> None.
  Proof.
    intros BS IL. destruct (nth_error (calcs (run l)) i) as [k|] eqn:E; [|apply nth_error_None in E; lia].
    destruct (evaluate_ok _ i k (run_wf Peqb Qeqb l BS) E) as (_ & A & B). cbn. unfold on. rewrite E. rewrite A, B. unfold settings. rewrite E. cbn. repeat split; auto. discriminate.
  Qed.

  (** The fast update is not lost without a reason: it is used after any number of calls that are about other
      calculators and other components. *)
  Theorem C75_no_needless_recalculation (l m : list (call P Q)) (i : nat) k :
    Forall by_setter l -> Forall by_setter m -> nth_error (calcs (run l)) i = Some k -> k_opt k = true ->
    untouched Peqb Qeqb (step (run l) (Eval i)) i m -> next_is_fast (fold_left step m (step (run l) (Eval i))) i.
  Proof.
    intros BS BM E O. pose proof (run_wf Peqb Qeqb l BS) as W. pose proof (eval_fast Peqb Qeqb _ i k W E O) as F.
    assert (W1 : wf (step (run l) (Eval i))) by (apply step_wf; cbn; auto). clear E. revert W1 F. generalize (step (run l) (Eval i)).
    induction BM as [|c m Hc Hm IH]; intros w W1 F U; cbn [fold_left]; auto. destruct U as [U1 U2]. apply IH; auto; [now apply step_wf|]. now apply fast_kept.
  Qed.

  Hypothesis Pok : forall a b, Peqb a b = true <-> a = b.
  Hypothesis Qok : forall a b, Qeqb a b = true <-> a = b.

  (** A setter of a component is seen by every calculator that points to it, and by no other. *)
  Theorem C75_component_change_is_shared (l : list (call P Q)) (i j : nat) (v : P) k :
    Forall by_setter l -> nth_error (calcs (run l)) i = Some k -> j < length (objs (run l)) ->
    let pick p := if match p with Some q => q =? j | None => false end then Some v else val_at (run l) p in
    settings (step (run l) (Change j v)) i = Some (k_own k, pick (w_ptr (k_pw k)), pick (w_ptr (k_sf k)), pick (k_prof k)).
  Proof.
    intros BS E J pick. cbn. unfold change. destruct (nth_error (objs (run l)) j) as [o|] eqn:EJ; [|apply nth_error_None in EJ; lia].
    destruct (Peqb (o_val o) v) eqn:EV.
    - apply Pok in EV. unfold settings. rewrite E. cbn. unfold view_of, pick.
      assert (X : forall p, val_at (run l) p = if match p with Some q => q =? j | None => false end then Some v else val_at (run l) p).
      { intros [q|]; auto. destruct (Nat.eqb_spec q j) as [->|N]; auto. cbn. rewrite EJ. cbn. congruence. }
      now rewrite <- !X.
    - unfold settings. cbn. rewrite E. cbn. unfold view_of, pick.
      assert (X : forall p, val_at {| clock := S (clock (run l)); objs := upd j {| o_val := v; o_tick := S (clock (run l)) |} (objs (run l)); calcs := calcs (run l) |} p
        = if match p with Some q => q =? j | None => false end then Some v else val_at (run l) p).
      { intros [q|]; auto. cbn. destruct (Nat.eqb_spec q j) as [->|N]; [now rewrite upd_same|rewrite upd_other; auto]. }
      now rewrite !X.
  Qed.

  (** The setters of a calculator put the given object or the given settings in force and leave the rest. *)
  Theorem C75_settings_take_effect (l : list (call P Q)) (i : nat) s :
    Forall by_setter l -> settings (run l) i = Some s ->
    (forall j, j < length (objs (run l)) -> settings (step (run l) (SetPw i j)) i = Some (own_of s, object (run l) j, table_of s, profile_of s)) /\
    (forall j, j < length (objs (run l)) -> settings (step (run l) (SetSf i j)) i = Some (own_of s, width_of s, object (run l) j, profile_of s)) /\
    (forall j k, j < length (objs (run l)) -> nth_error (calcs (run l)) i = Some k -> k_pdf k = true ->
       settings (step (run l) (SetProf i j)) i = Some (own_of s, width_of s, table_of s, object (run l) j)) /\
    (forall v, settings (step (run l) (PwByType i v)) i = Some (own_of s, Some v, table_of s, profile_of s)) /\
    (forall v, settings (step (run l) (SfByType i v)) i = Some (own_of s, width_of s, Some v, profile_of s)) /\
    (forall q, settings (step (run l) (SetOwn i q)) i = Some (q, width_of s, table_of s, profile_of s)).
  Proof.
    intros BS HS. pose proof (run_wf Peqb Qeqb l BS) as W. unfold settings in HS. destruct (nth_error (calcs (run l)) i) as [k|] eqn:E; [|discriminate]. injection HS as <-.
    assert (IL : i < length (calcs (run l))) by (apply nth_error_Some; congruence).
    destruct (wf_k _ W i k E) as [_ _ _ _ K1 K2 K3 _].
    assert (APP : forall p v t, okp (run l) p -> val_at (add_obj (run l) v t) p = val_at (run l) p).
    { intros [j|] v t J; auto. cbn in *. now rewrite nth_error_app1. }
    assert (NEW : forall v t, val_at (add_obj (run l) v t) (Some (pred (length (objs (add_obj (run l) v t))))) = Some v).
    { intros v t. cbn. rewrite app_length. cbn. rewrite Nat.add_1_r. cbn. rewrite nth_error_app2 by lia. now rewrite Nat.sub_diag. }
    split; [|split; [|split; [|split; [|split]]]].
    - intros j J. cbn. unfold on, exists_obj. rewrite E. apply Nat.ltb_lt in J as J'. rewrite J'. unfold owner_set.
      destruct (match w_ptr (k_pw k) with Some q => q =? j | None => false end) eqn:EQ; unfold settings; cbn; now rewrite upd_same.
    - intros j J. cbn. unfold on, exists_obj. rewrite E. apply Nat.ltb_lt in J as J'. rewrite J'. unfold owner_set.
      destruct (match w_ptr (k_sf k) with Some q => q =? j | None => false end) eqn:EQ; unfold settings; cbn; now rewrite upd_same.
    - intros j k0 J [= <-] HP. cbn. unfold on, exists_obj. rewrite E. apply Nat.ltb_lt in J as J'. rewrite J', HP. unfold profile_set.
      destruct (match k_prof k with Some q => q =? j | None => false end) eqn:EQ; unfold settings; cbn; now rewrite upd_same.
    - intros v. cbn [Owners.step]. unfold on. rewrite E. unfold owner_by_type, settings. cbn [put calcs tock add_obj]. rewrite upd_same by auto. cbn [option_map].
      pose proof (NEW v 0) as N. pose proof (APP _ v 0 K2) as A2. pose proof (APP _ v 0 K3) as A3. unfold view_of, own_of, table_of, profile_of. cbn [set_pw k_own k_pw k_sf k_prof w_ptr fst snd].
      rewrite <- A2, <- A3, <- N. reflexivity.
    - intros v. cbn [Owners.step]. unfold on. rewrite E. unfold owner_by_type, settings. cbn [put calcs tock add_obj]. rewrite upd_same by auto. cbn [option_map].
      pose proof (NEW v 0) as N. pose proof (APP _ v 0 K1) as A1. pose proof (APP _ v 0 K3) as A3. unfold view_of, own_of, width_of, profile_of. cbn [set_sf k_own k_pw k_sf k_prof w_ptr fst snd].
      rewrite <- A1, <- A3, <- N. reflexivity.
    - intros q. cbn. unfold on. rewrite E. destruct (Qeqb (k_own k) q) eqn:EQ.
      + apply Qok in EQ. subst q. unfold settings. rewrite E. reflexivity.
      + unfold settings. cbn. now rewrite upd_same.
  Qed.
End Props.
Print Assumptions C75_value_of_current_settings.
Print Assumptions C75_no_needless_recalculation.
Print Assumptions C75_component_change_is_shared.
Print Assumptions C75_settings_take_effect.

(** A history in which two calculators share a peak width model: a width set through the shared object reaches both. *)
Definition shared_width : list (call nat nat) :=
  [Construct true 1 2 3 10; Construct false 1 2 3 20; New 7; SetPw 0 5; SetPw 1 5; Eval 0; Eval 1; Change 5 8].

(** The same object put in by assignment through the reference from getPeakWidthModel() keeps its old ticker and is
    not noticed: the evaluation makes a fast update of a value that was computed with the old model. *)
Theorem C75_reference_assignment_refuted :
  exists (l : list (call nat nat)) (i : nat), i < length (calcs (run Nat.eqb Nat.eqb l)) /\
    value_settings (step Nat.eqb Nat.eqb (run Nat.eqb Nat.eqb l) (Eval i)) i <> settings (run Nat.eqb Nat.eqb l) i /\
    (exists m j, l = m ++ [AssignPw i j] /\ Forall by_setter m).
Proof.
  exists [Construct true 1 2 3 10; New 7; Eval 0; AssignPw 0 3], 0. cbn. split; [lia|]. split; [discriminate|].
  exists [Construct true 1 2 3 10; New 7; Eval 0], 3. split; auto. repeat constructor.
Qed.
Print Assumptions C75_reference_assignment_refuted.

Example C75_nonvacuous :
  let w := run Nat.eqb Nat.eqb shared_width in
  Forall by_setter shared_width /\ length (calcs w) = 2 /\
  value_settings w 0 = Some (10, Some 7, Some 2, Some 3) /\ settings w 0 = Some (10, Some 8, Some 2, Some 3) /\
  value_settings w 1 = Some (20, Some 7, Some 2, None) /\ settings w 1 = Some (20, Some 8, Some 2, None) /\
  value_settings (step Nat.eqb Nat.eqb w (Eval 1)) 1 = settings w 1 /\
  ~ next_is_fast w 0 /\ next_is_fast (step Nat.eqb Nat.eqb w (Eval 0)) 0 /\
  untouched Nat.eqb Nat.eqb (step Nat.eqb Nat.eqb w (Eval 0)) 0 [Change 3 9; SetOwn 1 21; Eval 1].
Proof.
  cbv zeta. split; [repeat constructor|]. repeat (split; [reflexivity|]). split; [|split].
  - intros (k & E & F). cbn in E. injection E as <-. discriminate F.
  - eexists. split; reflexivity.
  - cbn. repeat split; try lia. intros (k & E & H). injection E as <-. cbn in H. destruct H as [H|[H|H]]; discriminate H.
Qed.
