(** Proofs for C75. *)
From Verif Require Import Base Owners OwnersSpec.
Open Scope nat_scope.

Section Proofs.
  Context {P Q : Type} (Peqb : P -> P -> bool) (Qeqb : Q -> Q -> bool).
  Notation world := (world P Q).
  Notation calcu := (calcu P Q).
  Notation step := (step Peqb Qeqb).

  Definition eff (w : world) (k : calcu) : nat := k_tick (ticker w k).
  Lemma eff_eq w k : eff w k = Nat.max (Nat.max (Nat.max (k_tick k) (Nat.max (w_tick (k_pw k)) (tick_at w (w_ptr (k_pw k)))))
    (Nat.max (w_tick (k_sf k)) (tick_at w (w_ptr (k_sf k))))) (tick_at w (k_prof k)).
  Proof. reflexivity. Qed.
  Definition okp (w : world) (p : option nat) : Prop := match p with Some j => j < length (objs w) | None => True end.

  Record good (w : world) (k : calcu) : Prop := {
    g_t : k_tick k <= clock w; g_pt : w_tick (k_pw k) <= clock w; g_st : w_tick (k_sf k) <= clock w; g_v : k_vtick k <= clock w;
    g_p : okp w (w_ptr (k_pw k)); g_s : okp w (w_ptr (k_sf k)); g_q : okp w (k_prof k);
    g_val : k_last k = true -> eff w k < k_vtick k -> k_value k = Some (view_of w k)
  }.
  Record wf (w : world) : Prop := {
    wf_o : forall j o, nth_error (objs w) j = Some o -> o_tick o <= clock w;
    wf_k : forall i k, nth_error (calcs w) i = Some k -> good w k
  }.

  (** what other calls may do to the objects *)
  Definition later (w w' : world) : Prop := clock w <= clock w' /\ length (objs w) <= length (objs w') /\
    (forall j o, nth_error (objs w) j = Some o -> exists o', nth_error (objs w') j = Some o' /\ (o' = o \/ clock w < o_tick o')) /\
    (forall j o', nth_error (objs w') j = Some o' -> o_tick o' <= clock w').
  Lemma later_val w w' p n : later w w' -> okp w p -> n <= clock w -> tick_at w' p < n -> tick_at w p = tick_at w' p /\ val_at w p = val_at w' p.
  Proof.
    intros (C & L & H & _) O N T. destruct p as [j|]; cbn in *; auto. apply nth_error_Some in O. destruct (nth_error (objs w) j) as [o|] eqn:E; [|congruence].
    destruct (H j o E) as (o' & E' & [->|B]); rewrite E' in *; auto. lia.
  Qed.
  Lemma later_good w w' k : later w w' -> good w k -> good w' k.
  Proof.
    intros LT [A1 A2 A3 A4 B1 B2 B3 V]. pose proof LT as (C & L & H & O). constructor; try lia.
    - destruct (w_ptr (k_pw k)); cbn in *; auto; lia.
    - destruct (w_ptr (k_sf k)); cbn in *; auto; lia.
    - destruct (k_prof k); cbn in *; auto; lia.
    - intros HL HE. rewrite eff_eq in HE.
      destruct (later_val w w' (w_ptr (k_pw k)) (k_vtick k)) as [T1 V1]; auto; try lia.
      destruct (later_val w w' (w_ptr (k_sf k)) (k_vtick k)) as [T2 V2]; auto; try lia.
      destruct (later_val w w' (k_prof k) (k_vtick k)) as [T3 V3]; auto; try lia.
      rewrite V; auto; [|rewrite eff_eq; lia]. unfold view_of. now rewrite V1, V2, V3.
  Qed.
  Lemma wf_later w w' : wf w -> later w w' -> calcs w' = calcs w -> wf w'.
  Proof. intros [O K] LT E. constructor; [apply LT|]. intros i k Hi. rewrite E in Hi. eapply later_good; eauto. Qed.
  Lemma wf_put w i k : wf w -> good w k -> wf (put w i k).
  Proof.
    intros [O K] G. constructor; auto. intros j x. cbn. rewrite nth_error_upd. destruct (Nat.eqb_spec i j) as [<-|NE].
    - destruct (i <? length (calcs w)); [|discriminate]. intros [= <-]. destruct G; constructor; auto.
    - intros Hj. destruct (K j x Hj). constructor; auto.
  Qed.

  Lemma later_refl w : wf w -> later w w.
  Proof. intros [O K]. repeat split; auto. intros j o E. exists o. auto. Qed.
  Lemma later_tock w : wf w -> later w (tock w).
  Proof. intros [O K]. repeat split; cbn; auto. - intros j o E. exists o. auto. - intros j o E. specialize (O j o E). lia. Qed.
  Lemma later_add w v t : wf w -> t <= clock w -> later w (add_obj w v t).
  Proof.
    intros [O K] T. repeat split; cbn; auto.
    - rewrite app_length. lia.
    - intros j o E. exists o. split; auto. rewrite nth_error_app1; auto. apply nth_error_Some. congruence.
    - intros j o E. destruct (Nat.lt_ge_cases j (length (objs w))) as [B|B].
      + rewrite nth_error_app1 in E by auto. eauto.
      + rewrite nth_error_app2 in E by auto. destruct (j - length (objs w)) as [|[|n]]; cbn in E; try discriminate. injection E as <-. auto.
  Qed.
  Lemma later_trans a b c : later a b -> later b c -> later a c.
  Proof.
    intros (C1 & L1 & H1 & O1) (C2 & L2 & H2 & O2). repeat split; auto; try lia. intros j o E. destruct (H1 j o E) as (o1 & E1 & K1). destruct (H2 j o1 E1) as (o2 & E2 & K2).
    exists o2. split; auto. destruct K1 as [->|K1], K2 as [->|K2]; auto; right; lia.
  Qed.
  Lemma later_tock_add w v : wf w -> later w (tock (add_obj w v (S (clock w)))).
  Proof.
    intros [O K]. repeat split; cbn; auto.
    - rewrite app_length. lia.
    - intros j o E. exists o. split; auto. rewrite nth_error_app1; auto. apply nth_error_Some. congruence.
    - intros j o E. destruct (Nat.lt_ge_cases j (length (objs w))) as [B|B].
      + rewrite nth_error_app1 in E by auto. specialize (O j o E). lia.
      + rewrite nth_error_app2 in E by auto. destruct (j - length (objs w)) as [|[|n]]; cbn in E; try discriminate. injection E as <-. auto.
  Qed.
  Lemma later_change w j v : wf w -> later w (change Peqb w j v) /\ calcs (change Peqb w j v) = calcs w.
  Proof.
    intros W. unfold change. destruct (nth_error (objs w) j) as [o|] eqn:E; [|split; auto; now apply later_refl].
    destruct (Peqb (o_val o) v); [split; auto; now apply later_refl|]. split; auto. destruct W as [O K].
    repeat split; cbn; auto.
    - now rewrite upd_length.
    - intros i x Hx. rewrite nth_error_upd. destruct (Nat.eqb_spec j i) as [->|NE]; [|eauto].
      destruct (Nat.ltb_spec i (length (objs w))); [|exfalso; assert (nth_error (objs w) i <> None) by congruence; apply nth_error_Some in H0; lia].
      eexists. split; [reflexivity|]. right. cbn. lia.
    - intros i x. rewrite nth_error_upd. destruct (Nat.eqb_spec j i) as [->|NE].
      + destruct (i <? length (objs w)); [|discriminate]. intros [= <-]. auto.
      + intros Hx. specialize (O i x Hx). lia.
  Qed.

  (** a calculator with a ticker that was clicked just now is not up to date *)
  Lemma good_clicked w w' k k' : later w w' -> good w k -> clock w < clock w' ->
    k_vtick k' = k_vtick k -> k_tick k' <= clock w' -> w_tick (k_pw k') <= clock w' -> w_tick (k_sf k') <= clock w' ->
    okp w' (w_ptr (k_pw k')) -> okp w' (w_ptr (k_sf k')) -> okp w' (k_prof k') ->
    (clock w < k_tick k' \/ clock w < w_tick (k_pw k') \/ clock w < w_tick (k_sf k')) -> good w' k'.
  Proof.
    intros LT [A1 A2 A3 A4 B1 B2 B3 V] C E H1 H2 H3 P1 P2 P3 T. constructor; auto; try lia. intros _ HE. exfalso. rewrite eff_eq in HE. rewrite E in HE. lia.
  Qed.

  Lemma okp_mono w w' p : length (objs w) <= length (objs w') -> okp w p -> okp w' p.
  Proof. intros L. destruct p; cbn; auto. lia. Qed.

  Lemma owner_set_ok w x j : wf w -> j < length (objs w) -> let (w', y) := owner_set w x j in
    later w w' /\ calcs w' = calcs w /\ w_ptr y = Some j /\ objs w' = objs w /\
    ((w' = w /\ y = x) \/ (clock w < clock w' /\ clock w < w_tick y <= clock w')).
  Proof.
    intros W J. unfold owner_set. destruct x as [[q|] t]; cbn.
    - destruct (Nat.eqb_spec q j) as [->|NE].
      + repeat (split; [try apply later_refl; auto|]). auto.
      + split; [now apply later_tock|]. repeat (split; [reflexivity|]). right. cbn. lia.
    - split; [now apply later_tock|]. repeat (split; [reflexivity|]). right. cbn. lia.
  Qed.
  Lemma owner_type_ok w v : wf w -> let (w', y) := owner_by_type w v in
    later w w' /\ calcs w' = calcs w /\ okp w' (w_ptr y) /\ clock w < clock w' /\ clock w < w_tick y <= clock w' /\ wf w'.
  Proof.
    intros W. unfold owner_by_type. pose proof (later_add w v 0 W ltac:(lia)) as L1.
    assert (W1 : wf (add_obj w v 0)) by (eapply wf_later; eauto). pose proof (later_tock _ W1) as L2.
    assert (W2 : wf (tock (add_obj w v 0))) by (eapply wf_later; eauto).
    split; [eapply later_trans; eauto|]. split; [reflexivity|]. cbn. split; [rewrite app_length; cbn; lia|]. repeat (split; [lia|]). exact W2.
  Qed.
  Lemma profile_set_ok w k j : wf w -> good w k -> j < length (objs w) -> let (w', k') := profile_set w k j in
    later w w' /\ calcs w' = calcs w /\ good w' k' /\ wf w'.
  Proof.
    intros W G J. unfold profile_set.
    assert (CL : later w (tock w) /\ calcs (tock w) = calcs w /\ good (tock w) (set_prof k (Some j) (S (clock w))) /\ wf (tock w)).
    { pose proof (later_tock _ W) as L. split; [auto|]. split; [reflexivity|]. split; [|eapply wf_later; eauto].
      pose proof G as G0. destruct G0. apply (good_clicked w _ k _ L G); cbn; try lia; auto. }
    destruct (k_prof k) as [q|] eqn:E; [|exact CL]. destruct (Nat.eqb_spec q j) as [->|NE]; [|exact CL].
    split; [now apply later_refl|]. split; auto. split; auto.
    destruct G. unfold set_prof. constructor; cbn; auto. unfold eff, ticker, view_of in *. cbn in *. rewrite E in *. auto.
  Qed.

  Lemma ticker_eff w k : eff w (ticker w k) = eff w k.
  Proof. rewrite (eff_eq w (ticker w k)), eff_eq. unfold ticker, owner_ticker. cbn. lia. Qed.
  Lemma ticker_view (w : world) (k : calcu) : view_of w (ticker w k) = view_of w k.
  Proof. reflexivity. Qed.
  Lemma tick_at_le (w : world) p : wf w -> tick_at w p <= clock w.
  Proof. intros [O _]. destruct p as [j|]; cbn; [|lia]. destruct (nth_error (objs w) j) eqn:E; [eauto|lia]. Qed.
  Lemma eff_le w k : wf w -> good w k -> eff w k <= clock w.
  Proof.
    intros W [A1 A2 A3 A4 B1 B2 B3 V]. rewrite eff_eq. pose proof (tick_at_le w (w_ptr (k_pw k)) W). pose proof (tick_at_le w (w_ptr (k_sf k)) W). pose proof (tick_at_le w (k_prof k) W). lia.
  Qed.
  Lemma ticker_good w k : wf w -> good w k -> good w (ticker w k).
  Proof.
    intros W G. pose proof (eff_le w k W G) as EL. pose proof (tick_at_le w (w_ptr (k_pw k)) W) as T1. pose proof (tick_at_le w (w_ptr (k_sf k)) W) as T2.
    destruct G as [A1 A2 A3 A4 B1 B2 B3 V]. constructor; auto.
    - cbn. lia.
    - cbn. lia.
    - rewrite ticker_eff, ticker_view. exact V.
  Qed.
  Lemma fast_value w k : good w k -> is_fast w k = true -> k_value k = Some (view_of w k).
  Proof.
    intros G F. unfold is_fast in F. apply andb_true_iff in F. destruct F as [F1 F2]. apply andb_true_iff in F1. apply Nat.ltb_lt in F2. apply (g_val _ _ G); tauto.
  Qed.
  Lemma evaluate_ok w i k : wf w -> nth_error (calcs w) i = Some k -> wf (evaluate w i k) /\ value_settings (evaluate w i k) i = Some (view_of w k) /\ settings (evaluate w i k) i = Some (view_of w k).
  Proof.
    intros W Hi. pose proof (wf_k _ W i k Hi) as G. pose proof (later_tock _ W) as L. assert (W1 : wf (tock w)) by (eapply wf_later; eauto).
    assert (EV : (if is_fast w k then k_value k else Some (view_of w k)) = Some (view_of w k)) by (destruct (is_fast w k) eqn:F; auto; now apply fast_value).
    assert (IL : i < length (calcs w)) by (apply nth_error_Some; congruence).
    unfold evaluate. rewrite EV. split; [|split].
    - apply wf_put; auto. pose proof (later_good _ _ _ L (ticker_good _ _ W G)) as [A1 A2 A3 A4 B1 B2 B3 V]. constructor; auto.
    - unfold value_settings. cbn. now rewrite upd_same.
    - unfold settings. cbn. now rewrite upd_same.
  Qed.

  Lemma step_wf w c : by_setter c -> wf w -> wf (step w c).
  Proof.
    intros BS W. destruct c; cbn [step]; try destruct BS; auto.
    - pose proof (later_add w v 0 W ltac:(lia)). eapply wf_later; eauto.
    - destruct (nth_error (objs w) j) as [o|] eqn:E; auto. pose proof (later_add w (o_val o) (o_tick o) W (wf_o _ W _ _ E)). eapply wf_later; eauto.
    - destruct (later_change w j v W) as [L E]. eapply wf_later; eauto.
    - unfold construct. pose proof (owner_type_ok w a W) as H1. destruct (owner_by_type w a) as [w1 x1]. destruct H1 as (L1 & E1 & P1 & C1 & T1 & W1).
      pose proof (owner_type_ok w1 b W1) as H2. destruct (owner_by_type w1 b) as [w2 x2]. destruct H2 as (L2 & E2 & P2 & C2 & T2 & W2).
      set (w3 := if pdf then tock (add_obj w2 c (S (clock w2))) else w2).
      assert (L3 : later w2 w3) by (subst w3; destruct pdf; [now apply later_tock_add|now apply later_refl]).
      assert (E3 : calcs w3 = calcs w2) by (subst w3; destruct pdf; reflexivity).
      assert (W3 : wf w3) by (eapply wf_later; eauto). pose proof (later_tock _ W3) as L4. assert (W4 : wf (tock w3)) by (eapply wf_later; eauto).
      assert (PL : match (if pdf then Some (pred (length (objs w3))) else None) with Some j => j < length (objs w3) | None => True end).
      { subst w3. destruct pdf; auto. cbn. rewrite app_length. cbn. lia. }
      assert (G : good (tock w3) {| k_pdf := pdf; k_pw := x1; k_sf := x2; k_prof := if pdf then Some (pred (length (objs w3))) else None; k_own := q;
                               k_tick := S (clock w3); k_opt := true; k_vtick := 0; k_last := false; k_value := None |}).
      { destruct L2 as (Q1 & Q2 & _). destruct L3 as (Q3 & Q4 & _). constructor; cbn; try lia; try discriminate.
        - eapply okp_mono; [|exact P1]. cbn. lia.
        - eapply okp_mono; [|exact P2]. cbn. lia.
        - exact PL. }
      clearbody w3. destruct W4 as [O K]. constructor; cbn; [exact O|]. intros i k Hi. destruct (Nat.lt_ge_cases i (length (calcs w3))) as [B|B].
      + rewrite nth_error_app1 in Hi by auto. destruct (K i k Hi). constructor; auto.
      + rewrite nth_error_app2 in Hi by auto. destruct (i - length (calcs w3)) as [|[|n]]; cbn in Hi; try discriminate. injection Hi as <-. destruct G. constructor; auto.
    - unfold on. destruct (nth_error (calcs w) i) as [k|] eqn:E; auto. unfold exists_obj. destruct (Nat.ltb_spec j (length (objs w))) as [J|J]; auto.
      pose proof (wf_k _ W i k E) as G. pose proof (owner_set_ok w (k_pw k) j W J) as H. destruct (owner_set w (k_pw k) j) as [w' y]. destruct H as (L & EC & EP & EO & [[-> ->]|[C T]]).
      + apply wf_put; auto. destruct G, k; constructor; auto.
      + assert (W' : wf w') by (eapply wf_later; eauto). apply wf_put; auto. destruct (later_good _ _ _ L G) as [A1 A2 A3 A4 B1 B2 B3 V].
        apply (good_clicked w _ k _ L G); cbn; try lia; auto. rewrite EP. cbn. now rewrite EO.
    - unfold on. destruct (nth_error (calcs w) i) as [k|] eqn:E; auto. unfold exists_obj. destruct (Nat.ltb_spec j (length (objs w))) as [J|J]; auto.
      pose proof (wf_k _ W i k E) as G. pose proof (owner_set_ok w (k_sf k) j W J) as H. destruct (owner_set w (k_sf k) j) as [w' y]. destruct H as (L & EC & EP & EO & [[-> ->]|[C T]]).
      + apply wf_put; auto. destruct G, k; constructor; auto.
      + assert (W' : wf w') by (eapply wf_later; eauto). apply wf_put; auto. destruct (later_good _ _ _ L G) as [A1 A2 A3 A4 B1 B2 B3 V].
        apply (good_clicked w _ k _ L G); cbn; try lia; auto. rewrite EP. cbn. now rewrite EO.
    - unfold on. destruct (nth_error (calcs w) i) as [k|] eqn:E; auto. unfold exists_obj. destruct (Nat.ltb_spec j (length (objs w))) as [J|J]; auto. destruct (k_pdf k); auto.
      pose proof (profile_set_ok w k j W (wf_k _ W i k E) J) as H. destruct (profile_set w k j) as [w' k']. destruct H as (L & EC & G' & W'). now apply wf_put.
    - unfold on. destruct (nth_error (calcs w) i) as [k|] eqn:E; auto. pose proof (owner_type_ok w v W) as H. destruct (owner_by_type w v) as [w' y]. destruct H as (L & EC & PY & C & T & W').
      apply wf_put; auto. pose proof (wf_k _ W i k E) as G. destruct (later_good _ _ _ L G) as [A1 A2 A3 A4 B1 B2 B3 V]. apply (good_clicked w _ k _ L G); cbn; try lia; auto.
    - unfold on. destruct (nth_error (calcs w) i) as [k|] eqn:E; auto. pose proof (owner_type_ok w v W) as H. destruct (owner_by_type w v) as [w' y]. destruct H as (L & EC & PY & C & T & W').
      apply wf_put; auto. pose proof (wf_k _ W i k E) as G. destruct (later_good _ _ _ L G) as [A1 A2 A3 A4 B1 B2 B3 V]. apply (good_clicked w _ k _ L G); cbn; try lia; auto.
    - unfold on. destruct (nth_error (calcs w) i) as [k|] eqn:E; auto. destruct (k_pdf k); auto. pose proof (later_tock_add w v W) as L.
      assert (W1 : wf (tock (add_obj w v (S (clock w))))) by (eapply wf_later; eauto).
      assert (J : length (objs w) < length (objs (tock (add_obj w v (S (clock w)))))) by (cbn; rewrite app_length; cbn; lia).
      pose proof (profile_set_ok _ k _ W1 (later_good _ _ _ L (wf_k _ W i k E)) J) as H. destruct (profile_set _ k (length (objs w))) as [w' k']. destruct H as (_ & _ & G' & W'). now apply wf_put.
    - unfold on. destruct (nth_error (calcs w) i) as [k|] eqn:E; auto. destruct (Qeqb (k_own k) q); auto. pose proof (later_tock _ W) as L. assert (W1 : wf (tock w)) by (eapply wf_later; eauto).
      apply wf_put; auto. pose proof (wf_k _ W i k E) as G. destruct (later_good _ _ _ L G) as [A1 A2 A3 A4 B1 B2 B3 V]. apply (good_clicked w _ k _ L G); cbn; try lia; auto.
    - unfold on. destruct (nth_error (calcs w) i) as [k|] eqn:E; auto. destruct (Bool.eqb (k_opt k) opt); auto. apply wf_put; auto. destruct (wf_k _ W i k E) as [A1 A2 A3 A4 B1 B2 B3 V]. constructor; auto. discriminate.
    - unfold on. destruct (nth_error (calcs w) i) as [k|] eqn:E; auto. apply wf_put; auto. apply ticker_good; auto. exact (wf_k _ W i k E).
    - unfold on. destruct (nth_error (calcs w) i) as [k|] eqn:E; auto. now apply evaluate_ok.
  Qed.
  Lemma start_wf : wf (@start P Q).
  Proof. constructor; intros [|j] x H; discriminate H. Qed.
  Lemma run_wf l : Forall by_setter l -> wf (run Peqb Qeqb l).
  Proof.
    intros H. unfold run. assert (W := start_wf). revert W. generalize (@start P Q). induction H as [|c l Hc Hl IH]; intros w W; cbn; auto. apply IH. now apply step_wf.
  Qed.

  (** nothing is recalculated without need *)
  Lemma eval_fast w i k : wf w -> nth_error (calcs w) i = Some k -> k_opt k = true -> next_is_fast (step w (Eval i)) i.
  Proof.
    intros W E O. cbn. unfold on. rewrite E. assert (IL : i < length (calcs w)) by (apply nth_error_Some; congruence).
    eexists. split; [unfold evaluate; cbn; now apply upd_same|].
    unfold is_fast. cbn [set_ev k_opt k_last k_vtick]. rewrite O. cbn [andb]. apply Nat.ltb_lt.
    change (eff w (ticker w k) < S (clock w)). rewrite ticker_eff. pose proof (eff_le w k W (wf_k _ W i k E)). lia.
  Qed.
  Definition same_ticks (w w' : world) (k : calcu) : Prop :=
    tick_at w' (w_ptr (k_pw k)) = tick_at w (w_ptr (k_pw k)) /\ tick_at w' (w_ptr (k_sf k)) = tick_at w (w_ptr (k_sf k)) /\ tick_at w' (k_prof k) = tick_at w (k_prof k).
  Lemma same_fast w w' k : same_ticks w w' k -> is_fast w' k = is_fast w k.
  Proof. intros (A & B & C). unfold is_fast. change (k_tick (ticker w' k)) with (eff w' k). change (k_tick (ticker w k)) with (eff w k). now rewrite !eff_eq, A, B, C. Qed.
  Lemma tick_app (w : world) p v t c (k : list calcu) : okp w p -> tick_at {| clock := c; objs := objs w ++ [{| o_val := v; o_tick := t |}]; calcs := k |} p = tick_at w p.
  Proof. destruct p as [j|]; cbn; auto. intros J. now rewrite nth_error_app1. Qed.
  Lemma fast_ticker (w : world) (k : calcu) : is_fast w (ticker w k) = is_fast w k.
  Proof. unfold is_fast. change (k_tick (ticker w (ticker w k))) with (eff w (ticker w k)). now rewrite ticker_eff. Qed.

  Lemma fast_kept w c i : wf w -> ~ concerns w i c -> next_is_fast w i -> next_is_fast (step w c) i.
  Proof.
    intros W NC (k & E & F). pose proof (wf_k _ W i k E) as G.
    assert (KEEP : forall w', calcs w' = calcs w -> same_ticks w w' k -> next_is_fast w' i).
    { intros w' EC ST. exists k. rewrite EC. split; auto. rewrite (same_fast w w'); auto. }
    assert (PUT : forall w' i' k', calcs w' = calcs w -> same_ticks w w' k -> i' <> i -> next_is_fast (put w' i' k') i).
    { intros w' i' k' EC ST NE. exists k. cbn. rewrite upd_other by auto. rewrite EC. split; auto. rewrite <- (same_fast w w' k ST) in F. exact F. }
    assert (ADD : forall v t c' l', same_ticks w {| clock := c'; objs := objs w ++ [{| o_val := v; o_tick := t |}]; calcs := l' |} k).
    { intros v t c' l'. destruct G. repeat split; now apply tick_app. }
    assert (REFL : same_ticks w w k) by (repeat split). assert (REFL' : same_ticks w (tock w) k) by (repeat split).
    destruct c; cbn [step concerns] in *.
    - apply KEEP; auto. apply ADD.
    - destruct (nth_error (objs w) j); apply KEEP; auto. apply ADD.
    - unfold change. destruct (nth_error (objs w) j) as [o|] eqn:EJ; [|apply KEEP; auto]. destruct (Peqb (o_val o) v); apply KEEP; auto.
      assert (X : forall p, p <> Some j -> tick_at {| clock := S (clock w); objs := upd j {| o_val := v; o_tick := S (clock w) |} (objs w); calcs := calcs w |} p = tick_at w p).
      { intros [q|] N; cbn; auto. rewrite upd_other; auto; congruence. }
      repeat split; apply X; intros HH; apply NC; exists k; auto.
    - unfold construct, owner_by_type. cbn. set (w3 := if pdf then _ else _).
      assert (ST : same_ticks w (tock w3) k /\ calcs w3 = calcs w).
      { destruct G. subst w3. split; [|destruct pdf; reflexivity].
        assert (X : forall p, okp w p -> tick_at (tock (if pdf then tock (add_obj (tock (add_obj (tock (add_obj w a 0)) b 0)) c (S (S (S (clock w))))) else tock (add_obj (tock (add_obj w a 0)) b 0))) p = tick_at w p).
        { intros [j|] J; [|reflexivity]. cbn in J. destruct pdf; cbn; rewrite !nth_error_app1; auto; repeat (rewrite app_length; cbn); lia. }
        repeat split; apply X; auto. }
      destruct ST as [ST EC]. exists k. cbn. rewrite EC. rewrite nth_error_app1 by (apply nth_error_Some; congruence). split; auto. rewrite <- (same_fast _ _ _ ST) in F. exact F.
    - unfold on, exists_obj. destruct (nth_error (calcs w) i0); [|apply KEEP; auto]. destruct (j <? _); [|apply KEEP; auto]. unfold owner_set. destruct (match w_ptr (k_pw c) with Some q => q =? j | None => false end); apply PUT; auto.
    - unfold on, exists_obj. destruct (nth_error (calcs w) i0); [|apply KEEP; auto]. destruct (j <? _); [|apply KEEP; auto]. unfold owner_set. destruct (match w_ptr (k_sf c) with Some q => q =? j | None => false end); apply PUT; auto.
    - unfold on, exists_obj. destruct (nth_error (calcs w) i0); [|apply KEEP; auto]. destruct (j <? _); [|apply KEEP; auto]. destruct (k_pdf c); [|apply KEEP; auto]. unfold profile_set. destruct (match k_prof c with Some q => q =? j | None => false end); apply PUT; auto.
    - unfold on. destruct (nth_error (calcs w) i0); [|apply KEEP; auto]. unfold owner_by_type. apply PUT; auto. apply ADD.
    - unfold on. destruct (nth_error (calcs w) i0); [|apply KEEP; auto]. unfold owner_by_type. apply PUT; auto. apply ADD.
    - unfold on. destruct (nth_error (calcs w) i0); [|apply KEEP; auto]. destruct (k_pdf c); [|apply KEEP; auto]. unfold profile_set. destruct (match k_prof c with Some q => q =? _ | None => false end); apply PUT; auto; apply ADD.
    - apply KEEP; auto.
    - unfold on. destruct (nth_error (calcs w) i0); [|apply KEEP; auto]. destruct (Qeqb (k_own c) q); [apply KEEP; auto|apply PUT; auto].
    - unfold on. destruct (nth_error (calcs w) i0); [|apply KEEP; auto]. destruct (Bool.eqb (k_opt c) opt); [apply KEEP; auto|apply PUT; auto].
    - unfold on. destruct (nth_error (calcs w) i0) as [c|] eqn:E0; [|apply KEEP; auto]. destruct (Nat.eq_dec i0 i) as [->|NE]; [|apply PUT; auto].
      rewrite E in E0. injection E0 as <-. exists (ticker w k). cbn. rewrite upd_same by (apply nth_error_Some; congruence). split; auto.
      rewrite <- fast_ticker in F. exact F.
    - destruct (Nat.eq_dec i0 i) as [->|NE].
      + apply (eval_fast w i k); auto. unfold is_fast in F. destruct (k_opt k); auto.
      + unfold on. destruct (nth_error (calcs w) i0) as [c|] eqn:E0; [|apply KEEP; auto]. apply PUT; auto.
    - unfold on, exists_obj. destruct (nth_error (calcs w) i0); [|apply KEEP; auto]. destruct (j <? _); [|apply KEEP; auto]. apply PUT; auto.
    - unfold on, exists_obj. destruct (nth_error (calcs w) i0); [|apply KEEP; auto]. destruct (j <? _); [|apply KEEP; auto]. apply PUT; auto.
    - unfold on, exists_obj. destruct (nth_error (calcs w) i0); [|apply KEEP; auto]. destruct (j <? _); [|apply KEEP; auto]. destruct (k_pdf c); [|apply KEEP; auto]. apply PUT; auto.
  Qed.
End Proofs.
