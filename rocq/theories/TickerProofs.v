From Verif Require Import Base Ticker TickerSpec.
From Coq Require Import ZifyBool.
Open Scope Z_scope.

Lemma tick_ltb_iff a b : tick_ltb a b = true <-> tlt a b.
Proof. destruct a, b; unfold tick_ltb, tlt; cbn [fst snd]; lia. Qed.

Lemma tick_ltb_false a b : tick_ltb a b = false <-> tle b a.
Proof.
  destruct a as [a1 a2], b as [b1 b2]; unfold tick_ltb, tle, tlt; cbn [fst snd]. split.
  - intros H. assert (b1 < a1 \/ (b1 = a1 /\ b2 < a2) \/ (b1 = a1 /\ b2 = a2)) by lia.
    destruct H0 as [?|[?|[-> ->]]]; auto.
  - intros [H|H]; [|injection H as -> ->]; lia.
Qed.

Lemma tle_trans a b c : tle a b -> tle b c -> tle a c.
Proof.
  destruct a as [a1 a2], b as [b1 b2], c as [c1 c2]; unfold tle, tlt; cbn [fst snd].
  intros [H|H] [K|K]; try (injection H as -> ->); try (injection K as -> ->); auto; left; lia.
Qed.
Lemma tle_lt_trans a b c : tle a b -> tlt b c -> tlt a c.
Proof.
  destruct a as [a1 a2], b as [b1 b2], c as [c1 c2]; unfold tle, tlt; cbn [fst snd].
  intros [H|H] K; try (injection H as -> ->); lia.
Qed.
Lemma tle_refl a : tle a a. Proof. now right. Qed.
Lemma tlt_tle a b : tlt a b -> tle a b. Proof. now left. Qed.
Lemma tle_antisym a b : tle a b -> tle b a -> a = b.
Proof. intros [H|H] [K|K]; auto. exfalso; unfold tlt in *; lia. Qed.
Lemma tle_total a b : tle a b \/ tle b a.
Proof.
  destruct (tick_ltb a b) eqn:E.
  - left; left; now apply tick_ltb_iff.
  - right; now apply tick_ltb_false.
Qed.
Lemma tlt_irrefl a : ~ tlt a a. Proof. unfold tlt; lia. Qed.

Lemma tle_iff a b : tle a b <-> (fst a < fst b \/ (fst a = fst b /\ snd a <= snd b)).
Proof.
  destruct a as [a1 a2], b as [b1 b2]; unfold tle, tlt; cbn [fst snd]; split.
  - intros [H|H]; [lia|injection H as -> ->; lia].
  - intros H. destruct (Z.eq_dec a2 b2), (Z.eq_dec a1 b1); subst; try (left; lia); now right.
Qed.


Lemma click_strict g g' : clock_ok g -> click_global Strict g = Some g' -> clock_ok g' /\ tlt g g'.
Proof.
  destruct g as [f s]; unfold click_global, clock_ok, long_of, in_long, tlt; cbn [fst snd]; intros H.
  destruct ((LONG_MIN <=? s + 1) && (s + 1 <=? LONG_MAX)) eqn:E; [|discriminate].
  destruct (0 >=? s + 1) eqn:E2; [lia|]. intros [= <-]; cbn [fst snd]; lia.
Qed.

Lemma click_strict_ub g : clock_ok g -> (click_global Strict g = None <-> snd g = LONG_MAX).
Proof.
  destruct g as [f s]; unfold click_global, clock_ok, long_of, in_long; cbn [fst snd]; intros H.
  unfold LONG_MIN, LONG_MAX in *.
  destruct ((- 2 ^ 63 <=? s + 1) && (s + 1 <=? 2 ^ 63 - 1)) eqn:E.
  - destruct (0 >=? s + 1) eqn:E2; [lia|]. split; [discriminate|lia].
  - split; [lia|reflexivity].
Qed.

Lemma click_wrap g : clock_ok g -> fst g < LONG_MAX ->
  exists g', click_global Wrap g = Some g' /\ clock_ok g' /\ tlt g g'.
Proof.
  destruct g as [f s]; unfold click_global, clock_ok, long_of, in_long, tlt; cbn [fst snd].
  unfold LONG_MIN, LONG_MAX; intros H Hf.
  destruct ((- 2 ^ 63 <=? s + 1) && (s + 1 <=? 2 ^ 63 - 1)) eqn:E.
  - destruct (0 >=? s + 1) eqn:E2; [lia|]. eexists; split; [reflexivity|]; cbn [fst snd]; lia.
  - assert (Hs : s = 2 ^ 63 - 1) by lia. subst s.
    replace (wrap64 (2 ^ 63 - 1 + 1)) with (- 2 ^ 63) by reflexivity.
    replace (0 >=? - 2 ^ 63) with true by reflexivity.
    destruct ((- 2 ^ 63 <=? f + 1) && (f + 1 <=? 2 ^ 63 - 1)) eqn:E2; [|lia].
    eexists; split; [reflexivity|]; cbn [fst snd]; lia.
Qed.

Lemma load_le ar g saved ga t : clock_ok g -> ar = Strict -> archive_ok saved ga ->
  load_tick ar g saved ga = Some t -> tle t g.
Proof.
  intros Hg -> [Hs Hga]; unfold load_tick, tick_gtb.
  destruct (tick_ltb g ga) eqn:E.
  - destruct (negb (fst ga =? fst g)) eqn:E1.
    + intros [= <-]. apply tle_iff; cbn [fst snd]; unfold clock_ok in Hg; lia.
    + unfold long_of. destruct (in_long (snd g - snd ga)); [|discriminate].
      destruct (in_long (snd saved + (snd g - snd ga))); [|discriminate].
      intros [= <-]. apply tle_iff in Hs. apply tle_iff; cbn [fst snd]. lia.
  - apply tick_ltb_false in E. intros [= <-]. eauto using tle_trans.
Qed.

Definition inv (w : world) : Prop :=
  clock_ok (gtick w) /\ Forall (fun t => tle t (gtick w)) (tickers w).

Lemma update_from_le a b g : tle a g -> tle b g -> tle (update_from a b) g.
Proof. unfold update_from; destruct (tick_gtb b a); auto. Qed.

Lemma step_inv w o w' : inv w -> op_ok o -> step Strict w o = Some w' ->
  inv w' /\ tle (gtick w) (gtick w').
Proof.
  intros [Hc Ht] Ho. unfold step.
  destruct o as [|i|i|i j|i saved ga].
  - intros [= <-]; unfold inv; cbn [gtick tickers]. repeat split; try apply Hc; auto using tle_refl.
    apply Forall_app; split; auto. constructor; auto.
    apply tle_iff; unfold clock_ok in Hc; cbn [fst snd]; lia.
  - destruct (nth_error (tickers w) i) as [t|] eqn:E; [|discriminate].
    intros [= <-]; unfold inv; cbn [gtick tickers]. repeat split; try apply Hc; auto using tle_refl.
    apply Forall_app; split; auto. constructor; auto.
    eapply Forall_forall in Ht; [apply Ht|eapply nth_error_In; eauto].
  - destruct (nth_error (tickers w) i) as [t|] eqn:E; [|discriminate].
    destruct (click_global Strict (gtick w)) as [g|] eqn:Eg; [|discriminate].
    intros [= <-]; destruct (click_strict _ _ Hc Eg) as [Hc' Hlt].
    unfold inv; cbn [gtick tickers]. repeat split; try apply Hc'; [|now apply tlt_tle].
    apply Forall_upd; auto using tle_refl.
    eapply Forall_impl; [|exact Ht]. cbn beta; intros t' H. eapply tle_trans; [exact H|now apply tlt_tle].
  - destruct (nth_error (tickers w) i) as [a|] eqn:Ea; [|discriminate].
    destruct (nth_error (tickers w) j) as [b|] eqn:Eb; [|discriminate].
    intros [= <-]; unfold inv; cbn [gtick tickers]. repeat split; try apply Hc; auto using tle_refl.
    apply Forall_upd; auto. rewrite Forall_forall in Ht.
    apply update_from_le; apply Ht; eapply nth_error_In; eauto.
  - destruct (nth_error (tickers w) i) as [a|] eqn:Ea; [|discriminate].
    destruct (load_tick Strict (gtick w) saved ga) as [t|] eqn:El; [|discriminate].
    intros [= <-]; unfold inv; cbn [gtick tickers]. repeat split; try apply Hc; auto using tle_refl.
    apply Forall_upd; auto. eapply load_le; eauto.
Qed.

Lemma inv0 : inv world0.
Proof. repeat split; cbn; try lia; try constructor. Qed.

Lemma run_inv w h w' : inv w -> Forall op_ok h -> run Strict w h = Some w' ->
  inv w' /\ tle (gtick w) (gtick w').
Proof.
  revert w; induction h as [|o h IH]; intros w Hi Ho; cbn [run].
  - intros [= <-]; auto using tle_refl.
  - inversion Ho as [|? ? Ho1 Ho2]; subst. destruct (step Strict w o) as [w1|] eqn:E; [|discriminate].
    destruct (step_inv _ _ _ Hi Ho1 E) as [Hi1 Hle]. intros Hr.
    destruct (IH _ Hi1 Ho2 Hr) as [Hi2 Hle2]. split; auto. eauto using tle_trans.
Qed.

Lemma run_app ar w h1 h2 : run ar w (h1 ++ h2) =
  match run ar w h1 with Some w1 => run ar w1 h2 | None => None end.
Proof.
  revert w; induction h1 as [|o h1 IH]; intros w; cbn [run app]; auto.
  destruct (step ar w o); auto.
Qed.

Lemma never_ahead h w : Forall op_ok h -> run Strict world0 h = Some w ->
  Forall (fun t => tle t (gtick w)) (tickers w).
Proof. intros Ho Hr. apply (run_inv _ _ _ inv0 Ho Hr). Qed.

Lemma click_newest h1 h2 i w1 w2 w' :
  Forall op_ok (h1 ++ h2) ->
  run Strict world0 h1 = Some w1 -> run Strict w1 h2 = Some w2 ->
  step Strict w2 (Click i) = Some w' ->
  exists t, nth_error (tickers w') i = Some t /\
    (forall u, In u (tickers w1) -> tlt u t) /\
    (forall j, j <> i -> nth_error (tickers w') j = nth_error (tickers w2) j).
Proof.
  intros Ho Hr1 Hr2. apply Forall_app in Ho as [Ho1 Ho2].
  destruct (run_inv _ _ _ inv0 Ho1 Hr1) as [Hi1 _].
  destruct (run_inv _ _ _ Hi1 Ho2 Hr2) as [Hi2 Hle].
  unfold step. destruct (nth_error (tickers w2) i) as [t|] eqn:E; [|discriminate].
  destruct (click_global Strict (gtick w2)) as [g|] eqn:Eg; [|discriminate].
  intros [= <-]; cbn [tickers]. exists g. split; [|split].
  - apply upd_same. apply nth_error_Some. congruence.
  - intros u Hu. destruct Hi1 as [_ Ht]. rewrite Forall_forall in Ht. specialize (Ht _ Hu).
    destruct Hi2 as [Hc2 _]. destruct (click_strict _ _ Hc2 Eg) as [_ Hlt].
    eapply tle_lt_trans; [|exact Hlt]. eauto using tle_trans.
  - intros j Hj. apply upd_other; auto.
Qed.

Lemma click_ub h w i : Forall op_ok h -> run Strict world0 h = Some w -> (i < length (tickers w))%nat ->
  (step Strict w (Click i) = None <-> snd (gtick w) = LONG_MAX).
Proof.
  intros Ho Hr Hlen. destruct (run_inv _ _ _ inv0 Ho Hr) as [[Hc _] _].
  unfold step. destruct (nth_error (tickers w) i) eqn:E; [|apply nth_error_None in E; lia].
  rewrite <- (click_strict_ub _ Hc). destruct (click_global Strict (gtick w)); split; congruence.
Qed.

(** updateFrom *)
Lemma update_from_ub a b : tle a (update_from a b) /\ tle b (update_from a b) /\
  (update_from a b = a \/ update_from a b = b).
Proof.
  unfold update_from, tick_gtb; destruct (tick_ltb a b) eqn:E.
  - apply tick_ltb_iff in E. auto using tle_refl, tlt_tle.
  - apply tick_ltb_false in E. auto using tle_refl.
Qed.

Lemma update_all_max t deps :
  (forall u, In u (t :: deps) -> tle u (update_all t deps)) /\ In (update_all t deps) (t :: deps).
Proof.
  revert t; induction deps as [|d deps IH]; intros t; cbn [update_all fold_left].
  - split; [|now left]. intros u [<-|[]]; apply tle_refl.
  - change (fold_left update_from deps (update_from t d)) with (update_all (update_from t d) deps).
    destruct (IH (update_from t d)) as [H1 H2]. destruct (update_from_ub t d) as (Ha & Hb & Hc).
    split.
    + intros u [<-|[<-|Hu]].
      * eapply tle_trans; [exact Ha|apply H1; now left].
      * eapply tle_trans; [exact Hb|apply H1; now left].
      * apply H1; now right.
    + destruct H2 as [H2|H2]; [|now right; right]. rewrite <- H2.
      destruct Hc as [->| ->]; [now left|now right; left].
Qed.

Lemma update_all_order t deps t' deps' :
  (forall u, In u (t :: deps) <-> In u (t' :: deps')) -> update_all t deps = update_all t' deps'.
Proof.
  intros H. destruct (update_all_max t deps) as [H1 H2], (update_all_max t' deps') as [K1 K2].
  apply tle_antisym; [apply K1, H, H2|apply H1, H, K2].
Qed.

(** load *)
Lemma load_order g a b ga a' b' :
  clock_ok g -> tle a b -> archive_ok b ga ->
  load_tick Strict g a ga = Some a' -> load_tick Strict g b ga = Some b' -> tle a' b'.
Proof.
  intros Hg Hab Hb. unfold load_tick.
  destruct (tick_gtb ga g).
  - destruct (negb (fst ga =? fst g)).
    + intros [= <-] [= <-]. apply tle_refl.
    + unfold long_of. destruct (in_long (snd g - snd ga)); [|discriminate].
      destruct (in_long (snd a + _)); [|discriminate]. intros [= <-].
      destruct (in_long (snd b + _)); [|discriminate]. intros [= <-].
      apply tle_iff in Hab; apply tle_iff; cbn [fst snd]; lia.
  - intros [= <-] [= <-]; auto.
Qed.

(** Strict order survives unless the epochs differ, when every loaded ticker is reset to "never". *)
Lemma load_order_strict g a b ga a' b' :
  clock_ok g -> tlt a b -> archive_ok b ga ->
  load_tick Strict g a ga = Some a' -> load_tick Strict g b ga = Some b' ->
  tlt a' b' \/ (a' = (0, 0) /\ b' = (0, 0) /\ fst ga <> fst g).
Proof.
  intros Hg Hab Hb. unfold load_tick.
  destruct (tick_gtb ga g).
  - destruct (negb (fst ga =? fst g)) eqn:E.
    + intros [= <-] [= <-]. right; repeat split; auto; lia.
    + unfold long_of. destruct (in_long (snd g - snd ga)); [|discriminate].
      destruct (in_long (snd a + _)); [|discriminate]. intros [= <-].
      destruct (in_long (snd b + _)); [|discriminate]. intros [= <-].
      left. unfold tlt in *; cbn [fst snd]; lia.
  - intros [= <-] [= <-]; auto.
Qed.

(** Tickers of one archive loaded with clicks in between: the order can be reversed. *)
Lemma load_interleaved : exists w a b,
  run Strict world0 interleaved_history = Some w /\
  nth_error (tickers w) 0 = Some b /\ nth_error (tickers w) 1 = Some a /\ tlt b a.
Proof.
  eexists _, _, _. split; [vm_compute; reflexivity|]. cbn. repeat split. right; cbn; lia.
Qed.

(** the comparison operators *)
Lemma comparisons_ok (a b c : tick) :
  (tick_ltb a b = true <-> tlt a b) /\ (tick_leb a b = true <-> tle a b) /\
  (tick_gtb a b = true <-> tlt b a) /\ (tick_geb a b = true <-> tle b a) /\
  (tick_eqb a b = true <-> a = b) /\ (tick_neb a b = true <-> a <> b) /\
  (tlt a b \/ a = b \/ tlt b a) /\ ~ tlt a a /\ (tlt a b -> tlt b c -> tlt a c).
Proof.
  assert (E : forall x y : tick, x = y <-> fst x = fst y /\ snd x = snd y).
  { intros [x1 x2] [y1 y2]. cbn. split; [intros H; injection H; auto|intros [-> ->]; auto]. }
  assert (HL : forall x y, tick_ltb x y = true <-> tlt x y).
  { intros x y. unfold tick_ltb, tlt. rewrite orb_true_iff, andb_true_iff, negb_true_iff, !Z.ltb_lt, Z.ltb_ge. lia. }
  assert (HN : forall x y, negb (tick_ltb x y) = true <-> tle y x).
  { intros x y. rewrite negb_true_iff. destruct (tick_ltb x y) eqn:EL.
    - apply HL in EL. unfold tlt in EL. unfold tle, tlt. rewrite E. split; [discriminate|lia].
    - assert (H : ~ tlt x y) by (rewrite <- HL, EL; discriminate). unfold tlt in H. unfold tle, tlt. rewrite E. split; [lia|auto]. }
  assert (HE : tick_eqb a b = true <-> a = b).
  { unfold tick_eqb. rewrite andb_true_iff, !Z.eqb_eq, E. reflexivity. }
  split; [apply HL|]. split; [apply HN|]. split; [apply HL|]. split; [apply HN|]. split; [exact HE|].
  split; [|split; [|split]].
  - unfold tick_neb. rewrite negb_true_iff. destruct (tick_eqb a b); [|split; auto; intros _ H; apply HE in H; discriminate].
    split; [discriminate|intros H; destruct H; now apply HE].
  - rewrite E. unfold tlt. lia.
  - unfold tlt. lia.
  - unfold tlt. lia.
Qed.
