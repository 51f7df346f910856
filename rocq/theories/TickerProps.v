(** Properties C01-C03: EventTicker. *)
From Verif Require Import Base Ticker TickerSpec TickerProofs.
Open Scope Z_scope.

(** C01: no ticker is ever ahead of the global clock, for every history. *)
Theorem C01_ticker_never_ahead_of_clock : forall h w,
  Forall op_ok h -> run Strict world0 h = Some w ->
  Forall (fun t => tle t (gtick w)) (tickers w).
Proof. exact never_ahead. Qed.
Print Assumptions C01_ticker_never_ahead_of_clock.

(** C01: a clicked ticker is strictly newer than every value held by any ticker at any earlier
    time ([h1] is any prefix of the history), and no other ticker changes. *)
Theorem C01_click_is_newest : forall h1 h2 i w1 w2 w',
  Forall op_ok (h1 ++ h2) ->
  run Strict world0 h1 = Some w1 -> run Strict w1 h2 = Some w2 ->
  step Strict w2 (Click i) = Some w' ->
  exists t, nth_error (tickers w') i = Some t /\
    (forall u, In u (tickers w1) -> tlt u t) /\
    (forall j, j <> i -> nth_error (tickers w') j = nth_error (tickers w2) j).
Proof. exact click_newest. Qed.
Print Assumptions C01_click_is_newest.

(** C01: the only failure of click() is signed overflow at LONG_MAX. *)
Theorem C01_click_overflow_only_at_LONG_MAX : forall h w i,
  Forall op_ok h -> run Strict world0 h = Some w -> (i < length (tickers w))%nat ->
  (step Strict w (Click i) = None <-> snd (gtick w) = LONG_MAX).
Proof. exact click_ub. Qed.
Print Assumptions C01_click_overflow_only_at_LONG_MAX.

(** C01: on a compiler with wrapping arithmetic click() moves the clock strictly forward
    through the overflow as well, until 2^63 epochs are used up. *)
Theorem C01_click_advances_with_wrapping_arithmetic : forall g,
  clock_ok g -> fst g < LONG_MAX ->
  exists g', click_global Wrap g = Some g' /\ clock_ok g' /\ tlt g g'.
Proof. exact click_wrap. Qed.
Print Assumptions C01_click_advances_with_wrapping_arithmetic.

Example C01_nonvacuous :
  Forall op_ok interleaved_history /\
  exists w, run Strict world0 interleaved_history = Some w /\ length (tickers w) = 3%nat /\
            gtick w = (0, 3).
Proof.
  split.
  - repeat constructor; cbn; try lia; try (vm_compute; discriminate); left; right; cbn; lia.
  - eexists. split; [vm_compute; reflexivity|split; reflexivity].
Qed.
Example C01_wrap_nonvacuous : click_global Wrap (0, LONG_MAX) = Some (1, 0)
  /\ click_global Strict (0, LONG_MAX) = None.
Proof. split; reflexivity. Qed.

(** C02: updateFrom over any dependencies gives their maximum ... *)
Theorem C02_updateFrom_is_latest : forall t deps,
  (forall u, In u (t :: deps) -> tle u (update_all t deps)) /\ In (update_all t deps) (t :: deps).
Proof. exact update_all_max. Qed.
Print Assumptions C02_updateFrom_is_latest.

(** ... which does not depend on order or repetition. *)
Theorem C02_updateFrom_order_independent : forall t deps t' deps',
  (forall u, In u (t :: deps) <-> In u (t' :: deps')) -> update_all t deps = update_all t' deps'.
Proof. exact update_all_order. Qed.
Print Assumptions C02_updateFrom_order_independent.

(** C02: the six comparison operators are those of one total order. *)
Theorem C02_comparisons_of_one_total_order : forall a b c,
  (tick_ltb a b = true <-> tlt a b) /\ (tick_leb a b = true <-> tle a b) /\
  (tick_gtb a b = true <-> tlt b a) /\ (tick_geb a b = true <-> tle b a) /\
  (tick_eqb a b = true <-> a = b) /\ (tick_neb a b = true <-> a <> b) /\
  (tlt a b \/ a = b \/ tlt b a) /\ ~ tlt a a /\ (tlt a b -> tlt b c -> tlt a c).
Proof. exact comparisons_ok. Qed.
Print Assumptions C02_comparisons_of_one_total_order.

Example C02_nonvacuous : update_all (0, 1) [(0, 5); (1, 0); (0, 7)] = (1, 0).
Proof. reflexivity. Qed.

(** C03: tickers of one archive, loaded while the clock stands still, keep their order. *)
Theorem C03_load_preserves_order : forall g a b ga a' b',
  clock_ok g -> tle a b -> archive_ok b ga ->
  load_tick Strict g a ga = Some a' -> load_tick Strict g b ga = Some b' -> tle a' b'.
Proof. exact load_order. Qed.
Print Assumptions C03_load_preserves_order.

Theorem C03_load_preserves_strict_order : forall g a b ga a' b',
  clock_ok g -> tlt a b -> archive_ok b ga ->
  load_tick Strict g a ga = Some a' -> load_tick Strict g b ga = Some b' ->
  tlt a' b' \/ (a' = (0, 0) /\ b' = (0, 0) /\ fst ga <> fst g).
Proof. exact load_order_strict. Qed.
Print Assumptions C03_load_preserves_strict_order.

(** C03: a loaded ticker is not newer than the clock of the loading process. *)
Theorem C03_loaded_not_ahead : forall ar g saved ga t,
  clock_ok g -> ar = Strict -> archive_ok saved ga ->
  load_tick ar g saved ga = Some t -> tle t g.
Proof. exact load_le. Qed.
Print Assumptions C03_loaded_not_ahead.

Example C03_nonvacuous : load_tick Strict (0, 4) (0, 2) (0, 9) = Some (0, -3) /\
  load_tick Strict (0, 4) (0, 8) (0, 9) = Some (0, 3) /\ archive_ok (0, 8) (0, 9) /\ clock_ok (0, 4).
Proof. repeat split; try reflexivity; cbn; try lia; try (vm_compute; discriminate). left; right; cbn; lia. Qed.

(** C03, the limit of the guarantee: if other tickers are clicked between the loads, the order
    of two tickers of one archive can be reversed (saved (0,1) < (0,2), loaded the other way round). *)
Theorem C03_load_order_with_clicks_between_refuted : exists w a b,
  run Strict world0 interleaved_history = Some w /\
  nth_error (tickers w) 0 = Some b /\ nth_error (tickers w) 1 = Some a /\ tlt b a.
Proof. exact load_interleaved. Qed.
Print Assumptions C03_load_order_with_clicks_between_refuted.
