(** Specification vocabulary for EventTicker. *)
From Verif Require Import Base Ticker.
Open Scope Z_scope.

(** Specification of the ticker order: lexicographic. *)
Definition tlt (a b : tick) : Prop := fst a < fst b \/ (fst a = fst b /\ snd a < snd b).
Definition tle (a b : tick) : Prop := tlt a b \/ a = b.

(** An archive written by a process whose clock read [ga]. *)
Definition archive_ok (saved ga : tick) : Prop := tle saved ga /\ 0 <= snd ga <= LONG_MAX.
Definition op_ok (o : op) : Prop :=
  match o with Load _ saved ga => archive_ok saved ga | _ => True end.

(** A clock value that a process can show: the state (0,0) and everything click() makes of it. *)
Definition clock_ok (g : tick) : Prop := 0 <= fst g /\ 0 <= snd g <= LONG_MAX.

(** Two tickers of one archive, the older one second, with clicks of a third ticker in between. *)
Definition interleaved_history : list op :=
  [New; New; New; Load 0 (0, 2) (0, 3); Click 2; Click 2; Click 2; Load 1 (0, 1) (0, 3)].
