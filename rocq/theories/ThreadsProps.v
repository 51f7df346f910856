(** C102: threads of one process *)
From Verif Require Import RBase R3 Trig Sphere Lattice LatticeSpec LatticeProofs CrystalExample R3Ref R3RefSpec Threads ThreadsSpec ThreadsProofs ThreadsMain.
From Coq Require Import Psatz.
Import ListNotations.
Open Scope R_scope.

(** C102: if each call and the copy of its result are made under one lock, then for any number of threads, any programs and any schedule
    every thread holds the by-value results of the calls it has completed. *)
Theorem C102_locked_partial : forall sched sh (r : nat -> regs) (progs : nat -> program) t,
  priv (go exec_step sched (mkSys sh r (fun t => locked (progs t)))) t = done (firstn (turns t sched) (progs t)) (r t).
Proof. exact threads_locked. Qed.
Print Assumptions C102_locked_partial.

(** C102: without any lock the results are right if no static variable is used by two threads, however the single steps alternate. *)
Theorem C102_apart_partial : forall (own : cell -> nat) sched sh (r : nat -> regs) (progs : nat -> program),
  (forall t jc c, In jc (progs t) -> In c (uses (snd jc)) -> own c = t) ->
  forall t, (length (unlocked (locked (progs t))) <= turns t sched)%nat ->
  priv (go exec_step sched (mkSys sh r (fun t => unlocked (locked (progs t))))) t = done (progs t) (r t).
Proof. exact threads_apart. Qed.
Print Assumptions C102_apart_partial.

(** two threads: the Cartesian coordinates of (1, 0, 0) and of (2, 0, 0) in the same lattice *)
Definition two (c0 c1 : tcall) : nat -> program := fun t => match t with O => [(0%nat, c0)] | S O => [(0%nat, c1)] | _ => [] end.
Definition points : nat -> regs := fun t _ => match t with O => V3 1 0 0 | _ => V3 2 0 0 end.
Lemma unit_cart v : cartesian lattice0 v = v.
Proof. rewrite cart0. reflexivity. Qed.

(** C102 refuted: a lock for the call alone is not enough: the copy may be made of the result of the other thread. *)
Theorem C102_call_lock_refuted : exists L progs r sched sh, consistent L /\
  (forall t, length (call_locked (progs t)) <= turns t sched)%nat /\
  priv (go exec_step sched (mkSys sh r (fun t => call_locked (progs t)))) 0%nat 0%nat <> done (progs 0%nat) (r 0%nat) 0%nat.
Proof.
  exists lattice0, (two (TCartesian lattice0 0) (TCartesian lattice0 0)), points, [0; 1; 0; 1]%nat, (fun _ => vzero).
  split; [exact lattice0_consistent|]. split; [intros [|[|t]]; cbn; lia|].
  assert (E : done (two (TCartesian lattice0 0) (TCartesian lattice0 0) 0%nat) (points 0%nat) 0%nat = V3 1 0 0).
  { unfold done, two. cbn [fold_left fst snd Nat.eqb call_value]. apply unit_cart. }
  rewrite E. clear E. unfold go. cbn [fold_left].
  set (s := mkSys _ _ _).
  assert (T0 : todo s 0%nat = [call_steps (TCartesian lattice0 0); copy_steps 0 (TCartesian lattice0 0)]) by reflexivity.
  assert (T1 : todo s 1%nat = [call_steps (TCartesian lattice0 0); copy_steps 0 (TCartesian lattice0 0)]) by reflexivity.
  assert (P0 : priv s 0%nat = points 0%nat) by reflexivity. assert (P1 : priv s 1%nat = points 1%nat) by reflexivity. clearbody s.
  unfold turn at 4. rewrite T0, P0. destruct (call_block (TCartesian lattice0 0) (shared s) (points 0%nat)) as [A0 B0].
  destruct (run_block exec_step (call_steps (TCartesian lattice0 0)) (shared s, points 0%nat)) as [s1 r1]. cbn [fst snd] in *. subst r1.
  unfold turn at 3. cbn [todo priv shared]. rewrite !set_at_other by discriminate. rewrite T1, P1.
  destruct (call_block (TCartesian lattice0 0) s1 (points 1%nat)) as [A1 B1].
  destruct (run_block exec_step (call_steps (TCartesian lattice0 0)) (s1, points 1%nat)) as [s2 r2]. cbn [fst snd] in *. subst r2.
  unfold turn at 2. cbn [todo priv shared]. rewrite !(set_at_other _ 1%nat) by discriminate. rewrite !set_at_same.
  destruct (copy_block 0 (TCartesian lattice0 0) s2 (points 0%nat)) as [A2 B2].
  destruct (run_block exec_step (copy_steps 0 (TCartesian lattice0 0)) (s2, points 0%nat)) as [s3 r3]. cbn [fst snd] in *. subst s3.
  unfold turn. cbn [todo priv shared]. rewrite !(set_at_other _ 0%nat) by discriminate. rewrite !set_at_same. cbn [priv].
  rewrite !(set_at_other _ 1%nat) by discriminate. rewrite !set_at_same, B2. cbn [Nat.eqb]. rewrite B1. cbn [call_value]. rewrite unit_cart.
  unfold points. intros H. injection H. lra.
Qed.
Print Assumptions C102_call_lock_refuted.

(** C102 refuted: without a lock even two different conversions disturb each other: one thread calls cartesian, another fractional, and
    the first one gets the coordinates of the vector of the second one. *)
Theorem C102_unlocked_refuted : exists L progs r sched sh, consistent L /\
  (forall c0 c1, In c0 (progs 0%nat) -> In c1 (progs 1%nat) -> result (snd c0) <> result (snd c1)) /\
  (forall t, length (unlocked (locked (progs t))) <= turns t sched)%nat /\
  priv (go exec_step sched (mkSys sh r (fun t => unlocked (locked (progs t))))) 0%nat 0%nat <> done (progs 0%nat) (r 0%nat) 0%nat.
Proof.
  exists lattice0, (two (TCartesian lattice0 0) (TFractional lattice0 0)), points, (repeat 0 3 ++ repeat 1 3 ++ repeat 0 6 ++ repeat 1 6)%nat, (fun _ => vzero).
  split; [exact lattice0_consistent|]. split.
  { intros c0 c1 [<-|[]] [<-|[]]. discriminate. }
  split; [intros [|[|t]]; cbn; lia|].
  assert (E : done (two (TCartesian lattice0 0) (TFractional lattice0 0) 0%nat) (points 0%nat) 0%nat = V3 1 0 0).
  { unfold done, two. cbn [fold_left fst snd Nat.eqb call_value]. apply unit_cart. }
  rewrite E. clear E. rewrite !go_app.
  set (s := mkSys _ _ _).
  set (M := fun d => axes (fun k => Move (Stat d) k (Stat SVecMx))). set (C := fun d => axes (fun k => Move (Reg 0) k (Stat d))).
  assert (T0 : todo s 0%nat = map (fun o => [o]) (vecmx_steps (Reg 0) (base lattice0) ++ M SCart ++ C SCart)) by reflexivity.
  assert (T1 : todo s 1%nat = map (fun o => [o]) (vecmx_steps (Reg 0) (recbase lattice0) ++ M SFrac ++ C SFrac)) by reflexivity.
  assert (P0 : priv s 0%nat = points 0%nat) by reflexivity. assert (P1 : priv s 1%nat = points 1%nat) by reflexivity. clearbody s.
  destruct (serial exec_step 0%nat (vecmx_steps (Reg 0) (base lattice0)) _ s T0) as (S1 & Q1 & U1 & O1).
  change (length (vecmx_steps (Reg 0) (base lattice0))) with 3%nat in *. set (a := go exec_step (repeat 0%nat 3) s) in *. clearbody a.
  destruct (vecmx_block (base lattice0) (Reg 0) (shared s) (priv s 0%nat) ltac:(discriminate)) as (X1 & _ & _). rewrite X1 in Q1. clear X1 S1.
  destruct (O1 1%nat ltac:(discriminate)) as [V1 W1]. clear O1.
  assert (T1' : todo a 1%nat = map (fun o => [o]) (vecmx_steps (Reg 0) (recbase lattice0) ++ M SFrac ++ C SFrac)) by (rewrite W1; exact T1).
  destruct (serial exec_step 1%nat (vecmx_steps (Reg 0) (recbase lattice0)) _ a T1') as (S2 & Q2 & U2 & O2).
  change (length (vecmx_steps (Reg 0) (recbase lattice0))) with 3%nat in *. set (b := go exec_step (repeat 1%nat 3) a) in *. clearbody b.
  destruct (vecmx_block (recbase lattice0) (Reg 0) (shared a) (priv a 1%nat) ltac:(discriminate)) as (_ & X2 & _). rewrite <- S2 in X2. clear S2.
  destruct (O2 0%nat ltac:(discriminate)) as [V2 W2]. clear O2. rewrite U1 in W2.
  assert (T0' : todo b 0%nat = map (fun o => [o]) ((M SCart ++ C SCart) ++ [])) by (rewrite app_nil_r; exact W2).
  destruct (serial exec_step 0%nat (M SCart ++ C SCart) [] b T0') as (_ & Q3 & _ & _).
  change (length (M SCart ++ C SCart)) with 6%nat in Q3. set (c := go exec_step (repeat 0%nat 6) b) in *.
  assert (T1'' : todo c 1%nat = map (fun o => [o]) ((M SFrac ++ C SFrac) ++ [])).
  { rewrite app_nil_r. unfold c. destruct (serial exec_step 0%nat (M SCart ++ C SCart) [] b T0') as (_ & _ & _ & O3).
    change (length (M SCart ++ C SCart)) with 6%nat in O3. destruct (O3 1%nat ltac:(discriminate)) as [_ ->]. exact U2. }
  clearbody c.
  destruct (serial exec_step 1%nat (M SFrac ++ C SFrac) [] c T1'') as (_ & _ & _ & O4).
  change (length (M SFrac ++ C SFrac)) with 6%nat in O4. destruct (O4 0%nat ltac:(discriminate)) as [-> _]. rewrite Q3.
  rewrite block_app. destruct (move_block SCart (Stat SVecMx) (shared b) (priv b 0%nat) ltac:(discriminate)) as (A3 & B3 & _).
  fold (M SCart) in A3, B3. destruct (run_block exec_step (M SCart) (shared b, priv b 0%nat)) as [s3 r3]. cbn [fst snd] in *. subst r3.
  destruct (copy_block 0 (TCartesian lattice0 0) s3 (priv b 0%nat)) as [_ B4]. cbv zeta in B4.
  change (copy_steps 0 (TCartesian lattice0 0)) with (C SCart) in B4. rewrite B4. cbn [Nat.eqb result]. rewrite B3. cbn [look]. rewrite X2, V1, P1.
  cbn [look]. change (vm ?v (recbase lattice0)) with (fractional lattice0 v). rewrite frac0. unfold points. intros H. injection H. lra.
Qed.
Print Assumptions C102_unlocked_refuted.

(** C102: when click is made under a lock, later clicks have larger values and no two clicks the same, for any number of threads. *)
Theorem C102_clicks_locked_partial : forall sched g0 (count : nat -> nat) t,
  let s := go exec_tick sched (mkSys g0 (fun _ => mkTP 0 []) (fun t => clicks (count t))) in
  decreasing (ticks (priv s t)) /\ length (ticks (priv s t)) = Nat.min (turns t sched) (count t) /\
  (forall x, In x (ticks (priv s t)) -> (g0 < x)%Z) /\
  forall t' x, t <> t' -> In x (ticks (priv s t)) -> ~ In x (ticks (priv s t')).
Proof.
  intros sched g0 count t s.
  assert (O : ordered g0 s).
  { unfold s. apply go_ordered. split; [cbn [shared]; lia|]. split; [|split]; cbn [shared priv todo ticks].
    - intros k. split; [exact I|]. intros x [].
    - intros k k' x _ [].
    - intros k b Hb. unfold clicks in Hb. now apply repeat_spec in Hb. }
  destruct O as (G & H1 & H2 & _). destruct (H1 t) as [D B]. split; [exact D|]. split; [|split; [intros x Hx; apply (B x Hx)|intros t' x; apply H2]].
  unfold s. clear.
  assert (K : forall sched (s : sys tstep Z tpriv), (forall t, exists n, todo s t = clicks n) ->
    forall t n, todo s t = clicks n -> length (ticks (priv (go exec_tick sched s) t)) = (length (ticks (priv s t)) + Nat.min (turns t sched) n)%nat).
  { clear. induction sched as [|k sched IH]; intros s H t n E; [cbn [go fold_left turns count_occ]; unfold turns; cbn [count_occ Nat.min]; cbn; lia|].
    change (k :: sched) with ([k] ++ sched). rewrite go_app. unfold go at 2. cbn [fold_left app].
    unfold turns. cbn [count_occ]. change (count_occ Nat.eq_dec sched t) with (turns t sched).
    unfold turn. destruct (H k) as [m Ek]. rewrite Ek. destruct m as [|m]; cbn [clicks repeat].
    - rewrite (IH s H t n E). destruct (Nat.eq_dec k t) as [->|N]; [|reflexivity]. rewrite E in Ek.
      destruct n; [|discriminate]. lia.
    - rewrite click_block. cbn [fst snd].
      assert (H' : forall t0, exists n0, set_at (todo s) k (repeat click_steps m) t0 = clicks n0).
      { intros t0. destruct (Nat.eq_dec t0 k) as [->|N0]; [rewrite set_at_same; now exists m|rewrite set_at_other by auto; apply H]. }
      destruct (Nat.eq_dec k t) as [->|N].
      + rewrite E in Ek. assert (n = S m) as ->. { apply (f_equal (@length _)) in Ek. unfold clicks in Ek. rewrite !repeat_length in Ek. exact Ek. }
        rewrite (IH (mkSys _ _ _)) with (n := m) by (cbn [todo]; first [exact H' | apply set_at_same]). cbn [priv]. rewrite set_at_same. cbn [ticks length]. lia.
      + rewrite (IH (mkSys _ _ _)) with (n := n) by (cbn [todo]; first [exact H' | rewrite set_at_other by auto; exact E]). cbn [priv]. now rewrite set_at_other by auto. }
  apply (K sched (mkSys g0 (fun _ => mkTP 0 []) (fun t => clicks (count t)))); [|reflexivity]. intros k. now exists (count k).
Qed.
Print Assumptions C102_clicks_locked_partial.

(** C102 refuted: without a lock, clicks of a thread that shares no object with any other thread get smaller values than its own earlier
    clicks: a change made after a calculation looks older than the result, which is then not updated. *)
Theorem C102_clicks_refuted : exists sched (count : nat -> nat),
  let s := go exec_tick sched (mkSys 0%Z (fun _ => mkTP 0 []) (fun t => unlocked (clicks (count t)))) in
  (forall t, length (unlocked (clicks (count t))) <= turns t sched)%nat /\
  exists change value earlier, ticks (priv s 0%nat) = change :: value :: earlier /\ (change < value)%Z.
Proof.
  exists ([1] ++ repeat 0 9 ++ [1; 1] ++ repeat 0 3)%nat, (fun t => match t with O => 4 | S O => 1 | _ => 0 end)%nat.
  cbv zeta. split; [intros [|[|t]]; cbn; lia|].
  exists 2%Z, 3%Z, [2; 1]%Z. split; [reflexivity|lia].
Qed.
Print Assumptions C102_clicks_refuted.

(** the hypotheses are met: one thread with floor, another one with products *)
Example C102_nonvacuous : exists progs own sched,
  (forall t jc c, In jc (progs t) -> In c (uses (snd jc)) -> own c = t) /\
  (forall t, length (unlocked (locked (progs t))) <= turns t sched)%nat /\ forall t, (t < 2)%nat -> progs t <> [].
Proof.
  exists (two (TFloor 0) (TMxVec mid 0)), (fun c => match c with SFloor => 0 | SMxVec => 1 | _ => 2 end)%nat, [0; 1; 1; 0; 0; 1; 1; 0; 0; 1; 1; 0]%nat.
  split; [|split].
  - intros [|[|t]] jc c; cbn [two]; [intros [<-|[]] [<-|[]]; reflexivity|intros [<-|[]] [<-|[]]; reflexivity|intros []].
  - intros [|[|t]]; cbn; lia.
  - intros [|[|t]] H; [discriminate|discriminate|lia].
Qed.
