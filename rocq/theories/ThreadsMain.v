(** Threads: results under a lock, apart and without *)
From Coq Require Import FunctionalExtensionality Psatz.
From Verif Require Import RBase R3 Trig Sphere Lattice LatticeSpec LatticeProofs CrystalExample R3Ref R3RefSpec Threads ThreadsSpec ThreadsProofs.
Import ListNotations.
Open Scope R_scope.

Lemma like_eq (r r' : regs) : like r r' -> r = r'.
Proof. intros H. now apply functional_extensionality. Qed.
Lemma locked_step jc sh r : snd (block (call_steps (snd jc) ++ copy_steps (fst jc) (snd jc)) (sh, r)) = done [jc] r.
Proof. apply like_eq, locked_block. Qed.
Lemma done_cons jc p r : done (jc :: p) r = done p (done [jc] r).
Proof. reflexivity. Qed.
Lemma done_locked p : forall sh r, snd (block (concat (locked p)) (sh, r)) = done p r.
Proof.
  induction p as [|jc p IH]; intros sh r; [reflexivity|].
  unfold locked. cbn [map concat]. change (map _ p) with (locked p). rewrite block_app, done_cons.
  rewrite <- (locked_step jc sh r). destruct (block _ (sh, r)) as [s1 r1]. cbn [snd]. apply IH.
Qed.
Lemma values_locked n : forall p r, fold_left (fun r b => snd (block b (fun _ => vzero, r))) (firstn n (locked p)) r = done (firstn n p) r.
Proof.
  induction n as [|n IH]; intros p r; [reflexivity|]. destruct p as [|jc p]; [reflexivity|].
  unfold locked. cbn [map firstn fold_left]. change (map _ p) with (locked p). rewrite IH, done_cons, locked_step. reflexivity.
Qed.
Lemma threads_locked sched sh (r : nat -> regs) (progs : nat -> program) t :
  priv (go exec_step sched (mkSys sh r (fun t => locked (progs t)))) t = done (firstn (turns t sched) (progs t)) (r t).
Proof.
  rewrite (atomic exec_step (fun b r => snd (block b (fun _ => vzero, r)))).
  - cbn [todo priv]. apply values_locked.
  - intros t' b Hb sh' p. cbn [todo] in Hb. unfold locked in Hb. apply in_map_iff in Hb. destruct Hb as (jc & <- & _). now rewrite !locked_step.
Qed.

(** *** threads with static variables of their own *)
Definition reads (p : place) : list cell := match p with Reg _ => [] | Stat c => [c] end.
Definition touched (o : step) : list cell :=
  match o with
  | Dot d _ u _ | Floor d _ u => d :: reads u
  | Minus d _ u v => d :: reads u ++ reads v
  | Snap d _ => [d]
  | Move d _ u => reads d ++ reads u
  end.
Lemma touched_uses jc o c : In o (call_steps (snd jc) ++ copy_steps (fst jc) (snd jc)) -> In c (touched o) -> In c (uses (snd jc)).
Proof.
  destruct jc as [j [u|M u|u M|L u|L u|u|L u]]; cbn [fst snd call_steps copy_steps result uses].
  all: intros Ho Hc; cbn in Ho; repeat (destruct Ho as [Ho|Ho]; [subst o; cbn in Hc |- *; tauto|]); contradiction.
Qed.
Lemma look_same sh1 sh2 (r : regs) p : (forall c, In c (reads p) -> sh1 c = sh2 c) -> look sh1 r p = look sh2 r p.
Proof. intros H. destruct p as [n|c]; [reflexivity|]. apply H. now left. Qed.
Lemma assign_same (own : cell -> nat) (t : nat) d k x sh1 sh2 (r : regs) : (forall c, In c (reads d) -> own c = t) -> (forall c : cell, own c = t -> sh1 c = sh2 c) ->
  (forall c, own c = t -> fst (assign d k x sh1 r) c = fst (assign d k x sh2 r) c) /\ snd (assign d k x sh1 r) = snd (assign d k x sh2 r).
Proof.
  intros H S. destruct d as [n|d]; cbn [assign fst snd]; split; auto. intros c O. destruct (cell_dec c d) as [->|N]; rewrite S; auto.
Qed.
Lemma assign_away (own : cell -> nat) (t : nat) d k x sh (r : regs) c : (forall c, In c (reads d) -> own c <> t) -> own c = t -> fst (assign d k x sh r) c = sh c.
Proof.
  intros H O. destruct d as [n|d]; cbn [assign fst]; [reflexivity|]. destruct (cell_dec c d) as [->|N]; [|reflexivity].
  exfalso. apply (H d); [now left|assumption].
Qed.
Lemma step_same (own : cell -> nat) t o (sh1 sh2 : statics) (r : regs) : (forall c, In c (touched o) -> own c = t) -> (forall c, own c = t -> sh1 c = sh2 c) ->
  (forall c, own c = t -> fst (exec_step o sh1 r) c = fst (exec_step o sh2 r) c) /\ snd (exec_step o sh1 r) = snd (exec_step o sh2 r).
Proof.
  intros M S. destruct o as [d k u w|d k u|d k u v|d k|d k u]; cbn [exec_step touched] in *.
  - rewrite (look_same sh1 sh2 r u) by (intros; apply S, M; cbn; auto). apply (assign_same own t (Stat d)); [intros c [<-|[]]; apply M; now left|exact S].
  - rewrite (look_same sh1 sh2 r u) by (intros; apply S, M; cbn; auto). apply (assign_same own t (Stat d)); [intros c [<-|[]]; apply M; now left|exact S].
  - rewrite (look_same sh1 sh2 r u), (look_same sh1 sh2 r v) by (intros; apply S, M; cbn; rewrite in_app_iff; auto).
    apply (assign_same own t (Stat d)); [intros c [<-|[]]; apply M; now left|exact S].
  - rewrite (S d) by (apply M; now left). destruct (eps_eq _ _ _); [apply (assign_same own t (Stat d)); [intros c [<-|[]]; apply M; now left|exact S]|split; [exact S|reflexivity]].
  - rewrite (look_same sh1 sh2 r u) by (intros; apply S, M; rewrite in_app_iff; auto). apply assign_same; [intros; apply M; rewrite in_app_iff; auto|exact S].
Qed.
Lemma step_away (own : cell -> nat) t k o (sh : statics) (r : regs) c : k <> t -> (forall c, In c (touched o) -> own c = k) -> own c = t -> fst (exec_step o sh r) c = sh c.
Proof.
  intros N M O. destruct o as [d a u w|d a u|d a u v|d a|d a u]; cbn [exec_step touched] in *.
  - apply (assign_away own t (Stat d)); [|exact O]. intros e [<-|[]]. rewrite (M d) by now left. exact N.
  - apply (assign_away own t (Stat d)); [|exact O]. intros e [<-|[]]. rewrite (M d) by now left. exact N.
  - apply (assign_away own t (Stat d)); [|exact O]. intros e [<-|[]]. rewrite (M d) by now left. exact N.
  - destruct (eps_eq _ _ _); [|reflexivity]. apply (assign_away own t (Stat d)); [|exact O]. intros e [<-|[]]. rewrite (M d) by now left. exact N.
  - apply (assign_away own t); [|exact O]. intros e He. rewrite (M e) by (rewrite in_app_iff; auto). exact N.
Qed.
Lemma concat_single {A} (l : list A) : concat (map (fun o => [o]) l) = l.
Proof. induction l as [|a l IH]; cbn; [|rewrite IH]; reflexivity. Qed.
Lemma threads_apart (own : cell -> nat) sched sh (r : nat -> regs) (progs : nat -> program) :
  (forall t jc c, In jc (progs t) -> In c (uses (snd jc)) -> own c = t) ->
  forall t, (length (unlocked (locked (progs t))) <= turns t sched)%nat ->
  priv (go exec_step sched (mkSys sh r (fun t => unlocked (locked (progs t))))) t = done (progs t) (r t).
Proof.
  intros H t F.
  rewrite (apart exec_step (fun t sh1 sh2 => forall c, own c = t -> sh1 c = sh2 c) (fun t o => forall c, In c (touched o) -> own c = t) t) with (sh2 := sh).
  - cbn [todo priv]. rewrite firstn_all2 by exact F. unfold unlocked. rewrite concat_single. apply done_locked.
  - intros o sh1 sh2 p M S. now apply step_same.
  - intros k o sh1 sh2 p N M S c O. rewrite (step_away own t k) by auto. now apply S.
  - cbn [todo]. intros k b o Hb Ho c Hc. unfold unlocked in Hb. apply in_map_iff in Hb. destruct Hb as (o' & <- & Hb). destruct Ho as [->|[]].
    apply in_concat in Hb. destruct Hb as (b & Hb & Ho). unfold locked in Hb. apply in_map_iff in Hb. destruct Hb as (jc & <- & Hj).
    apply (H k jc c Hj). now apply (touched_uses jc o c).
  - cbn [shared]. auto.
Qed.

(** *** steps of one thread in a row *)
Section Serial.
  Context {op Sh Pr : Type} (exec1 : op -> Sh -> Pr -> Sh * Pr).
  Lemma go_app a b (s : sys op Sh Pr) : go exec1 (a ++ b) s = go exec1 b (go exec1 a s).
  Proof. apply fold_left_app. Qed.
  Lemma serial t b : forall rest (s : sys op Sh Pr), todo s t = map (fun o => [o]) (b ++ rest) ->
    let s' := go exec1 (repeat t (length b)) s in let x := run_block exec1 b (shared s, priv s t) in
    shared s' = fst x /\ priv s' t = snd x /\ todo s' t = map (fun o => [o]) rest /\
    forall k, k <> t -> priv s' k = priv s k /\ todo s' k = todo s k.
  Proof.
    induction b as [|o b IH]; intros rest s E; cbv zeta; [repeat split; auto|].
    cbn [length repeat]. unfold Threads.go. cbn [fold_left]. change (fold_left (turn exec1) ?a ?c) with (go exec1 a c).
    unfold turn. rewrite E. cbn [app map]. unfold run_block at 1 2. cbn [fold_left fst snd].
    set (x := exec1 o (shared s) (priv s t)).
    destruct (IH rest (mkSys (fst x) (set_at (priv s) t (snd x)) (set_at (todo s) t (map (fun o => [o]) (b ++ rest))))) as (A & B & C & D).
    { cbn [todo]. apply set_at_same. }
    cbn [shared priv todo] in A, B, C, D. rewrite set_at_same in A, B. unfold run_block in A, B |- *. cbn [fold_left fst snd]. fold x.
    rewrite <- surjective_pairing in A, B.
    split; [exact A|]. split; [exact B|]. split; [exact C|]. intros k N. destruct (D k N) as [D1 D2]. rewrite set_at_other in D1 by auto. rewrite D2. rewrite D1. split; [reflexivity|]. apply set_at_other. exact N.
  Qed.
End Serial.

(** *** clicks *)
Lemma click_block g p : run_block exec_tick click_steps (g, p) = ((g + 1)%Z, mkTP g ((g + 1)%Z :: ticks p)).
Proof. reflexivity. Qed.
Definition ordered (g0 : Z) (s : sys tstep Z tpriv) : Prop :=
  (g0 <= shared s)%Z /\
  (forall t, decreasing (ticks (priv s t)) /\ forall x, In x (ticks (priv s t)) -> (g0 < x <= shared s)%Z) /\
  (forall t t' x, t <> t' -> In x (ticks (priv s t)) -> ~ In x (ticks (priv s t'))) /\
  (forall t b, In b (todo s t) -> b = click_steps).
Lemma turn_ordered g0 s k : ordered g0 s -> ordered g0 (turn exec_tick s k).
Proof.
  intros (G & H1 & H2 & H3). unfold turn. destruct (todo s k) as [|b r] eqn:E; [exact (conj G (conj H1 (conj H2 H3)))|].
  assert (b = click_steps) as -> by (apply (H3 k); rewrite E; now left).
  rewrite click_block. cbn [fst snd]. destruct s as [g p td]. cbn [shared priv todo] in *.
  split; [cbn [shared]; lia|]. split; [|split]; cbn [shared priv todo].
  - intros t. destruct (Nat.eq_dec t k) as [->|N].
    + rewrite set_at_same. cbn [ticks]. destruct (H1 k) as [D B]. split.
      * destruct (ticks (p k)) as [|y l] eqn:EL; [exact I|]. split; [|exact D]. specialize (B y (or_introl eq_refl)). lia.
      * intros x [<-|Hx]; [lia|]. specialize (B x Hx). lia.
    + rewrite set_at_other by auto. destruct (H1 t) as [D B]. split; [exact D|]. intros x Hx. specialize (B x Hx). lia.
  - intros t t' x N. destruct (Nat.eq_dec t k) as [->|Nt]; destruct (Nat.eq_dec t' k) as [->|Nt']; try contradiction;
      rewrite ?set_at_same, ?set_at_other by auto; cbn [ticks In].
    + intros [<-|Hx] Hx'; [destruct (H1 t') as [_ B]; specialize (B _ Hx'); lia|now apply (H2 k t' x)].
    + intros Hx [<-|Hx']; [destruct (H1 t) as [_ B]; specialize (B _ Hx); lia|now apply (H2 t k x)].
    + now apply H2.
  - intros t b Hb. apply (H3 t). destruct (Nat.eq_dec t k) as [->|N]; [rewrite set_at_same in Hb; rewrite E; now right|now rewrite set_at_other in Hb by auto].
Qed.
Lemma go_ordered g0 sched : forall s, ordered g0 s -> ordered g0 (go exec_tick sched s).
Proof. induction sched as [|k sched IH]; intros s H; [exact H|]. unfold go. cbn [fold_left]. apply IH. now apply turn_ordered. Qed.
