(** Proofs about threads *)
From Verif Require Import RBase R3 Trig Sphere Lattice R3Ref R3RefSpec Threads ThreadsSpec.
From Coq Require Import Psatz.
Import ListNotations.
Open Scope R_scope.

Section General.
  Context {op Sh Pr : Type} (exec1 : op -> Sh -> Pr -> Sh * Pr).
  Notation sys := (sys op Sh Pr). Notation go := (go exec1). Notation run_block := (run_block exec1).
  Lemma set_at_same {A} (f : nat -> A) t a : set_at f t a t = a.
  Proof. unfold set_at. now rewrite Nat.eqb_refl. Qed.
  Lemma set_at_other {A} (f : nat -> A) t a k : k <> t -> set_at f t a k = f k.
  Proof. intros H. unfold set_at. apply Nat.eqb_neq in H. now rewrite H. Qed.
  (** blocks that do not depend on the shared variables *)
  Lemma atomic (val : list op -> Pr -> Pr) : forall sched (s : sys),
    (forall t b, In b (todo s t) -> forall sh p, snd (run_block b (sh, p)) = val b p) ->
    forall t, priv (go sched s) t = fold_left (fun p b => val b p) (firstn (turns t sched) (todo s t)) (priv s t).
  Proof.
    induction sched as [|k sched IH]; intros s H t; [reflexivity|].
    unfold Threads.go. cbn [fold_left]. change (fold_left (turn exec1) sched (turn exec1 s k)) with (go sched (turn exec1 s k)).
    unfold turns. cbn [count_occ]. unfold turn. destruct (todo s k) as [|b r] eqn:E.
    - rewrite IH by auto. destruct (Nat.eq_dec k t) as [->|N]; [|reflexivity].
      rewrite E. now rewrite !firstn_nil.
    - rewrite IH; cbn [todo priv].
      + destruct (Nat.eq_dec k t) as [->|N].
        * rewrite !set_at_same, E. cbn [firstn fold_left]. rewrite (H t b) by (rewrite E; now left). reflexivity.
        * rewrite !set_at_other by auto. reflexivity.
      + intros t' b' Hb. apply (H t'). destruct (Nat.eq_dec t' k) as [->|N]; [rewrite set_at_same in Hb; rewrite E; now right|now rewrite set_at_other in Hb by auto].
  Qed.
  (** threads that do not share variables *)
  Lemma apart (same : nat -> Sh -> Sh -> Prop) (mine : nat -> op -> Prop) t :
    (forall o sh1 sh2 p, mine t o -> same t sh1 sh2 -> same t (fst (exec1 o sh1 p)) (fst (exec1 o sh2 p)) /\ snd (exec1 o sh1 p) = snd (exec1 o sh2 p)) ->
    (forall k o sh1 sh2 p, k <> t -> mine k o -> same t sh1 sh2 -> same t (fst (exec1 o sh1 p)) sh2) ->
    forall sched (s : sys) sh2, (forall k b o, In b (todo s k) -> In o b -> mine k o) -> same t (shared s) sh2 ->
    priv (go sched s) t = snd (run_block (concat (firstn (turns t sched) (todo s t))) (sh2, priv s t)).
  Proof.
    intros H1 H2.
    assert (B1 : forall b sh1 sh2 p, (forall o, In o b -> mine t o) -> same t sh1 sh2 ->
      same t (fst (run_block b (sh1, p))) (fst (run_block b (sh2, p))) /\ snd (run_block b (sh1, p)) = snd (run_block b (sh2, p))).
    { unfold Threads.run_block. induction b as [|o b IH]; intros sh1 sh2 p M S; cbn [fold_left]; [split; [assumption|reflexivity]|].
      cbn [fst snd]. destruct (H1 o sh1 sh2 p) as [S' E]; [apply M; now left|assumption|].
      destruct (exec1 o sh1 p) as [a1 p1]. destruct (exec1 o sh2 p) as [a2 p2]. cbn [fst snd] in *. subst p2. apply IH; auto. intros; apply M; now right. }
    assert (B2 : forall k b sh1 sh2 p, k <> t -> (forall o, In o b -> mine k o) -> same t sh1 sh2 -> same t (fst (run_block b (sh1, p))) sh2).
    { unfold Threads.run_block. intros k. induction b as [|o b IH]; intros sh1 sh2 p N M S; cbn [fold_left]; [assumption|].
      cbn [fst snd]. pose proof (H2 k o sh1 sh2 p N (M o (or_introl eq_refl)) S) as S'.
      destruct (exec1 o sh1 p) as [a1 p1]. cbn [fst] in *. apply IH; auto. intros; apply M; now right. }
    induction sched as [|k sched IH]; intros s sh2 M S; [reflexivity|].
    unfold Threads.go. cbn [fold_left]. change (fold_left (turn exec1) sched (turn exec1 s k)) with (go sched (turn exec1 s k)).
    unfold turns. cbn [count_occ]. unfold turn. destruct (todo s k) as [|b r] eqn:E.
    - rewrite (IH s sh2) by auto. destruct (Nat.eq_dec k t) as [->|N]; [|reflexivity]. rewrite E. now rewrite !firstn_nil.
    - assert (M' : forall k' b' o, In b' (set_at (todo s) k r k') -> In o b' -> mine k' o).
      { intros k' b' o Hb. apply (M k' b' o). destruct (Nat.eq_dec k' k) as [->|N]; [rewrite set_at_same in Hb; rewrite E; now right|now rewrite set_at_other in Hb by auto]. }
      assert (Mb : forall o, In o b -> mine k o) by (intros o; apply M; rewrite E; now left).
      destruct (Nat.eq_dec k t) as [->|N].
      + destruct (B1 b (shared s) sh2 (priv s t) Mb S) as [S' EP].
        rewrite (IH _ (fst (run_block b (sh2, priv s t)))); cbn [todo priv shared]; [|exact M'|exact S'].
        rewrite !set_at_same, E. cbn [firstn concat]. unfold Threads.run_block at 1 4. rewrite fold_left_app. rewrite EP.
        f_equal. f_equal. unfold Threads.run_block. now rewrite <- surjective_pairing.
      + rewrite (IH _ sh2); cbn [todo priv shared]; [|exact M'|]. { now rewrite !set_at_other by auto. }
        apply (B2 k); auto.
  Qed.
End General.

(** *** the calls *)
Notation block := (run_block exec_step).
Lemma block_app a b x : block (a ++ b) x = block b (block a x).
Proof. apply fold_left_app. Qed.
Definition like (r r' : regs) : Prop := forall i, r i = r' i.
Lemma vec3 v : V3 (vx v) (vy v) (vz v) = v. Proof. now destruct v. Qed.
(** three assignments to the elements of one static variable, whose sources are not that variable *)
Lemma assign3 (d : cell) (f : axis -> step) (g : axis -> R) sh r :
  (forall k sh', (forall e, e <> d -> sh' e = sh e) -> exec_step (f k) sh' r = assign (Stat d) k (g k) sh' r) ->
  let x := block (axes f) (sh, r) in snd x = r /\ fst x d = V3 (g AX) (g AY) (g AZ) /\ forall e, e <> d -> fst x e = sh e.
Proof.
  intros H. unfold run_block, axes. cbn [fold_left fst snd].
  rewrite (H AX) by auto. cbn [assign fst snd].
  rewrite (H AY) by (intros e N; destruct (cell_dec e d); [contradiction|reflexivity]). cbn [assign fst snd].
  rewrite (H AZ) by (intros e N; destruct (cell_dec e d); [contradiction|reflexivity]). cbn [assign fst snd].
  split; [reflexivity|]. split.
  - destruct (cell_dec d d) as [_|N]; [|contradiction]. reflexivity.
  - intros e N. destruct (cell_dec e d); [contradiction|reflexivity].
Qed.
Lemma look_keep sh sh' r u d : u <> Stat d -> (forall e, e <> d -> sh' e = sh e) -> look sh' r u = look sh r u.
Proof. intros N H. destruct u as [n|c]; [reflexivity|]. apply H. intros ->. now apply N. Qed.
Lemma floor_block u sh r : u <> Stat SFloor -> let x := block (floor_steps u) (sh, r) in
  snd x = r /\ fst x SFloor = floor3 (look sh r u) /\ forall e, e <> SFloor -> fst x e = sh e.
Proof.
  intros N. apply (assign3 SFloor (fun k => Floor SFloor k u) (fun k => IZR (Rfloor (elem k (look sh r u)))) sh r).
  intros k sh' K. cbn [exec_step]. now rewrite (look_keep sh sh' r u SFloor).
Qed.
Lemma mxvec_block M u sh r : u <> Stat SMxVec -> let x := block (mxvec_steps M u) (sh, r) in
  snd x = r /\ fst x SMxVec = mv M (look sh r u) /\ forall e, e <> SMxVec -> fst x e = sh e.
Proof.
  intros N. pose proof (assign3 SMxVec (fun k => Dot SMxVec k u (Threads.row M k)) (fun k => vdot (look sh r u) (Threads.row M k)) sh r) as H.
  cbv zeta in *. destruct H as (A & B & C). { intros k sh' K. cbn [exec_step]. now rewrite (look_keep sh sh' r u SMxVec). }
  split; [exact A|]. split; [|exact C]. refine (eq_trans B _). unfold mv, vdot, Threads.row, row0, row1, row2. cbn [vx vy vz]. f_equal; ring.
Qed.
Lemma vecmx_block M u sh r : u <> Stat SVecMx -> let x := block (vecmx_steps u M) (sh, r) in
  snd x = r /\ fst x SVecMx = vm (look sh r u) M /\ forall e, e <> SVecMx -> fst x e = sh e.
Proof.
  intros N. apply (assign3 SVecMx (fun k => Dot SVecMx k u (Threads.col M k)) (fun k => vdot (look sh r u) (Threads.col M k)) sh r).
  intros k sh' K. cbn [exec_step]. now rewrite (look_keep sh sh' r u SVecMx).
Qed.
Lemma move_block d u sh r : u <> Stat d -> let x := block (axes (fun k => Move (Stat d) k u)) (sh, r) in
  snd x = r /\ fst x d = look sh r u /\ forall e, e <> d -> fst x e = sh e.
Proof.
  intros N. pose proof (assign3 d (fun k => Move (Stat d) k u) (fun k => elem k (look sh r u)) sh r) as H.
  cbv zeta in *. destruct H as (A & B & C). { intros k sh' K. cbn [exec_step]. now rewrite (look_keep sh sh' r u d). }
  split; [exact A|]. split; [|exact C]. refine (eq_trans B _). apply vec3.
Qed.
Lemma minus_block d u v sh r : u <> Stat d -> v <> Stat d -> let x := block (axes (fun k => Minus d k u v)) (sh, r) in
  snd x = r /\ fst x d = vsub (look sh r u) (look sh r v) /\ forall e, e <> d -> fst x e = sh e.
Proof.
  intros N N'. apply (assign3 d (fun k => Minus d k u v) (fun k => elem k (look sh r u) - elem k (look sh r v)) sh r).
  intros k sh' K. cbn [exec_step]. now rewrite (look_keep sh sh' r u d), (look_keep sh sh' r v d).
Qed.
Definition snapped (x : R) : R := if eps_eq x 1 SQRT_DOUBLE_EPS then 0 else x.
Lemma snap_step d k sh r : exists sh', exec_step (Snap d k) sh r = (sh', r) /\ sh' d = set_elem k (snapped (elem k (sh d))) (sh d) /\ forall e, e <> d -> sh' e = sh e.
Proof.
  cbn [exec_step]. unfold snapped. destruct (eps_eq (elem k (sh d)) 1 SQRT_DOUBLE_EPS).
  - cbn [assign]. eexists. split; [reflexivity|]. cbn beta. split; [destruct (cell_dec d d); [reflexivity|contradiction]|].
    intros e N. destruct (cell_dec e d); [contradiction|reflexivity].
  - exists sh. split; [reflexivity|]. split; [destruct k; cbn [set_elem elem]; now rewrite vec3|auto].
Qed.
Lemma snap_block d sh r : let x := block (axes (fun k => Snap d k)) (sh, r) in
  snd x = r /\ fst x d = V3 (snapped (vx (sh d))) (snapped (vy (sh d))) (snapped (vz (sh d))) /\ forall e, e <> d -> fst x e = sh e.
Proof.
  unfold run_block, axes. cbn [fold_left fst snd].
  destruct (snap_step d AX sh r) as (s1 & E1 & A1 & B1). rewrite E1. cbn [fst snd].
  destruct (snap_step d AY s1 r) as (s2 & E2 & A2 & B2). rewrite E2. cbn [fst snd].
  destruct (snap_step d AZ s2 r) as (s3 & E3 & A3 & B3). rewrite E3. cbn [fst snd].
  split; [reflexivity|]. split; [|intros e N; now rewrite B3, B2, B1].
  rewrite A3, A2, A1. cbn [set_elem elem vx vy vz]. reflexivity.
Qed.
Ltac eat x := rewrite (surjective_pairing x).
Lemma cartesian_block L u sh r : u <> Stat SVecMx -> let x := block (cartesian_steps L u) (sh, r) in
  snd x = r /\ fst x SCart = cartesian L (look sh r u) /\ forall e, e <> SVecMx -> e <> SCart -> fst x e = sh e.
Proof.
  intros N. cbv zeta. unfold cartesian_steps. rewrite block_app.
  destruct (vecmx_block (base L) u sh r N) as (A & B & C). destruct (block (vecmx_steps u (base L)) (sh, r)) as [s1 r1]. cbn [fst snd] in *. subst r1.
  destruct (move_block SCart (Stat SVecMx) s1 r ltac:(discriminate)) as (A' & B' & C').
  split; [exact A'|]. split; [rewrite B'; exact B|]. intros e N1 N2. now rewrite C', C.
Qed.
Lemma fractional_block L u sh r : u <> Stat SVecMx -> let x := block (fractional_steps L u) (sh, r) in
  snd x = r /\ fst x SFrac = fractional L (look sh r u) /\ forall e, e <> SVecMx -> e <> SFrac -> fst x e = sh e.
Proof.
  intros N. cbv zeta. unfold fractional_steps. rewrite block_app.
  destruct (vecmx_block (recbase L) u sh r N) as (A & B & C). destruct (block (vecmx_steps u (recbase L)) (sh, r)) as [s1 r1]. cbn [fst snd] in *. subst r1.
  destruct (move_block SFrac (Stat SVecMx) s1 r ltac:(discriminate)) as (A' & B' & C').
  split; [exact A'|]. split; [rewrite B'; exact B|]. intros e N1 N2. now rewrite C', C.
Qed.
Lemma ucvFractional_block u sh r : u <> Stat SFloor -> u <> Stat SUcvFrac -> let x := block (ucvFractional_steps u) (sh, r) in
  snd x = r /\ fst x SUcvFrac = ucvFractional (look sh r u) /\ forall e, e <> SFloor -> e <> SUcvFrac -> fst x e = sh e.
Proof.
  intros N N'. cbv zeta. unfold ucvFractional_steps. rewrite !block_app.
  destruct (floor_block u sh r N) as (A & B & C). destruct (block (floor_steps u) (sh, r)) as [s1 r1]. cbn [fst snd] in *. subst r1.
  destruct (minus_block SUcvFrac u (Stat SFloor) s1 r N' ltac:(discriminate)) as (A2 & B2 & C2).
  destruct (block (axes (fun k => Minus SUcvFrac k u (Stat SFloor))) (s1, r)) as [s2 r2]. cbn [fst snd] in *. subst r2.
  destruct (snap_block SUcvFrac s2 r) as (A3 & B3 & C3). split; [exact A3|]. split; [|intros e N1 N2; now rewrite C3, C2, C].
  rewrite B3, B2. change (look s1 r (Stat SFloor)) with (s1 SFloor). rewrite B, (look_keep sh s1 r u SFloor N C). reflexivity.
Qed.
Lemma ucvCartesian_block L u sh r : u <> Stat SVecMx -> let x := block (ucvCartesian_steps L u) (sh, r) in
  snd x = r /\ fst x SUcvCart = ucvCartesian L (look sh r u).
Proof.
  intros N. cbv zeta. unfold ucvCartesian_steps. rewrite !block_app.
  destruct (fractional_block L u sh r N) as (A & B & C). destruct (block (fractional_steps L u) (sh, r)) as [s1 r1]. cbn [fst snd] in *. subst r1.
  destruct (ucvFractional_block (Stat SFrac) s1 r ltac:(discriminate) ltac:(discriminate)) as (A2 & B2 & C2).
  destruct (block (ucvFractional_steps (Stat SFrac)) (s1, r)) as [s2 r2]. cbn [fst snd] in *. subst r2.
  destruct (cartesian_block L (Stat SUcvFrac) s2 r ltac:(discriminate)) as (A3 & B3 & C3).
  destruct (block (cartesian_steps L (Stat SUcvFrac)) (s2, r)) as [s3 r3]. cbn [fst snd] in *. subst r3.
  destruct (move_block SUcvCart (Stat SCart) s3 r ltac:(discriminate)) as (A4 & B4 & _).
  split; [exact A4|]. rewrite B4. cbn [look]. rewrite B3. cbn [look]. rewrite B2. cbn [look]. now rewrite B.
Qed.
Lemma call_block c sh r : let x := block (call_steps c) (sh, r) in snd x = r /\ fst x (result c) = call_value c r.
Proof.
  destruct c as [u|M u|u M|L u|L u|u|L u]; cbn [call_steps result call_value]; cbv zeta.
  - destruct (floor_block (Reg u) sh r ltac:(discriminate)) as (A & B & _). now split.
  - destruct (mxvec_block M (Reg u) sh r ltac:(discriminate)) as (A & B & _). now split.
  - destruct (vecmx_block M (Reg u) sh r ltac:(discriminate)) as (A & B & _). now split.
  - destruct (cartesian_block L (Reg u) sh r ltac:(discriminate)) as (A & B & _). now split.
  - destruct (fractional_block L (Reg u) sh r ltac:(discriminate)) as (A & B & _). now split.
  - destruct (ucvFractional_block (Reg u) sh r ltac:(discriminate) ltac:(discriminate)) as (A & B & _). now split.
  - destruct (ucvCartesian_block L (Reg u) sh r ltac:(discriminate)) as (A & B). now split.
Qed.
Lemma copy_block j c sh r : let x := block (copy_steps j c) (sh, r) in fst x = sh /\ forall i, snd x i = if (i =? j)%nat then sh (result c) else r i.
Proof.
  cbv zeta. unfold copy_steps, run_block, axes. cbn [fold_left fst snd exec_step assign look elem]. split; [reflexivity|].
  intros i. destruct (Nat.eqb_spec i j) as [->|N]; [|reflexivity]. cbn [set_elem vx vy vz]. apply vec3.
Qed.
(** values that depend on the values of the variables only *)
Lemma call_value_ext c r r' : like r r' -> call_value c r = call_value c r'.
Proof. intros H. destruct c; cbn [call_value]; now rewrite H. Qed.
Lemma done_ext p : forall r r', like r r' -> like (done p r) (done p r').
Proof.
  induction p as [|jc p IH]; intros r r' H; [exact H|]. unfold done. cbn [fold_left].
  apply IH. intros i. destruct (i =? fst jc)%nat; [now apply call_value_ext|apply H].
Qed.
Lemma locked_block jc sh r : like (snd (block (call_steps (snd jc) ++ copy_steps (fst jc) (snd jc)) (sh, r))) (done [jc] r).
Proof.
  rewrite block_app. destruct (call_block (snd jc) sh r) as [A B]. destruct (block (call_steps (snd jc)) (sh, r)) as [s1 r1]. cbn [fst snd] in *. subst r1.
  destruct (copy_block (fst jc) (snd jc) s1 r) as [_ C]. intros i. rewrite C. unfold done. cbn [fold_left]. destruct (i =? fst jc)%nat; auto.
Qed.
