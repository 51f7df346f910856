(** Proofs: sums over neighbours seen from equivalent atoms are equal; sums seen from both ends. *)
From Coq Require Import String.
From Verif Require Import RBase R3 Trig Sphere SphereProofs Lattice LatticeSpec LatticeProofs Crystal CrystalSpec CrystalProofs CrystalMain CrystalSep CrystalCell CrystalTensor
  StructDiff StructDiffSpec Evaluator EvaluatorSpec BondGen BondGenSpec BondGenProofs BondGenMain OverlapGen World WorldSpec WorldTotal OrbitSpec OrbitGroup.
Import ListNotations.
Open Scope R_scope.
Notation length := List.length.

Lemma Forall2_build {X Y} (R : X -> Y -> Prop) l : (forall x, In x l -> exists y, R x y) -> exists m, Forall2 R l m.
Proof.
  induction l as [|x l IH]; intros H; [exists []; constructor|]. destruct (H x) as [y Hy]; [now left|]. destruct IH as [m Hm]; [intros; apply H; now right|]. exists (y :: m). now constructor.
Qed.
Lemma Forall2_inl {X Y} (R : X -> Y -> Prop) l m : Forall2 R l m -> forall x, In x l -> exists y, In y m /\ R x y.
Proof. induction 1 as [|x y l m H _ IH]; intros z []; [subst; exists y; split; [now left|auto]|]. destruct (IH z H0) as (w & ? & ?). exists w. split; [now right|auto]. Qed.
Lemma Forall2_inr {X Y} (R : X -> Y -> Prop) l m : Forall2 R l m -> forall y, In y m -> exists x, In x l /\ R x y.
Proof. induction 1 as [|x y l m H _ IH]; intros z []; [subst; exists x; split; [now left|auto]|]. destruct (IH z H0) as (w & ? & ?). exists w. split; [now right|auto]. Qed.
Lemma Forall2_nodup {X Y} (R : X -> Y -> Prop) l m : Forall2 R l m -> (forall x x' y, In x l -> In x' l -> R x y -> R x' y -> x = x') -> NoDup l -> NoDup m.
Proof.
  induction 1 as [|x y l m H HF IH]; intros HI HN; [constructor|]. inversion HN as [|? ? N1 N2]; subst. constructor.
  - intros Hy. destruct (Forall2_inr _ _ _ HF y Hy) as (x' & Hx' & Hr). apply N1. rewrite (HI x x' y); auto; [now left|now right].
  - apply IH; auto. intros; eapply HI; eauto; now right.
Qed.

Definition ivec3 (T : Z * Z * Z) : vec := let '(m, n, o) := T in iv m n o.
Definition pos (P : list vec) (t : nat) : vec := nth t P vzero.
Definition step3 (P : list vec) (from : vec) (x : nat * (Z * Z * Z)) : vec := vsub (vadd (pos P (fst x)) (ivec3 (snd x))) from.
(** [v] lists once the points t+T of [P] in the limits seen from [from] *)
Definition around (L : lattice) (lo hi : R) (P : list vec) (from : vec) (v : list (nat * (Z * Z * Z))) : Prop :=
  NoDup v /\ forall x, In x v <-> (fst x < length P)%nat /\ in_range lo hi (vnorm (cartesian L (step3 P from x))).
Lemma pos_nth P t : (t < length P)%nat -> nth_error P t = Some (pos P t).
Proof. intros H. now apply nth_error_nth'. Qed.
Lemma pos_in P t : (t < length P)%nat -> In (pos P t) P. Proof. apply nth_In. Qed.
Lemma nth_pos P t p : nth_error P t = Some p -> (t < length P)%nat /\ pos P t = p.
Proof. intros H. split; [apply nth_error_Some; congruence|now apply nth_error_nth]. Qed.

Section Orbits.
  Context (L : lattice) (ops : list symop) (CO : consistent L) (G : space_group L ops) (lo hi : R).
  (** [U]: tensors that turn with the operations *)
  Definition follow (P : list vec) (U : nat -> mat) : Prop := forall o N s s', In o ops -> cart_part L (op_R o) N -> (s < length P)%nat -> (s' < length P)%nat ->
    same_site (op_image o (pos P s)) (pos P s') -> U s' = mm N (mm (U s) (tr N)).

  Lemma point_unique xb PB d t T t' T' : orbit ops xb PB -> (t < length PB)%nat -> (t' < length PB)%nat -> step3 PB d (t, T) = step3 PB d (t', T') -> (t, T) = (t', T').
  Proof.
    intros (_ & _ & O3) Ht Ht' E. unfold step3 in E. cbn [fst snd] in E. destruct T as [[i j] k], T' as [[i' j'] k']. unfold ivec3, iv in E.
    assert (S : same_site (pos PB t) (pos PB t')).
    { exists (i' - i)%Z, (j' - j)%Z, (k' - k)%Z. unfold iv. rewrite !minus_IZR. destruct (pos PB t) as [a1 a2 a3], (pos PB t') as [b1 b2 b3], d as [d1 d2 d3]. unfold vadd, vsub in *. cbn [vx vy vz] in *. injection E as E1 E2 E3. f_equal; lra. }
    assert (t = t') as -> by (eapply O3; [now apply pos_nth|now apply pos_nth|exact S]). f_equal.
    destruct (pos PB t') as [b1 b2 b3], d as [d1 d2 d3]. unfold vadd, vsub in *. cbn [vx vy vz] in *. injection E as E1 E2 E3.
    assert (i = i') as -> by (apply eq_IZR; lra). assert (j = j') as -> by (apply eq_IZR; lra). assert (k = k') as -> by (apply eq_IZR; lra). reflexivity.
  Qed.

  Lemma transport xb PB p p' o N v : orbit ops xb PB -> In o ops -> cart_part L (op_R o) N -> (forall w, vnorm (mv N w) = vnorm w) -> same_site (op_image o p) p' -> around L lo hi PB p v ->
    exists v', around L lo hi PB p' v' /\
      Forall2 (fun x y => (fst x < length PB)%nat /\ (fst y < length PB)%nat /\ cartesian L (step3 PB p' y) = mv N (cartesian L (step3 PB p x)) /\ same_site (op_image o (pos PB (fst x))) (pos PB (fst y))) v v'.
  Proof.
    intros OB Ho HN HL (K1 & K2 & K3 & HK) [ND HV].
    destruct (op_inverse L ops G o Ho) as (q & Hq & I1 & I2 & R1 & R2).
    set (R := fun x y : nat * (Z * Z * Z) => (fst x < length PB)%nat /\ (fst y < length PB)%nat /\ mv (op_R o) (step3 PB p x) = step3 PB p' y /\ same_site (op_image o (pos PB (fst x))) (pos PB (fst y))).
    assert (KEY : forall t T t' J1 J2 J3 T', op_image o (pos PB t) = vadd (pos PB t') (iv J1 J2 J3) -> vadd (iv J1 J2 J3) (vsub (mv (op_R o) (ivec3 T)) (iv K1 K2 K3)) = ivec3 T' ->
      mv (op_R o) (step3 PB p (t, T)) = step3 PB p' (t', T')).
    { intros t T t' J1 J2 J3 T' E1 E2. unfold step3. cbn [fst snd]. rewrite <- E2. clear E2. unfold op_image in E1, HK. revert E1 HK.
      generalize (iv J1 J2 J3) (iv K1 K2 K3) (ivec3 T) (pos PB t) (pos PB t') (op_t o) (op_R o). clear. intros J K T q q' t M E1 E2.
      replace (mv M (vsub (vadd q T) p)) with (vadd (vsub (vadd (mv M q) t) (vadd (mv M p) t)) (mv M T)) by vring. rewrite E1, E2. vring. }
    assert (LT : forall x, (fst x < length PB)%nat -> exists y, R x y).
    { intros [t T] Ht. cbn [fst] in Ht. destruct (orbit_closed L ops G xb PB (pos PB t) o OB (pos_in _ _ Ht) Ho) as (t' & p1 & E1 & S1).
      apply nth_pos in E1 as [Ht' <-]. pose proof S1 as S0. destruct S1 as (J1 & J2 & J3 & E). destruct T as [[i j] k]. destruct (sg_lattice _ _ G o Ho i j k) as (i' & j' & k' & EL).
      exists (t', (J1 + (i' - K1), J2 + (j' - K2), J3 + (k' - K3))%Z). unfold R. cbn [fst]. split; [exact Ht|]. split; [exact Ht'|]. split; [|exact S0].
      apply (KEY t (i, j, k) t' J1 J2 J3); auto. unfold ivec3. rewrite EL. unfold iv. rewrite !plus_IZR, !minus_IZR. reflexivity. }
    assert (RT : forall y, (fst y < length PB)%nat -> exists x, R x y).
    { intros [t' T'] Ht'. cbn [fst] in Ht'. destruct (orbit_closed L ops G xb PB (pos PB t') q OB (pos_in _ _ Ht') Hq) as (t & p1 & E1 & S1).
      apply nth_pos in E1 as [Ht <-].
      assert (S0 : same_site (op_image o (pos PB t)) (pos PB t')) by (eapply same_trans; [eapply (op_same L ops G); [exact Ho|apply same_sym; exact S1]|apply I2]).
      pose proof S0 as S2. destruct S2 as (J1 & J2 & J3 & E). destruct T' as [[i j] k].
      destruct (sg_lattice _ _ G q Hq (i - J1 + K1) (j - J2 + K2) (k - J3 + K3)) as (i' & j' & k' & EL).
      exists (t, (i', j', k')). unfold R. cbn [fst]. split; [exact Ht|]. split; [exact Ht'|]. split; [|exact S0].
      apply (KEY t (i', j', k') t' J1 J2 J3); auto. cbn [ivec3]. rewrite <- EL, R1. unfold iv. rewrite !plus_IZR, !minus_IZR. unfold vadd, vsub. cbn [vx vy vz]. f_equal; ring. }
    assert (INJ : forall x x' y, R x y -> R x' y -> x = x').
    { intros [t T] [t' T'] y (A1 & _ & A2 & _) (B1 & _ & B2 & _). cbn [fst] in *. apply (point_unique xb PB p); auto. rewrite <- (R2 (step3 PB p (t, T))), <- (R2 (step3 PB p (t', T'))). congruence. }
    assert (FUN : forall x y y', R x y -> R x y' -> y = y').
    { intros x [t T] [t' T'] (_ & A1 & A2 & _) (_ & B1 & B2 & _). cbn [fst] in *. apply (point_unique xb PB p'); auto. congruence. }
    assert (CAR : forall x y, R x y -> cartesian L (step3 PB p' y) = mv N (cartesian L (step3 PB p x))).
    { intros x y (_ & _ & E & _). rewrite <- E. apply HN. }
    destruct (Forall2_build R v) as [v' HR].
    { intros x Hx. apply LT. now apply HV in Hx. }
    exists v'. split.
    - split; [eapply Forall2_nodup; [exact HR| |exact ND]; intros; eapply INJ; eauto|]. intros y. split.
      + intros Hy. destruct (Forall2_inr _ _ _ HR y Hy) as (x & Hx & Hr). split; [apply Hr|]. rewrite (CAR x y Hr), HL. now apply HV in Hx.
      + intros [Hy1 Hy2]. destruct (RT y Hy1) as (x & Hr). assert (Hx : In x v). { apply HV. split; [apply Hr|]. now rewrite (CAR x y Hr), HL in Hy2. }
        destruct (Forall2_inl _ _ _ HR x Hx) as (y' & Hy' & Hr'). now rewrite (FUN x y y' Hr Hr').
    - clear -HR CAR. induction HR as [|x y l m H HF IH]; constructor; auto. pose proof (CAR x y H). destruct H as (? & ? & ? & ?). auto.
  Qed.
End Orbits.

Lemma neg_neg r : r = vscale (-1) (vscale (-1) r). Proof. vring. Qed.
Lemma mv_neg N r : vscale (-1) (mv N r) = mv N (vscale (-1) r). Proof. vring. Qed.
Lemma step_rev p q i j k : vsub (vadd p (V3 (- i) (- j) (- k))) q = vscale (-1) (vsub (vadd q (V3 i j k)) p). Proof. vring. Qed.
Lemma cart_neg L r : cartesian L (vscale (-1) r) = vscale (-1) (cartesian L r). Proof. unfold cartesian. generalize (base L). intros. vring. Qed.
Lemma vnorm_neg r : vnorm (vscale (-1) r) = vnorm r. Proof. unfold vnorm. f_equal. destruct r as [a b c]. unfold vdot, vscale. cbn [vx vy vz]. ring. Qed.
Section Values.
  Context {cfg V : Type} (Q : quantity cfg V) (opp : V -> V) (HQ : quantity_ok Q opp).
  Lemma qsum_app l m : qsum Q (l ++ m) = q_add Q (qsum Q l) (qsum Q m).
  Proof. unfold qsum. destruct HQ as [q1 q2 q3 _ _ _]. induction l as [|x l IH]; cbn [app fold_right]; [now rewrite q3|]. now rewrite IH, q2. Qed.
  Lemma qsum_concat {X Y} (g : X -> list Y) (f : Y -> V) l : qsum Q (map f (flat_map g l)) = qsum Q (map (fun x => qsum Q (map f (g x))) l).
  Proof. induction l as [|x l IH]; [reflexivity|]. cbn [flat_map]. rewrite map_app, qsum_app, IH. reflexivity. Qed.
  Lemma qsum_add {X} (f g : X -> V) l : qsum Q (map (fun x => q_add Q (f x) (g x)) l) = q_add Q (qsum Q (map f l)) (qsum Q (map g l)).
  Proof.
    unfold qsum. pose proof HQ as [q1 q2 q3 _ _ _]. induction l as [|x l IH]; cbn [map fold_right]; [now rewrite q3|]. rewrite IH.
    rewrite <- !q2. f_equal. rewrite !q2. f_equal. apply q1.
  Qed.
  Lemma times_sum {X} n (f : X -> V) l : qsum Q (map (fun x => times Q n (f x)) l) = times Q n (qsum Q (map f l)).
  Proof.
    pose proof HQ as [q1 q2 q3 _ _ _]. unfold times. induction n as [|n IH]; cbn [repeat].
    - unfold qsum at 1 3. cbn [fold_right]. induction l as [|x l IH]; cbn [map fold_right]; [reflexivity|]. rewrite IH. unfold qsum. cbn. now rewrite q3.
    - change (qsum Q (map (fun x => q_add Q (f x) (qsum Q (repeat (f x) n))) l) = q_add Q (qsum Q (map f l)) (qsum Q (repeat (qsum Q (map f l)) n))).
      now rewrite qsum_add, IH.
  Qed.
  Lemma times_add n a b : times Q n (q_add Q a b) = q_add Q (times Q n a) (times Q n b).
  Proof.
    pose proof HQ as [q1 q2 q3 _ _ _]. unfold times. induction n as [|n IH]; cbn [repeat]; unfold qsum in *; cbn [fold_right]; [now rewrite q3|]. rewrite IH.
    rewrite <- !q2. f_equal. rewrite !q2. f_equal. apply q1.
  Qed.

  Context (L : lattice) (ops : list symop) (CO : consistent L) (G : space_group L ops) (lo hi : R).
  Section One.
    Context (f : vec -> mat -> mat -> V).
    Context (HT : forall r u w N, (forall x, vnorm (mv N x) = vnorm x) -> f (mv N r) (mm N (mm u (tr N))) (mm N (mm w (tr N))) = f r u w).
    Context (xa xb : vec) (PA PB : list vec) (UA UB : nat -> mat) (OA : orbit ops xa PA) (OB : orbit ops xb PB).
    Context (HU : (follow L ops PA UA /\ follow L ops PB UB) \/ forall r u w u' w', f r u w = f r u' w').
    Definition term (s : nat) (x : nat * (Z * Z * Z)) : V := f (cartesian L (step3 PB (pos PA s) x)) (UA s) (UB (fst x)).
    Lemma same_sum s s' v : (s < length PA)%nat -> (s' < length PA)%nat -> around L lo hi PB (pos PA s) v ->
      exists v', around L lo hi PB (pos PA s') v' /\ qsum Q (map (term s') v') = qsum Q (map (term s) v).
    Proof.
      intros Hs Hs' HV. destruct (orbit_joined L ops G xa PA (pos PA s) (pos PA s') OA (pos_in _ _ Hs) (pos_in _ _ Hs')) as (o & Ho & S).
      destruct (op_cart L ops CO G o Ho) as (N & HN & HL).
      destruct (transport L ops G lo hi xb PB (pos PA s) (pos PA s') o N v OB Ho HN HL S HV) as (v' & HV' & HF). exists v'. split; [exact HV'|].
      f_equal. clear HV HV'. induction HF as [|x y l m (H1 & H2 & H3 & H4) _ IH]; [reflexivity|]. cbn [map]. f_equal; [|exact IH].
      unfold term. rewrite H3. destruct HU as [[FA FB]|HU'].
      - rewrite (FA o N s s' Ho HN Hs Hs' S), (FB o N (fst x) (fst y) Ho HN H1 H2 H4). now apply HT.
      - rewrite <- (HT _ (UA s) (UB (fst x)) N HL). apply HU'.
    Qed.
    Lemma all_sums v : around L lo hi PB (pos PA 0) v -> exists W : nat -> list (nat * (Z * Z * Z)),
      (forall s, (s < length PA)%nat -> around L lo hi PB (pos PA s) (W s)) /\
      qsum Q (map (fun s => qsum Q (map (term s) (W s))) (seq 0 (length PA))) = times Q (length PA) (qsum Q (map (term 0) v)).
    Proof.
      intros HV. destruct (finite_choice [] (fun s w => around L lo hi PB (pos PA s) w /\ qsum Q (map (term s) w) = qsum Q (map (term 0) v)) (length PA)) as [W HW].
      { intros s Hs. apply same_sum; auto. lia. }
      exists W. split; [intros s Hs; now apply HW|]. unfold times. f_equal.
      assert (X : forall n a, (a + n <= length PA)%nat -> map (fun s => qsum Q (map (term s) (W s))) (seq a n) = repeat (qsum Q (map (term 0) v)) n).
      { induction n as [|n IH]; intros a Ha; [reflexivity|]. cbn [seq map repeat]. f_equal; [apply HW; lia|]. apply IH. lia. }
      apply X. lia.
    Qed.
  End One.

  Section Two.
    Context (f f' : vec -> mat -> mat -> V).
    Context (HT : forall r u w N, (forall x, vnorm (mv N x) = vnorm x) -> f (mv N r) (mm N (mm u (tr N))) (mm N (mm w (tr N))) = f r u w).
    Context (HF : forall r u w, f r u w = f' (vscale (-1) r) w u).
    Context (xa xb : vec) (PA PB : list vec) (UA UB : nat -> mat) (OA : orbit ops xa PA) (OB : orbit ops xb PB).
    Context (HU : (follow L ops PA UA /\ follow L ops PB UB) \/ forall r u w u' w', f r u w = f r u' w').
    Lemma flip_back r u w : f' r w u = f (vscale (-1) r) u w.
    Proof. rewrite HF. f_equal. apply neg_neg. Qed.
    Lemma turned r u w N : (forall x, vnorm (mv N x) = vnorm x) -> f' (mv N r) (mm N (mm u (tr N))) (mm N (mm w (tr N))) = f' r u w.
    Proof. intros H. rewrite !flip_back. rewrite <- (HT (vscale (-1) r) w u N H). now rewrite mv_neg. Qed.
    Lemma step_back s t T : step3 PA (pos PB t) (s, neg3 T) = vscale (-1) (step3 PB (pos PA s) (t, T)).
    Proof. unfold step3. cbn [fst snd]. destruct T as [[i j] k]. unfold neg3, ivec3, iv. rewrite !opp_IZR. apply step_rev. Qed.
    Definition rev3 (x : nat * (nat * (Z * Z * Z))) : nat * (nat * (Z * Z * Z)) := let '(s, (t, T)) := x in (t, (s, neg3 T)).
    Lemma rev3_rev x : rev3 (rev3 x) = x.
    Proof. destruct x as [s [t T]]. cbn. now rewrite neg3_inv. Qed.
    Lemma triple_nodup {X Y} (W : X -> list Y) l : NoDup l -> (forall x, In x l -> NoDup (W x)) -> NoDup (flat_map (fun x => map (pair x) (W x)) l).
    Proof.
      induction l as [|x l IH]; intros HN HW; [constructor|]. inversion HN as [|? ? N1 N2]; subst. cbn [flat_map]. apply NoDup_app_intro.
      - apply FinFun.Injective_map_NoDup; [intros ? ? E; congruence|apply HW; now left].
      - apply IH; auto. intros; apply HW; now right.
      - intros [p y] H1 H2. apply in_map_iff in H1 as (z & [= <- <-] & _). apply in_flat_map in H2 as (x' & Hx' & H2). apply in_map_iff in H2 as (z' & [= <- <-] & _). contradiction.
    Qed.
    Lemma triple_in {X Y} (W : X -> list Y) l x y : In (x, y) (flat_map (fun x => map (pair x) (W x)) l) <-> In x l /\ In y (W x).
    Proof.
      rewrite in_flat_map. split.
      - intros (z & Hz & H). apply in_map_iff in H as (w & [= <- <-] & H). auto.
      - intros [H1 H2]. exists x. split; auto. now apply in_map.
    Qed.
    Theorem both_ends v v' : around L lo hi PB (pos PA 0) v -> around L lo hi PA (pos PB 0) v' ->
      times Q (length PA) (qsum Q (map (fun x => f (cartesian L (step3 PB (pos PA 0) x)) (UA 0%nat) (UB (fst x))) v)) =
      times Q (length PB) (qsum Q (map (fun x => f' (cartesian L (step3 PA (pos PB 0) x)) (UB 0%nat) (UA (fst x))) v')).
    Proof.
      intros HV HV'. destruct (all_sums f HT xa xb PA PB UA UB OA OB HU v HV) as (W & HW & EW).
      destruct (all_sums f' turned xb xa PB PA UB UA OB OA) with (v := v') as (W' & HW' & EW'); [destruct HU as [[? ?]|HU']; [now left|right]|exact HV'|].
      { intros. rewrite !flip_back. apply HU'. }
      fold (term f PA PB UA UB 0). fold (term f' PB PA UB UA 0). rewrite <- EW, <- EW'. clear EW EW' HV HV'.
      rewrite (map_ext _ (fun s => qsum Q (map (fun x => term f PA PB UA UB (fst x) (snd x)) (map (pair s) (W s))))) by (intros; now rewrite map_map).
      rewrite (map_ext (fun s => qsum Q (map (term f' PB PA UB UA s) (W' s))) (fun s => qsum Q (map (fun x => term f' PB PA UB UA (fst x) (snd x)) (map (pair s) (W' s))))) by (intros; now rewrite map_map).
      rewrite <- !qsum_concat.
      assert (PM : Permutation (flat_map (fun s => map (pair s) (W' s)) (seq 0 (length PB))) (map rev3 (flat_map (fun s => map (pair s) (W s)) (seq 0 (length PA))))).
      { assert (RR : forall s t T, in_range lo hi (vnorm (cartesian L (step3 PA (pos PB t) (s, neg3 T)))) <-> in_range lo hi (vnorm (cartesian L (step3 PB (pos PA s) (t, T))))) by (intros; rewrite step_back, cart_neg, vnorm_neg; tauto).
        apply NoDup_Permutation.
        - apply triple_nodup; [apply seq_NoDup|]. intros s Hs. apply in_seq in Hs. apply HW'. lia.
        - apply FinFun.Injective_map_NoDup; [intros x y E; rewrite <- (rev3_rev x), E; apply rev3_rev|]. apply triple_nodup; [apply seq_NoDup|]. intros s Hs. apply in_seq in Hs. apply HW. lia.
        - intros [t [s T]]. rewrite triple_in, in_map_iff, in_seq. split.
          + intros [Ht H]. apply HW' in H; [|lia]. destruct H as [Hs H]. cbn [fst] in Hs. exists (s, (t, neg3 T)). split; [cbn; now rewrite neg3_inv|]. apply triple_in. split; [apply in_seq; lia|].
            apply HW; [exact Hs|]. split; [cbn; lia|]. apply RR. now rewrite neg3_inv.
          + intros ([s' [t' T']] & [= <- <- <-] & H). apply triple_in in H as [Hs H]. apply in_seq in Hs. apply HW in H; [|lia]. destruct H as [Ht H]. cbn [fst] in Ht. split; [lia|].
            apply HW'; [exact Ht|]. split; [cbn; lia|]. now apply RR. }
      rewrite (WorldMain.qsum_perm Q opp HQ _ _ (Permutation_map _ PM)). unfold qsum. f_equal. rewrite map_map. apply map_ext. intros [s [t T]]. cbn [fst snd rev3]. unfold term. cbn [fst].
      now rewrite step_back, HF, cart_neg.
    Qed.
  End Two.
End Values.
