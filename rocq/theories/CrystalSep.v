(** Consequences of the grouping: exact special positions, general positions, unit cell. *)
From Coq Require Import String.
From Verif Require Import RBase R3 Trig Sphere Lattice LatticeSpec LatticeProofs Crystal CrystalSpec CrystalProofs CrystalMain.
Import ListNotations.
Open Scope R_scope.
Notation length := List.length.

Lemma mean_sites_nth l : forall s d k, length s = length l -> length d = length l -> (k < length l)%nat ->
  exists a v n, nth_error l k = Some a /\ nth_error s k = Some v /\ nth_error d k = Some n /\
  nth_error (mean_sites l s d) k = Some (mkCA (vscale (/ INR n) v) (c_uij a) (c_type a) (c_occ a) (c_anis a)).
Proof.
  induction l as [|a l IH]; intros [|v s] [|n d] k H1 H2 H3; cbn in *; try lia. destruct k as [|k]; cbn.
  - exists a, v, n. auto.
  - apply IH; lia.
Qed.
Lemma mean_sites_length l : forall s d, length s = length l -> length d = length l -> length (mean_sites l s d) = length l.
Proof. induction l as [|a l IH]; intros [|v s] [|n d] H1 H2; cbn in *; try lia. rewrite IH; lia. Qed.

Definition group_atom (a0 : catom) (o : symop) (mem : list vec) : catom :=
  mkCA (mean (map ucvFractional mem)) (mm (op_R o) (mm (c_uij a0) (tr (op_R o)))) (c_type a0) (c_occ a0) (c_anis a0).

Theorem expand_groups L eps a0 ops : consistent L -> fine L eps -> ops <> [] ->
  exists g, let imgs := images ops (c_xyz a0) in let out := expandLatticeAtom L ops eps a0 in
  grouping L eps imgs g /\ (forall k, (k < length out)%nat <-> In k g) /\
  forall k, (k < length out)%nat -> exists f o, leader g k f /\ nth_error ops f = Some o /\
    nth_error out k = Some (group_atom a0 o (members g k imgs)).
Proof.
  intros C F NE. destruct (expand_inv L eps a0 ops C F) as (g & [G1 G2 G3 G4 G5]). exists g. cbv zeta.
  assert (EQ : expandLatticeAtom L ops eps a0 =
    let st := fold_left (expand_step L eps a0) ops (mkEq [] [] []) in mean_sites (eqsites st) (eqsumpos st) (eqduplicity st)).
  { unfold expandLatticeAtom. destruct ops; [congruence|reflexivity]. }
  rewrite EQ. cbv zeta. rewrite mean_sites_length by auto. split; [auto|]. split; [auto|].
  intros k B. destruct (G5 k B) as (f & o & P1 & P2 & P3 & P4 & P5). exists f, o. split; [auto|]. split; [auto|].
  destruct (mean_sites_nth (eqsites (fold_left (expand_step L eps a0) ops (mkEq [] [] []))) (eqsumpos (fold_left (expand_step L eps a0) ops (mkEq [] [] []))) (eqduplicity (fold_left (expand_step L eps a0) ops (mkEq [] [] []))) k) as (a & v & n & Q1 & Q2 & Q3 & Q4); auto.
  rewrite Q4, P3 in *. rewrite P4 in Q2. rewrite P5 in Q3. injection Q1 as <-. injection Q2 as <-. injection Q3 as <-.
  unfold group_atom, mean. rewrite map_length. reflexivity.
Qed.

Lemma mean_const l p : l <> [] -> (forall q, In q l -> q = p) -> mean l = p.
Proof.
  intros NE H. assert (E : vsum l = vscale (INR (length l)) p).
  { clear NE. induction l as [|q l IH] using rev_ind.
    - unfold vsum. cbn. destruct p. vring.
    - rewrite vsum_snoc, app_length, IH. 2:{ intros; apply H, in_or_app; auto. }
      rewrite (H q) by (apply in_or_app; right; now left). cbn [length]. rewrite plus_INR. cbn [INR]. destruct p. vring. }
  unfold mean. rewrite E. assert (INR (length l) <> 0).
  { apply not_0_INR. destruct l; [congruence|discriminate]. }
  destruct p as [p1 p2 p3]. unfold vscale. cbn [vx vy vz]. f_equal; field; auto.
Qed.

Lemma same_dec u v : same_site u v \/ ~ same_site u v.
Proof. destruct (Classical_Prop.classic (same_site u v)); auto. Qed.

Section Sep.
  Context (L : lattice) (eps : R) (a0 : catom) (ops : list symop).
  Context (C : consistent L) (F : fine L eps) (NE : ops <> []).
  Let imgs := images ops (c_xyz a0).
  Let out := expandLatticeAtom L ops eps a0.
  Context (SEP : separated L eps imgs).

  (** with the grouping of the expansion: same group iff same site *)
  Lemma sep_groups g : grouping L eps imgs g -> forall i j u v k k', nth_error imgs i = Some u -> nth_error imgs j = Some v ->
    nth_error g i = Some k -> nth_error g j = Some k' -> (k = k' <-> same_site u v).
  Proof.
    intros (GL & GN & GF) i j u v k k' H1 H2 H3 H4.
    destruct (GN _ _ _ H1 H3) as (f & w & P1 & P2 & P3). destruct (GN _ _ _ H2 H4) as (f' & w' & Q1 & Q2 & Q3).
    assert (S1 : same_site u w) by (destruct (SEP u w) as [?|N]; [eapply nth_error_In; eauto|eapply nth_error_In; eauto|assumption|contradiction]).
    assert (S2 : same_site v w') by (destruct (SEP v w') as [?|N]; [eapply nth_error_In; eauto|eapply nth_error_In; eauto|assumption|contradiction]).
    split.
    - intros <-. rewrite <- (leader_fun _ _ _ _ P1 Q1) in Q2. assert (w = w') by congruence. subst w'.
      eapply same_trans; [exact S1|]. now apply same_sym.
    - intros S. destruct (Nat.eq_dec k k') as [?|N]; auto. exfalso. apply (GF _ _ _ _ _ _ P1 P2 Q1 Q2 N).
      apply same_near; [apply F|]. eapply same_trans; [apply same_sym, S1|]. eapply same_trans; [exact S|exact S2].
  Qed.

  Lemma sep_spec : exists g, grouping L eps imgs g /\ (forall k, (k < length out)%nat <-> In k g) /\
    forall k, (k < length out)%nat -> exists f o u, leader g k f /\ nth_error ops f = Some o /\ nth_error imgs f = Some u /\ u = op_image o (c_xyz a0) /\
      nth_error out k = Some (mkCA (ucvFractional u) (mm (op_R o) (mm (c_uij a0) (tr (op_R o)))) (c_type a0) (c_occ a0) (c_anis a0)).
  Proof.
    destruct (expand_groups L eps a0 ops C F NE) as (g & G1 & G2 & G3). cbv zeta in G1, G2, G3. fold imgs in G1, G3. fold out in G2, G3.
    exists g. split; [auto|]. split; [auto|]. intros k B. destruct (G3 k B) as (f & o & P1 & P2 & P3).
    pose proof (images_nth ops (c_xyz a0) f o P2) as P4. exists f, o, (op_image o (c_xyz a0)). repeat (split; [now auto|]).
    rewrite P3. f_equal. unfold group_atom. f_equal. apply mean_const.
    - assert (In (op_image o (c_xyz a0)) (members g k imgs)) by (apply members_In; exists f; split; [apply P1|exact P4]).
      destruct (members g k imgs); [contradiction|discriminate].
    - intros q Hq. apply in_map_iff in Hq. destruct Hq as (u & <- & Hu). apply members_In in Hu. destruct Hu as (i & U1 & U2).
      apply ucv_same. apply (sep_groups g G1 i f u (op_image o (c_xyz a0)) k k); auto. apply P1.
  Qed.

  Theorem sep_cover u : In u imgs -> In (ucvFractional u) (map c_xyz out).
  Proof.
    intros H. apply In_nth_error in H. destruct H as (i & H). destruct sep_spec as (g & G1 & G2 & G3).
    assert (exists k, nth_error g i = Some k) as (k & Hk).
    { assert (B : (i < length g)%nat) by (rewrite (proj1 G1); apply nth_error_Some; congruence). apply nth_error_Some in B. destruct (nth_error g i); [eauto|congruence]. }
    assert (B : (k < length out)%nat) by (apply G2; eapply nth_error_In; eauto).
    destruct (G3 k B) as (f & o & v & P1 & P2 & P3 & P4 & P5). apply nth_error_In in P5. apply (in_map c_xyz) in P5. cbn [c_xyz] in P5.
    replace (ucvFractional u) with (ucvFractional v); auto. apply ucv_same.
    apply (sep_groups g G1 f i v u k k); auto. apply P1.
  Qed.
  Theorem sep_sound p : In p (map c_xyz out) -> exists u, In u imgs /\ p = ucvFractional u.
  Proof.
    intros H. apply In_nth_error in H. destruct H as (k & H). destruct sep_spec as (g & G1 & G2 & G3).
    assert (B : (k < length out)%nat) by (apply nth_error_Some; rewrite nth_error_map in H; destruct (nth_error out k); discriminate || congruence).
    destruct (G3 k B) as (f & o & v & P1 & P2 & P3 & P4 & P5). rewrite nth_error_map, P5 in H. cbn in H. injection H as <-.
    exists v. split; auto. eapply nth_error_In; eauto.
  Qed.
  (** different results come from images that are not near each other *)
  Theorem sep_apart i j p q : i <> j -> nth_error (map c_xyz out) i = Some p -> nth_error (map c_xyz out) j = Some q ->
    exists u v, In u imgs /\ In v imgs /\ p = ucvFractional u /\ q = ucvFractional v /\ ~ near L eps u v.
  Proof.
    intros N Hi Hj. destruct sep_spec as (g & G1 & G2 & G3).
    rewrite nth_error_map in Hi, Hj. 
    assert (Bi : (i < length out)%nat) by (apply nth_error_Some; destruct (nth_error out i); discriminate || congruence).
    assert (Bj : (j < length out)%nat) by (apply nth_error_Some; destruct (nth_error out j); discriminate || congruence).
    destruct (G3 i Bi) as (f & o & v & P1 & P2 & P3 & P4 & P5). destruct (G3 j Bj) as (f' & o' & v' & Q1 & Q2 & Q3 & Q4 & Q5).
    rewrite P5 in Hi. rewrite Q5 in Hj. cbn in Hi, Hj. injection Hi as <-. injection Hj as <-.
    exists v, v'. split; [eapply nth_error_In; eauto|]. split; [eapply nth_error_In; eauto|]. split; [auto|]. split; [auto|].
    destruct G1 as (_ & _ & GF). exact (GF _ _ _ _ _ _ P1 P3 Q1 Q3 N).
  Qed.
End Sep.

(** a reduced position is within the snapping distance of the original *)
Lemma ucv_near L u : consistent L -> near L (/ 67108864 * (la (sc L) + lb (sc L) + lc (sc L))) (ucvFractional u) u.
Proof.
  intros C. destruct (ucv_spec u) as (_ & _ & i & j & k & H1 & H2 & H3). cbv zeta in *.
  exists (- i)%Z, (- j)%Z, (- k)%Z. unfold vdist. rewrite cart_sub. set (w := vsub _ _).
  assert (W : Rabs (vx w) <= / 67108864 /\ Rabs (vy w) <= / 67108864 /\ Rabs (vz w) <= / 67108864).
  { subst w. unfold SQRT_DOUBLE_EPS in *. unfold vsub, vadd, iv in *. cbn [vx vy vz] in *. rewrite !opp_IZR. unfold Rminus in *. auto. }
  rewrite (cart_lin L w C). destruct W as (W1 & W2 & W3).
  assert (SC : forall c v, vnorm (vscale c v) = Rabs c * vnorm v).
  { intros c v. unfold vnorm. replace (vdot (vscale c v) (vscale c v)) with (c * c * vdot v v) by (destruct v; vring).
    rewrite sqrt_mult; [|nra|apply vdot_nonneg]. f_equal. rewrite <- (sqrt_Rsqr_abs c). reflexivity. }
  eapply Rle_trans; [apply norm_triangle|]. eapply Rle_trans; [apply Rplus_le_compat_l, norm_triangle|].
  rewrite !SC, (k_a _ C), (k_b _ C), (k_c _ C).
  assert (0 <= la (sc L)) by (rewrite <- (k_a _ C); apply vnorm_nonneg).
  assert (0 <= lb (sc L)) by (rewrite <- (k_b _ C); apply vnorm_nonneg).
  assert (0 <= lc (sc L)) by (rewrite <- (k_c _ C); apply vnorm_nonneg).
  pose proof (Rmult_le_compat_r _ _ _ H W1). pose proof (Rmult_le_compat_r _ _ _ H0 W2). pose proof (Rmult_le_compat_r _ _ _ H4 W3). lra.
Qed.

Theorem sep_distinct L eps a0 ops : consistent L -> fine L eps -> ops <> [] -> separated L eps (images ops (c_xyz a0)) ->
  forall i j p q, i <> j -> nth_error (map c_xyz (expandLatticeAtom L ops eps a0)) i = Some p ->
  nth_error (map c_xyz (expandLatticeAtom L ops eps a0)) j = Some q ->
  ~ near L (eps - / 33554432 * (la (sc L) + lb (sc L) + lc (sc L))) p q.
Proof.
  intros C F NE SEP i j p q N Hi Hj H. destruct (sep_apart L eps a0 ops C F NE SEP i j p q N Hi Hj) as (u & v & _ & _ & -> & -> & A).
  apply A. pose proof (near_sym _ _ _ _ (ucv_near L u C)). pose proof (ucv_near L v C).
  eapply near_mono; [|eapply near_triangle; [exact H0|eapply near_triangle; [exact H|exact H1]]]. lra.
Qed.

(** ** counting *)
Lemma pigeon n : forall l : list nat, NoDup l -> (forall x, In x l -> (x < n)%nat) -> (forall x, (x < n)%nat -> In x l) -> length l = n.
Proof.
  intros l ND H1 H2. apply Nat.le_antisymm.
  - rewrite <- (seq_length n 0). apply NoDup_incl_length; auto. intros x Hx. apply in_seq. specialize (H1 x Hx). lia.
  - rewrite <- (seq_length n 0). apply NoDup_incl_length; [apply seq_NoDup|]. intros x Hx. apply in_seq in Hx. apply H2. lia.
Qed.
Lemma map_group (imgs : list vec) (g : list nat) (reps : list vec) : length g = length imgs -> incl reps imgs ->
  exists ks, Forall2 (fun u k => exists i, nth_error imgs i = Some u /\ nth_error g i = Some k) reps ks.
Proof.
  intros GL. induction reps as [|u reps IH]; intros H; [exists []; constructor|].
  destruct IH as (ks & IH); [intros x Hx; apply H; now right|].
  assert (X : In u imgs) by (apply H; now left). apply In_nth_error in X. destruct X as (i & X).
  assert (B : (i < length g)%nat) by (rewrite GL; apply nth_error_Some; congruence).
  apply nth_error_Some in B. destruct (nth_error g i) as [k|] eqn:E; [|congruence]. exists (k :: ks). constructor; eauto.
Qed.
Theorem sep_count L eps a0 ops : consistent L -> fine L eps -> ops <> [] -> separated L eps (images ops (c_xyz a0)) ->
  forall reps, distinct_sites (images ops (c_xyz a0)) reps -> length (expandLatticeAtom L ops eps a0) = length reps.
Proof.
  intros C F NE SEP reps (R1 & R2 & R3). destruct (sep_spec L eps a0 ops C F NE SEP) as (g & G1 & G2 & G3).
  set (imgs := images ops (c_xyz a0)) in *. set (out := expandLatticeAtom L ops eps a0) in *.
  destruct (map_group imgs g reps (proj1 G1) R1) as (ks & K).
  pose proof (sep_groups L eps a0 ops F SEP g G1) as SG. fold imgs in SG.
  assert (LK : length reps = length ks) by (clear -K; induction K; cbn; auto). rewrite LK. symmetry. apply pigeon; auto.
  - clear -K R3 SG. induction K as [|u k reps ks H K IH]; constructor.
    + intros X. inversion R3 as [|? ? D1 D2]; subst. clear IH.
      assert (exists v, In v reps /\ exists i, nth_error imgs i = Some v /\ nth_error g i = Some k) as (v & V1 & j & V2 & V3).
      { clear -K X. induction K as [|u' k' reps ks H K IH]; [contradiction|]. destruct X as [->|X].
        - exists u'. split; [now left|auto].
        - destruct (IH X) as (v & V1 & V2). exists v. split; [now right|auto]. }
      destruct H as (i & H1 & H2). rewrite Forall_forall in D1. apply (D1 v V1). now apply (SG i j u v k k).
    + apply IH. now inversion R3.
  - intros k X. apply G2. clear -K X. induction K as [|u k' reps ks H K IH]; [contradiction|]. destruct X as [->|X]; auto.
    destruct H as (i & _ & H). eapply nth_error_In; eauto.
  - intros k B. destruct (G3 k B) as (f & o & u & P1 & P2 & P3 & _).
    assert (U : In u imgs) by (eapply nth_error_In; eauto). destruct (R2 u U) as (v & V1 & V2).
    clear R1 R2 R3 LK. induction K as [|u' k' reps ks H K IH]; [contradiction|]. destruct V1 as [->|V1].
    + left. destruct H as (i & H1 & H2). symmetry. apply (SG f i u v k k'); auto. apply P1.
    + right. auto.
Qed.
