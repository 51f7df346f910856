(** Proofs: space groups and the orbits of positions. *)
From Coq Require Import String.
From Verif Require Import RBase R3 Trig Sphere SphereProofs Lattice LatticeSpec LatticeProofs Crystal CrystalSpec CrystalProofs CrystalMain CrystalSep CrystalCell CrystalTensor
  StructDiff StructDiffSpec Evaluator EvaluatorSpec BondGen BondGenSpec BondGenProofs World WorldSpec OrbitSpec.
Import ListNotations.
Open Scope R_scope.
Notation length := List.length.

(** ** linear parts *)
Lemma int_line x : (forall s : R, exists k : Z, x * s = IZR k) -> x = 0.
Proof.
  intros H. destruct (Req_dec x 0) as [E|E]; auto. exfalso. destruct (H (/ (2 * x))) as [k Hk].
  assert (X : x * / (2 * x) = / 2) by (field; auto). rewrite X in Hk.
  assert (0 < k < 1)%Z by (split; apply lt_IZR; lra). lia.
Qed.
Lemma linear_id M c : (forall u, same_site (vadd (mv M u) c) u) -> M = mid.
Proof.
  intros H. assert (H0 : forall u, exists i j k, vsub (mv M u) u = iv i j k).
  { intros u. destruct (H u) as (i & j & k & E). destruct (H vzero) as (i' & j' & k' & E').
    exists (i - i')%Z, (j - j')%Z, (k - k')%Z. unfold iv in *. rewrite !minus_IZR. destruct M as [m1 m2 m3 m4 m5 m6 m7 m8 m9], c as [c1 c2 c3], u as [u1 u2 u3].
    unfold vsub, vadd, mv, vzero in *. cbn [vx vy vz x00 x01 x02 x10 x11 x12 x20 x21 x22] in *. injection E as E1 E2 E3. injection E' as F1 F2 F3. f_equal; lra. }
  destruct M as [a b d e f g h i j].
  assert (X : forall s, exists k k' k'', (a - 1) * s = IZR k /\ e * s = IZR k' /\ h * s = IZR k'').
  { intros s. destruct (H0 (V3 s 0 0)) as (p & q & r & E). unfold vsub, mv, iv in E. cbn [vx vy vz x00 x01 x02 x10 x11 x12 x20 x21 x22] in E. injection E as E1 E2 E3. exists p, q, r. repeat split; lra. }
  assert (Y : forall s, exists k k' k'', b * s = IZR k /\ (f - 1) * s = IZR k' /\ i * s = IZR k'').
  { intros s. destruct (H0 (V3 0 s 0)) as (p & q & r & E). unfold vsub, mv, iv in E. cbn [vx vy vz x00 x01 x02 x10 x11 x12 x20 x21 x22] in E. injection E as E1 E2 E3. exists p, q, r. repeat split; lra. }
  assert (Z : forall s, exists k k' k'', d * s = IZR k /\ g * s = IZR k' /\ (j - 1) * s = IZR k'').
  { intros s. destruct (H0 (V3 0 0 s)) as (p & q & r & E). unfold vsub, mv, iv in E. cbn [vx vy vz x00 x01 x02 x10 x11 x12 x20 x21 x22] in E. injection E as E1 E2 E3. exists p, q, r. repeat split; lra. }
  unfold mid.
  pose proof (int_line (a - 1) (fun s => match X s with ex_intro _ k (ex_intro _ _ (ex_intro _ _ (conj h _))) => ex_intro _ k h end)).
  pose proof (int_line e (fun s => match X s with ex_intro _ _ (ex_intro _ k (ex_intro _ _ (conj _ (conj h _)))) => ex_intro _ k h end)).
  pose proof (int_line h (fun s => match X s with ex_intro _ _ (ex_intro _ _ (ex_intro _ k (conj _ (conj _ h)))) => ex_intro _ k h end)).
  pose proof (int_line b (fun s => match Y s with ex_intro _ k (ex_intro _ _ (ex_intro _ _ (conj h _))) => ex_intro _ k h end)).
  pose proof (int_line (f - 1) (fun s => match Y s with ex_intro _ _ (ex_intro _ k (ex_intro _ _ (conj _ (conj h _)))) => ex_intro _ k h end)).
  pose proof (int_line i (fun s => match Y s with ex_intro _ _ (ex_intro _ _ (ex_intro _ k (conj _ (conj _ h)))) => ex_intro _ k h end)).
  pose proof (int_line d (fun s => match Z s with ex_intro _ k (ex_intro _ _ (ex_intro _ _ (conj h _))) => ex_intro _ k h end)).
  pose proof (int_line g (fun s => match Z s with ex_intro _ _ (ex_intro _ k (ex_intro _ _ (conj _ (conj h _)))) => ex_intro _ k h end)).
  pose proof (int_line (j - 1) (fun s => match Z s with ex_intro _ _ (ex_intro _ _ (ex_intro _ k (conj _ (conj _ h)))) => ex_intro _ k h end)).
  f_equal; lra.
Qed.

Section Group.
  Context (L : lattice) (ops : list symop) (CO : consistent L) (G : space_group L ops).
  Lemma op_same o u v : In o ops -> same_site u v -> same_site (op_image o u) (op_image o v).
  Proof.
    intros Ho (i & j & k & ->). destruct (sg_lattice _ _ G o Ho i j k) as (i' & j' & k' & E). exists i', j', k'. rewrite <- E.
    unfold op_image. destruct v. vring.
  Qed.
  (** an operation and its inverse *)
  Lemma op_inverse o : In o ops -> exists q, In q ops /\ (forall u, same_site (op_image q (op_image o u)) u) /\ (forall u, same_site (op_image o (op_image q u)) u) /\
    (forall w, mv (op_R o) (mv (op_R q) w) = w) /\ (forall w, mv (op_R q) (mv (op_R o) w) = w).
  Proof.
    intros Ho. destruct (sg_inverse _ _ G o Ho) as (q & Hq & I1 & I2). exists q. split; [exact Hq|]. split; [exact I1|]. split; [exact I2|].
    assert (X : forall p r : symop, (forall u, same_site (op_image p (op_image r u)) u) -> forall w, mv (op_R p) (mv (op_R r) w) = w).
    { intros p r H w. assert (E : mm (op_R p) (op_R r) = mid).
      { apply (linear_id _ (vadd (mv (op_R p) (op_t r)) (op_t p))). intros u. specialize (H u). unfold op_image in H.
        replace (vadd (mv (mm (op_R p) (op_R r)) u) (vadd (mv (op_R p) (op_t r)) (op_t p))) with (vadd (mv (op_R p) (vadd (mv (op_R r) u) (op_t r))) (op_t p)); auto.
        destruct p as [P t], r as [R' t']. cbn [op_R op_t]. vring. }
      replace (mv (op_R p) (mv (op_R r) w)) with (mv (mm (op_R p) (op_R r)) w) by (generalize (op_R p) (op_R r); intros; vring).
      rewrite E. destruct w. vring. }
    split; auto.
  Qed.
  (** its Cartesian part *)
  Lemma op_cart o : In o ops -> exists N, cart_part L (op_R o) N /\ forall w, vnorm (mv N w) = vnorm w.
  Proof.
    intros Ho. set (f := fun w => cartesian L (mv (op_R o) (fractional L w))).
    set (N := cols (f (V3 1 0 0)) (f (V3 0 1 0)) (f (V3 0 0 1))).
    assert (E : forall w, mv N w = f w).
    { intros w. unfold N, f, fractional, cartesian. generalize (base L) (recbase L) (op_R o). clear. intros. vring. }
    exists N. split.
    - intros u. rewrite E. unfold f. now rewrite (k_inv1 _ CO).
    - intros w. rewrite E. unfold f. rewrite (sg_length _ _ G o Ho). now rewrite (k_inv2 _ CO).
  Qed.

  (** [P]: positions that are the orbit of [x], each once *)
  Definition orbit (x : vec) (P : list vec) : Prop :=
    (forall p, In p P -> exists o, In o ops /\ same_site p (op_image o x)) /\
    (forall o, In o ops -> exists p, In p P /\ same_site p (op_image o x)) /\
    (forall i j p q, nth_error P i = Some p -> nth_error P j = Some q -> same_site p q -> i = j).
  Lemma orbit_closed x P p o : orbit x P -> In p P -> In o ops -> exists t p', nth_error P t = Some p' /\ same_site (op_image o p) p'.
  Proof.
    intros (O1 & O2 & _) Hp Ho. destruct (O1 p Hp) as (o1 & H1 & S1). destruct (sg_mult _ _ G o o1 Ho H1) as (q & Hq & HM).
    destruct (O2 q Hq) as (p' & Hp' & S2). apply In_nth_error in Hp' as [t Ht]. exists t, p'. split; auto.
    eapply same_trans; [apply op_same; eauto|]. eapply same_trans; [apply HM|]. now apply same_sym.
  Qed.
  Lemma orbit_joined x P p p' : orbit x P -> In p P -> In p' P -> exists o, In o ops /\ same_site (op_image o p) p'.
  Proof.
    intros (O1 & O2 & _) Hp Hp'. destruct (O1 p Hp) as (o & Ho & S). destruct (O1 p' Hp') as (o' & Ho' & S').
    destruct (op_inverse o Ho) as (q & Hq & I & _). destruct (sg_mult _ _ G o' q Ho' Hq) as (r & Hr & HM). exists r. split; auto.
    eapply same_trans; [apply same_sym, HM|]. eapply same_trans; [|apply same_sym, S']. apply op_same; auto.
    eapply same_trans; [|apply I]. apply op_same; auto.
  Qed.
End Group.

Lemma no_snap_same u : no_snap (vx u) -> no_snap (vy u) -> no_snap (vz u) -> same_site (ucvFractional u) u.
Proof.
  unfold no_snap. intros H1 H2 H3. exists (- Rfloor (vx u))%Z, (- Rfloor (vy u))%Z, (- Rfloor (vz u))%Z.
  unfold ucvFractional, iv, vadd. cbn [vx vy vz]. rewrite !opp_IZR, !snap_frac by auto. f_equal; ring.
Qed.
Lemma exact_orbit L eps ops a : consistent L -> fine L eps -> ops <> [] -> exact_site L eps ops a ->
  orbit ops (fractional L (c_xyz a)) (map (fun p => fractional L (c_xyz p)) (expand_site L ops eps a)).
Proof.
  intros C F NE [SEP NS]. unfold expand_site. rewrite map_map.
  assert (E : map (fun p => fractional L (c_xyz (toCartesian L p))) (expandLatticeAtom L ops eps (toFractional L a)) = map c_xyz (expandLatticeAtom L ops eps (toFractional L a))).
  { apply map_ext. intros p. cbn [toCartesian c_xyz]. apply (k_inv1 _ C). }
  rewrite E. clear E. set (a0 := toFractional L a). change (fractional L (c_xyz a)) with (c_xyz a0) in *.
  assert (IM : forall u, In u (images ops (c_xyz a0)) <-> exists o, In o ops /\ u = op_image o (c_xyz a0)).
  { intros u. unfold images. rewrite in_map_iff. split; intros (o & H1 & H2); exists o; split; auto. }
  assert (UC : forall u, In u (images ops (c_xyz a0)) -> same_site (ucvFractional u) u) by (intros u Hu; destruct (NS u Hu) as (? & ? & ?); now apply no_snap_same).
  split; [|split].
  - intros p Hp. destruct (sep_sound L eps a0 ops C F NE SEP p Hp) as (u & Hu & ->). pose proof (UC u Hu). apply IM in Hu as (o & Ho & ->). eauto.
  - intros o Ho. assert (Hu : In (op_image o (c_xyz a0)) (images ops (c_xyz a0))) by (apply IM; eauto).
    exists (ucvFractional (op_image o (c_xyz a0))). split; [now apply (sep_cover L eps a0 ops C F NE SEP)|now apply UC].
  - intros i j p q Hi Hj S. destruct (Nat.eq_dec i j) as [?|N]; auto. exfalso.
    destruct (sep_apart L eps a0 ops C F NE SEP i j p q N Hi Hj) as (u & v & Hu & Hv & -> & -> & A). apply A.
    apply same_near; [apply F|]. eapply same_trans; [apply same_sym, (UC u Hu)|]. eapply same_trans; [exact S|]. now apply UC.
Qed.
