(** The bonds of a loop over all sites of an isolated or periodic structure come in pairs of opposite bonds, so that
    they meet the assumptions on balanced and reversible bonds. *)
From Coq Require Import String.
From Verif Require Import RBase R3 Trig Sphere Lattice LatticeSpec LatticeProofs BondGen BondGenSpec BondGenProofs BondGenMain
  Overlap OverlapSpec OverlapProofs OverlapFlip.
Open Scope R_scope.

Lemma vdist_sym u v : vdist u v = vdist v u.
Proof. unfold vdist, vnorm. f_equal. vring. Qed.
Lemma vsub_neg u v : vscale (-1) (vsub u v) = vsub v u. Proof. vring. Qed.
Definition neg3 (T : Z * Z * Z) : Z * Z * Z := let '(m, n, o) := T in (- m, - n, - o)%Z.
Lemma neg3_inv T : neg3 (neg3 T) = T.
Proof. destruct T as [[m n] o]. cbn. now rewrite !Z.opp_involutive. Qed.
Lemma translation_neg L T : translation L (neg3 T) = vscale (-1) (translation L T).
Proof.
  destruct T as [[m n] o]. unfold translation, neg3. rewrite !opp_IZR. generalize (Lva L) (Lvb L) (Lvc L). intros a b c. vring.
Qed.
Lemma add_cancel t u v : vsub (vadd (vscale (-1) t) u) v = vsub u (vadd t v). Proof. vring. Qed.

Section Loop.
  Context (cls : gclass) (S : stru) (sph : R -> R -> list (Z * Z * Z)).
  Context (HC : cls <> GCrystal) (HS : stru_ok cls S) (HSP : sphere_of (slat S) sph).
  Let n := length (spos S).
  (** anchor a, image of site i  |->  anchor i, image of site a *)
  Definition phi (x : nat * image) : nat * image := let '(a, (k, s, T)) := x in (k, (a, s, neg3 T)).
  Lemma phi_inv x : phi (phi x) = x.
  Proof. destruct x as [a [[k s] T]]. cbn. now rewrite neg3_inv. Qed.
  Definition good (lo hi : R) (x : nat * image) : Prop :=
    (fst x < n)%nat /\ image_ok cls S (seq 0 n) (snd x) /\ in_range lo hi (image_distance cls S (fst x) (seq 0 n) (snd x)).
  Lemma nth_seq0 k : (k < n)%nat -> nth k (seq 0 n) O = k.
  Proof. intros H. now rewrite seq_nth. Qed.
  Lemma image_rev a k s T : (a < n)%nat -> image_ok cls S (seq 0 n) (k, s, T) ->
    vsub (image_pos cls S a s (neg3 T)) (home cls S k 0) = vsub (home cls S a 0) (image_pos cls S k s T) /\ image_ok cls S (seq 0 n) (a, s, neg3 T).
  Proof.
    intros Ha HI. unfold image_ok, image_pos in *. rewrite seq_length in *. destruct cls; [| |congruence].
    - destruct HI as (Hk & -> & ->). cbn [home]. auto.
    - destruct HI as (Hk & ->). split; [|auto]. rewrite translation_neg. apply add_cancel.
  Qed.
  Lemma good_phi lo hi x : good lo hi x -> good lo hi (phi x).
  Proof.
    destruct x as [a [[k s] T]]. intros (Ha & HI & HR). cbn [fst snd] in *. unfold good. cbn [phi fst snd].
    assert (Hk : (k < n)%nat) by (unfold image_ok in HI; rewrite seq_length in HI; tauto).
    destruct (image_rev a k s T Ha HI) as [E I']. split; [exact Hk|]. split; [exact I'|].
    unfold image_distance in *. rewrite nth_seq0 in * by auto. unfold vdist in *. rewrite E. fold (vdist (home cls S a 0) (image_pos cls S k s T)). rewrite vdist_sym. exact HR.
  Qed.
  Definition show (x : nat * image) : bond := bond_at cls S (fst x) (seq 0 n) (snd x).
  Lemma show_phi x : (fst x < n)%nat -> image_ok cls S (seq 0 n) (snd x) -> arrow (show (phi x)) = flipped (show x).
  Proof.
    destruct x as [a [[k s] T]]. cbn [fst snd]. intros Ha HI.
    assert (Hk : (k < n)%nat) by (unfold image_ok in HI; rewrite seq_length in HI; tauto).
    destruct (image_rev a k s T Ha HI) as [E _]. unfold show. cbn [phi fst snd]. unfold arrow, flipped, bond_at. cbn [b_site0 b_site1 b_distance b_r01].
    rewrite !nth_seq0 by auto. unfold vdist at 1. rewrite E, vsub_neg. fold (vdist (home cls S a 0) (image_pos cls S k s T)). now rewrite vdist_sym.
  Qed.
  Lemma show_sites x : (fst x < n)%nat -> image_ok cls S (seq 0 n) (snd x) -> b_site0 (show x) = fst x /\ b_site1 (show x) = fst (fst (snd x)) /\ (fst (fst (snd x)) < n)%nat.
  Proof.
    destruct x as [a [[k s] T]]. cbn [fst snd]. intros Ha HI.
    assert (Hk : (k < n)%nat) by (unfold image_ok in HI; rewrite seq_length in HI; tauto).
    unfold show, bond_at. cbn [fst snd b_site0 b_site1]. now rewrite nth_seq0 by auto.
  Qed.

  Theorem loop_reversible lo hi (mask : nat -> nat -> bool) : (forall i j, mask i j = mask j i) ->
    exists B : list (list bond), length B = n /\
      (forall a, (a < n)%nat -> exists g f0, forall f, (f0 <= f)%nat ->
         grun cls S sph f (gen0 S) [SetRmin lo; SetRmax hi; SelAnchor a] = BDone g /\ bonds cls S sph f g = Some (nth a B [])) /\
      let bs := filter (fun b => mask (b_site0 b) (b_site1 b)) (concat B) in
      Permutation (map arrow bs) (map flipped bs) /\ Forall (fun b => (b_site0 b < n)%nat /\ (b_site1 b < n)%nat) bs /\
      (forall b, In b bs -> b_distance b = vnorm (b_r01 b) /\ 0 < b_distance b).
  Proof.
    intros HM.
    assert (A : forall a, (a < n)%nat -> exists g v, NoDup v /\ (forall y, In y v <-> good lo hi (a, y)) /\
        exists f0, forall f, (f0 <= f)%nat -> grun cls S sph f (gen0 S) [SetRmin lo; SetRmax hi; SelAnchor a] = BDone g /\
          bonds cls S sph f g = Some (map (fun y => show (a, y)) v)).
    { intros a Ha. set (ops := [SetRmin lo; SetRmax hi; SelAnchor a]).
      assert (exists g, forall f, grun cls S sph f (gen0 S) ops = BDone g) as [g Hg].
      { eexists. intros f. cbn -[Nat.ltb]. unfold nsites. fold n. replace (a <? n)%nat with true by (symmetry; now apply Nat.ltb_lt). reflexivity. }
      destruct (bonds_main cls S sph HS HSP 0 g ops a (Hg 0%nat) eq_refl) as (v & ND & HV & f0 & HB).
      exists g, v. split; auto. split; [|exists f0; intros f Hf; split; [apply Hg|now apply HB]].
      intros y. rewrite HV. cbn [ops settings_of fold_left set_step s_sites s_rmin s_rmax settings0]. unfold good. cbn [fst snd]. fold n. tauto. }
    assert (B : forall m, (m <= n)%nat -> exists B : list (list (nat * image)), length B = m /\ forall a, (a < m)%nat ->
        NoDup (nth a B []) /\ (forall x, In x (nth a B []) <-> good lo hi x /\ fst x = a) /\
        exists g f0, forall f, (f0 <= f)%nat -> grun cls S sph f (gen0 S) [SetRmin lo; SetRmax hi; SelAnchor a] = BDone g /\
          bonds cls S sph f g = Some (map show (nth a B []))).
    { induction m as [|m IH]; intros Hm; [exists []; split; [reflexivity|intros a Ha; lia]|].
      destruct IH as (B & LB & HB); [lia|]. destruct (A m ltac:(lia)) as (g & v & ND & HV & f0 & Hf).
      exists (B ++ [map (pair m) v]). split; [rewrite app_length; cbn; lia|]. intros a Ha.
      destruct (Nat.eq_dec a m) as [->|N].
      - rewrite app_nth2, LB, Nat.sub_diag by lia. cbn [nth]. split; [|split].
        + apply FinFun.Injective_map_NoDup; auto. intros x y E. congruence.
        + intros x. rewrite in_map_iff. split.
          * intros (y & <- & Hy). split; [now apply HV|reflexivity].
          * intros [G E]. exists (snd x). destruct x as [b y]. cbn in E. subst b. split; auto. now apply HV.
        + exists g, f0. intros f Hf'. destruct (Hf f Hf') as [Q1 Q2]. rewrite map_map. auto.
      - rewrite app_nth1 by lia. apply HB. lia. }
    destruct (B n (le_n n)) as (I & LI & HI). clear A B.
    exists (map (map show) I). split; [now rewrite map_length|]. split.
    { intros a Ha. destruct (HI a Ha) as (_ & _ & g & f0 & Hf). exists g, f0. intros f Hf'. destruct (Hf f Hf') as [Q1 Q2]. split; [exact Q1|].
      rewrite Q2. f_equal. change (@nil bond) with (map show []). now rewrite (map_nth (map show)). }
    cbv zeta. rewrite <- concat_map. set (l := concat I).
    assert (INL : forall x, In x l <-> good lo hi x).
    { intros x. unfold l. rewrite in_concat. split.
      - intros (v & Hv & Hx). apply (In_nth _ _ []) in Hv as (a & Ha & <-). rewrite LI in Ha. destruct (HI a Ha) as (_ & Q & _). apply Q in Hx. tauto.
      - intros G. assert (fst x < n)%nat as Ha by apply G. destruct (HI _ Ha) as (_ & Q & _). exists (nth (fst x) I []). split; [apply nth_In; lia|]. apply Q. auto. }
    assert (NDL : NoDup l).
    { assert (G : forall (J : list (list (nat * image))) k, (forall a, (a < length J)%nat -> NoDup (nth a J []) /\ forall x, In x (nth a J []) -> fst x = (k + a)%nat) -> NoDup (concat J)).
      { clear. induction J as [|v J IH]; intros k H; [constructor|]. cbn [concat]. apply NoDup_app_intro.
        - apply (H 0%nat). cbn. lia.
        - apply (IH (Datatypes.S k)). intros a Ha. destruct (H (Datatypes.S a)) as [H1 H2]; [cbn; lia|]. split; auto. intros x Hx. rewrite (H2 x Hx). lia.
        - intros y Hy Hy'. apply in_concat in Hy' as (w & Hw & Hy'). apply (In_nth _ _ []) in Hw as (a & Ha & <-).
          destruct (H 0%nat) as [_ H0]; [cbn; lia|]. destruct (H (Datatypes.S a)) as [_ H1]; [cbn; lia|]. specialize (H0 y Hy). specialize (H1 y Hy'). lia. }
      apply (G I 0%nat). intros a Ha. rewrite LI in Ha. destruct (HI a Ha) as (Q1 & Q2 & _). split; auto. intros x Hx. apply Q2 in Hx. lia. }
    set (q := fun b : bond => mask (b_site0 b) (b_site1 b)).
    assert (EF : filter q (map show l) = map show (filter (fun x => q (show x)) l)).
    { clear. induction l as [|x l IH]; [reflexivity|]. cbn. rewrite IH. destruct (q (show x)); reflexivity. }
    rewrite EF. set (lf := filter (fun x => q (show x)) l).
    assert (INF : forall x, In x lf <-> good lo hi x /\ q (show x) = true) by (intros x; unfold lf; rewrite filter_In, INL; tauto).
    assert (NDF : NoDup lf) by now apply NoDup_filter.
    assert (CL : forall x, In x lf -> In (phi x) lf).
    { intros x. rewrite !INF. intros [G Q]. split; [now apply good_phi|]. unfold q in *. pose proof (show_phi x) as E. destruct G as (G1 & G2 & _).
      specialize (E G1 G2). injection E as E0 E1 _ _. rewrite E0, E1, HM. exact Q. }
    assert (PP : Permutation lf (map phi lf)).
    { apply NoDup_Permutation; auto.
      - apply FinFun.Injective_map_NoDup; auto. intros x y E. rewrite <- (phi_inv x), E. apply phi_inv.
      - intros x. split; intros H.
        + rewrite <- (phi_inv x). apply in_map. auto.
        + apply in_map_iff in H as (y & <- & H). auto. }
    split; [|split].
    - rewrite !map_map. rewrite (Permutation_map (fun x => arrow (show x)) PP), map_map. apply Permutation_refl'. apply map_ext_in.
      intros x Hx. apply INF in Hx as [G _]. apply show_phi; apply G.
    - apply Forall_map, Forall_forall. intros x Hx. apply INF in Hx as [(G1 & G2 & _) _]. destruct (show_sites x G1 G2) as (-> & -> & ?). auto.
    - intros b Hb. apply in_map_iff in Hb as ([a [[k s] T]] & <- & Hx). apply INF in Hx as [(_ & _ & HR) _]. cbn [fst snd] in HR.
      unfold show, bond_at. cbn [fst snd b_distance b_r01]. split; [reflexivity|]. unfold image_distance in HR. destruct HR as [_ HR].
      eapply Rlt_trans; [|exact HR]. apply Rinv_0_lt_compat. lra.
  Qed.
End Loop.

(** reversible bonds with unit multiplicities are balanced *)
Lemma reversible_balanced (S : ostru) bs : (forall i, o_mult S i = 1%nat) -> Permutation (map arrow bs) (map flipped bs) -> balanced S bs.
Proof.
  intros HM HP a b d. rewrite !HM, !Nat.mul_1_l.
  set (p := fun x : nat * nat * R * vec => let '(i, j, e, _) := x in (i =? a)%nat && (j =? b)%nat && Reqb e d).
  assert (E1 : forall l, length (filter (is_bond a b d) l) = length (filter p (map arrow l))).
  { induction l as [|x l IH]; [reflexivity|]. cbn [map filter]. change (p (arrow x)) with (is_bond a b d x). destruct (is_bond a b d x); cbn [length]; now rewrite IH. }
  assert (E2 : forall l, length (filter (is_bond b a d) l) = length (filter p (map flipped l))).
  { induction l as [|x l IH]; [reflexivity|]. cbn [map filter].
    replace (p (flipped x)) with (is_bond b a d x) by (unfold p, flipped, is_bond; now rewrite (andb_comm (b_site0 x =? b)%nat)).
    destruct (is_bond b a d x); cbn [length]; now rewrite IH. }
  rewrite E1, E2. apply Permutation_length.
  clear -HP. induction HP as [|x l l' H IH|x y l|l l' l'' H IH H' IH']; cbn; auto.
  - destruct (p x); auto.
  - destruct (p x), (p y); auto using perm_swap.
  - eapply perm_trans; eauto.
Qed.
