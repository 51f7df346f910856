(** Proofs for Wrappers.v. *)
From Coq Require Import String.
From Verif Require Import RBase R3 Trig Sphere Lattice BondGen BondGenSpec Sums Wrappers WrappersSpec.
Import ListNotations.
Open Scope R_scope.
Notation length := List.length.

Section Ind.
  Context (P : adapter -> Prop) (HE : P AEmpty) (HL : forall p, P (ALeaf p)).
  Context (HM0 : forall i, P (ANoMeta i None)) (HM : forall i s, P s -> P (ANoMeta i (Some s))).
  Context (HS0 : forall i, P (ANoSym i None)) (HS : forall i s, P s -> P (ANoSym i (Some s))).
  Fixpoint adapter_ind' (a : adapter) : P a :=
    match a with
    | AEmpty => HE | ALeaf p => HL p
    | ANoMeta i None => HM0 i | ANoMeta i (Some s) => HM i s (adapter_ind' s)
    | ANoSym i None => HS0 i | ANoSym i (Some s) => HS i s (adapter_ind' s)
    end.
End Ind.

(** the concrete adapter behind all wrappers, and which wrappers there are *)
Fixpoint base_of (a : adapter) : option adapter :=
  match a with
  | AEmpty | ALeaf _ => Some a
  | ANoMeta _ (Some s) | ANoSym _ (Some s) => base_of s
  | _ => None
  end.
Fixpoint has_meta (a : adapter) : bool :=
  match a with ANoMeta _ _ => true | ANoSym _ (Some s) => has_meta s | _ => false end.
Fixpoint has_sym (a : adapter) : bool :=
  match a with ANoSym _ _ => true | ANoMeta _ (Some s) => has_sym s | _ => false end.
Definition thr {A} (f : adapter -> qres A) (b : option adapter) : qres A := match b with Some b => f b | None => QUndef end.

Ltac wind a := induction a using adapter_ind'; cbn; auto.
Lemma cnt_base M a : countSites M a = thr (countSites M) (base_of a). Proof. wind a. Qed.
Lemma typ_base M a i : siteAtomType M a i = thr (fun b => siteAtomType M b i) (base_of a). Proof. wind a. Qed.
Lemma pos_base M a i : siteCartesianPosition M a i = thr (fun b => siteCartesianPosition M b i) (base_of a). Proof. wind a. Qed.
Lemma occ_base M a i : siteOccupancy M a i = thr (fun b => siteOccupancy M b i) (base_of a). Proof. wind a. Qed.
Lemma ani_base M a i : siteAnisotropy M a i = thr (fun b => siteAnisotropy M b i) (base_of a). Proof. wind a. Qed.
Lemma uij_base M a i : siteCartesianUij M a i = thr (fun b => siteCartesianUij M b i) (base_of a). Proof. wind a. Qed.
Lemma mul_base M a i : siteMultiplicity M a i = if has_sym a then QOk 1%nat else thr (fun b => siteMultiplicity M b i) (base_of a).
Proof. wind a. Qed.
Lemma den_base M a : numberDensity M a = if has_sym a then QOk 0 else thr (numberDensity M) (base_of a).
Proof. wind a. Qed.
Lemma cfg_base M a : customPQConfig M a = if has_meta a then QOk [] else thr (customPQConfig M) (base_of a).
Proof. wind a. Qed.

Lemma base_gen_ext M a M' b : same_sites M a M' b -> base_generator M a = base_generator M' b.
Proof.
  intros (E & H). unfold base_generator. rewrite E. destruct (countSites M' b) as [n| |]; cbn; auto.
  rewrite (map_ext _ (siteCartesianPosition M' b)), (map_ext _ (siteCartesianUij M' b)); auto; intros i; now destruct (H i) as (? & ? & ? & ? & ?).
Qed.
Lemma total_ext M a M' b : same_sites M a M' b -> (forall i, siteMultiplicity M a i = siteMultiplicity M' b i) -> totalOccupancy M a = totalOccupancy M' b.
Proof.
  intros (E & H) HM. unfold totalOccupancy. rewrite E. destruct (countSites M' b) as [n| |]; cbn [qbind]; auto.
  generalize (@QOk R 0). induction (seq 0 n) as [|i l IH]; intros acc; cbn [fold_left]; auto. rewrite IH. do 2 f_equal. 
  destruct (H i) as (_ & _ & -> & _ & _). now rewrite HM.
Qed.
Lemma sites_base M a b : base_of a = base_of b -> same_sites M a M b.
Proof. intros E. split; [now rewrite !cnt_base, E|]. intros i. now rewrite !typ_base, !pos_base, !occ_base, !ani_base, !uij_base, E. Qed.
Definition gen_thr M (b : option adapter) := thr (createBondGenerator M) b.
Lemma base_of_idem a b : base_of a = Some b -> base_of b = Some b.
Proof. induction a using adapter_ind'; cbn; intros E; try discriminate; auto; injection E as <-; reflexivity. Qed.
Lemma gen_base M a : createBondGenerator M a = if has_sym a then base_generator M a else thr (createBondGenerator M) (base_of a).
Proof.
  induction a using adapter_ind'; try reflexivity. cbn [createBondGenerator has_sym]. rewrite IHa. destruct (has_sym a) eqn:E; [|reflexivity].
  apply base_gen_ext, sites_base. reflexivity.
Qed.
Lemma all_base M a b : base_of a = base_of b -> has_meta a = has_meta b -> has_sym a = has_sym b -> same_all M a M b.
Proof.
  intros E1 E2 E3. pose proof (sites_base M a b E1) as SS. assert (HM : forall i, siteMultiplicity M a i = siteMultiplicity M b i) by (intros; now rewrite !mul_base, E1, E3).
  split; [auto|]. split; [|now rewrite !cfg_base, E1, E2]. split; [auto|]. split; [now apply total_ext|]. split; [now rewrite !den_base, E1, E3|].
  rewrite !gen_base, E1, E3. destruct (has_sym b); auto. now apply base_gen_ext.
Qed.

(** ** the wrappers *)
Lemma nometa_flags M s : let a := snd (nometa M (Some s)) in base_of a = base_of s /\ has_meta a = true /\ has_sym a = has_sym s.
Proof. destruct s; cbn; auto. Qed.
Lemma nosym_flags M s : let a := snd (nosymmetry M (Some s)) in base_of a = base_of s /\ has_meta a = has_meta s /\ has_sym a = true.
Proof. destruct s; cbn; auto. Qed.

Lemma total_ones M a n o : countSites M a = QOk n -> (forall i, (i < n)%nat -> siteOccupancy M a i = QOk (o i)) -> (forall i, siteMultiplicity M a i = QOk 1%nat) ->
  totalOccupancy M a = QOk (sumf (fun i => o i) (seq 0 n)).
Proof.
  intros E HO HM. unfold totalOccupancy. rewrite E. cbn [qbind].
  assert (X : forall l acc, (forall i, In i l -> (i < n)%nat) -> fold_left (fun acc i =>
    qbind acc (fun t => qbind (siteOccupancy M a i) (fun o => qbind (siteMultiplicity M a i) (fun m => QOk (t + o * INR m))))) l (QOk acc) = QOk (acc + sumf (fun i => o i) l)).
  { induction l as [|i l IH]; intros acc Hl; cbn [fold_left]; [f_equal; unfold sumf; cbn; ring|].
    cbn [qbind]. rewrite HO by (apply Hl; now left). cbn [qbind]. rewrite HM. cbn [qbind INR]. rewrite IH by (intros; apply Hl; now right).
    f_equal. unfold sumf. cbn. ring. }
  rewrite X; [f_equal; ring|]. intros i Hi. apply in_seq in Hi. lia.
Qed.
Lemma qlist_ok {A} (l : list (qres A)) : (forall x, In x l -> exists a, x = QOk a) -> exists s, qlist l = QOk s /\ l = map QOk s.
Proof.
  induction l as [|x l IH]; intros H; [exists []; auto|]. destruct (H x) as (a & ->); [now left|]. destruct IH as (s & E & ->); [intros; apply H; now right|].
  exists (a :: s). cbn. rewrite E. auto.
Qed.
Lemma isolated_gen M a n : countSites M a = QOk n -> (forall i, (i < n)%nat -> (exists v, siteCartesianPosition M a i = QOk v) /\ (exists u, siteCartesianUij M a i = QOk u)) ->
  exists g, base_generator M a = QOk g /\ isolated M a g.
Proof.
  intros E H. unfold base_generator. rewrite E. cbn [qbind].
  destruct (qlist_ok (map (siteCartesianPosition M a) (seq 0 n))) as (ps & E1 & F1).
  { intros x Hx. apply in_map_iff in Hx. destruct Hx as (i & <- & Hi). apply in_seq in Hi. destruct (H i) as [[v ->] _]; [lia|eauto]. }
  destruct (qlist_ok (map (siteCartesianUij M a) (seq 0 n))) as (us & E2 & F2).
  { intros x Hx. apply in_map_iff in Hx. destruct Hx as (i & <- & Hi). apply in_seq in Hi. destruct (H i) as [_ [v ->]]; [lia|eauto]. }
  rewrite E1, E2. cbn [qbind]. eexists. split; [reflexivity|]. unfold isolated. cbn [fst snd spos suij].
  assert (L1 : length ps = n) by (apply (f_equal (@List.length _)) in F1; rewrite !map_length, seq_length in F1; auto).
  assert (L2 : length us = n) by (apply (f_equal (@List.length _)) in F2; rewrite !map_length, seq_length in F2; auto).
  split; [reflexivity|]. rewrite L1. split; [auto|]. split; [auto|]. intros i Hi. split.
  - apply (f_equal (fun l => nth i l QUndef)) in F1. rewrite (nth_indep _ _ (siteCartesianPosition M a 0)), map_nth, seq_nth in F1 by (rewrite ?map_length, ?seq_length; auto).
    cbn in F1. rewrite F1. rewrite (nth_indep _ _ (QOk vzero)) by (rewrite map_length; lia). apply map_nth.
  - apply (f_equal (fun l => nth i l QUndef)) in F2. rewrite (nth_indep _ _ (siteCartesianUij M a 0)), map_nth, seq_nth in F2 by (rewrite ?map_length, ?seq_length; auto).
    cbn in F2. rewrite F2. rewrite (nth_indep _ _ (QOk mid)) by (rewrite map_length; lia). apply map_nth.
Qed.
Lemma usable_sites M a n : countSites M a = QOk n -> forall i, (i < n)%nat ->
  (exists v, siteCartesianPosition M a i = QOk v) /\ (exists u, siteCartesianUij M a i = QOk u) /\ (exists o, siteOccupancy M a i = QOk o).
Proof.
  intros E i Hi. rewrite cnt_base in E. rewrite pos_base, uij_base, occ_base. destruct (base_of a) as [[|p|k s|k s]|] eqn:EB; cbn in *; try discriminate.
  - injection E as <-. lia.
  - unfold leaf_get, leaf_site in *. destruct (deref M p) as [l|]; [|discriminate]. injection E as <-. apply nth_error_Some in Hi. destruct (nth_error (lf_sites l) i); [|congruence]. eauto 10.
  - exfalso. destruct a as [| |j [t|]|j [t|]]; try discriminate; cbn in EB; revert EB; clear; induction t using adapter_ind'; cbn; try discriminate; auto.
  - exfalso. destruct a as [| |j [t|]|j [t|]]; try discriminate; cbn in EB; revert EB; clear; induction t using adapter_ind'; cbn; try discriminate; auto.
Qed.

(** ** histories *)
Definition nonest (a : adapter) : Prop := forall b s, within a b -> source b = Some s -> (is_nometa b -> ~ is_nometa s) /\ (is_nosym b -> ~ is_nosym s).
Definition in_mem (n : nat) (a : adapter) : Prop := match base_of a with Some (ALeaf p) => (p < n)%nat | _ => True end.
Lemma nonest_src a s : nonest a -> source a = Some s -> nonest s.
Proof. intros H E b t Hb. apply H. eapply within_src; eauto. Qed.
Lemma nonest_leaf a : source a = None -> nonest a.
Proof. intros E b s Hb Hs. inversion Hb; subst; congruence. Qed.
Lemma nonest_wrap a s : source a = Some s -> nonest s -> (is_nometa a -> ~ is_nometa s) -> (is_nosym a -> ~ is_nosym s) -> nonest a.
Proof. intros E H H1 H2 b t Hb Ht. inversion Hb; subst; [rewrite E in Ht; injection Ht as <-; auto|]. rewrite E in H0. injection H0 as <-. eapply H; eauto. Qed.

Lemma clone_nonest a : nonest a -> forall M, nonest (snd (clone M a)) /\ (is_nometa (snd (clone M a)) <-> is_nometa a) /\ (is_nosym (snd (clone M a)) <-> is_nosym a).
Proof.
  induction a using adapter_ind'; intros N M; cbn [clone].
  - cbn. tauto.
  - destruct (deref M p); cbn; (split; [apply nonest_leaf; reflexivity|tauto]).
  - cbn. split; [apply nonest_leaf; reflexivity|tauto].
  - specialize (IHa (nonest_src _ _ N eq_refl) {| leaves := leaves M; fresh := S (fresh M) |}). destruct (clone _ a) as [M2 s']. cbn [snd] in *. destruct IHa as (H1 & H2 & H3).
    split; [|cbn; tauto]. eapply nonest_wrap; [reflexivity|auto| |]; cbn; [|tauto]. intros _. rewrite H2. apply (N _ _ (within_refl _) eq_refl). exact I.
  - cbn. split; [apply nonest_leaf; reflexivity|tauto].
  - specialize (IHa (nonest_src _ _ N eq_refl) {| leaves := leaves M; fresh := S (fresh M) |}). destruct (clone _ a) as [M2 s']. cbn [snd] in *. destruct IHa as (H1 & H2 & H3).
    split; [|cbn; tauto]. eapply nonest_wrap; [reflexivity|auto| |]; cbn; [tauto|]. intros _. rewrite H3. apply (N _ _ (within_refl _) eq_refl). exact I.
Qed.
Lemma newNoMeta_nonest M p : (forall a, p = Some a -> nonest a) -> nonest (snd (newNoMeta M p)).
Proof.
  intros H. unfold newNoMeta. cbn [snd]. destruct p as [[|q|i [s|]|i [s|]]|]; cbn.
  - eapply nonest_wrap; [reflexivity|now apply nonest_leaf| |]; cbn; tauto.
  - eapply nonest_wrap; [reflexivity|now apply nonest_leaf| |]; cbn; tauto.
  - specialize (H _ eq_refl). eapply nonest_wrap; [reflexivity|exact (nonest_src _ _ H eq_refl)| |]; cbn; [|tauto]. intros _. apply (H _ _ (within_refl _) eq_refl). exact I.
  - eapply nonest_wrap; [reflexivity|now apply nonest_leaf| |]; cbn; tauto.
  - specialize (H _ eq_refl). eapply nonest_wrap; [reflexivity|exact H| |]; cbn; tauto.
  - eapply nonest_wrap; [reflexivity|now apply nonest_leaf| |]; cbn; tauto.
  - eapply nonest_wrap; [reflexivity|now apply nonest_leaf| |]; cbn; tauto.
Qed.
Lemma newNoSym_nonest M p : (forall a, p = Some a -> nonest a) -> nonest (snd (newNoSym M p)).
Proof.
  intros H. unfold newNoSym. cbn [snd]. destruct p as [[|q|i [s|]|i [s|]]|]; cbn.
  - eapply nonest_wrap; [reflexivity|now apply nonest_leaf| |]; cbn; tauto.
  - eapply nonest_wrap; [reflexivity|now apply nonest_leaf| |]; cbn; tauto.
  - specialize (H _ eq_refl). eapply nonest_wrap; [reflexivity|exact H| |]; cbn; tauto.
  - eapply nonest_wrap; [reflexivity|now apply nonest_leaf| |]; cbn; tauto.
  - specialize (H _ eq_refl). eapply nonest_wrap; [reflexivity|exact (nonest_src _ _ H eq_refl)| |]; cbn; [tauto|]. intros _. apply (H _ _ (within_refl _) eq_refl). exact I.
  - eapply nonest_wrap; [reflexivity|now apply nonest_leaf| |]; cbn; tauto.
  - eapply nonest_wrap; [reflexivity|now apply nonest_leaf| |]; cbn; tauto.
Qed.

Lemma upd_len {A} i (x : A) l : length (upd i x l) = length l. Proof. apply upd_length. Qed.
(** clone *)
Lemma clone_mem a : forall M, in_mem (length (leaves M)) a -> let (M', b) := clone M a in
  (exists l, leaves M' = leaves M ++ l) /\ has_meta b = has_meta a /\ has_sym b = has_sym a /\
  match base_of a with
  | Some (ALeaf p) => exists lf, nth_error (leaves M) p = Some lf /\ base_of b = Some (ALeaf (length (leaves M))) /\ leaves M' = leaves M ++ [lf]
  | x => base_of b = x
  end.
Proof.
  induction a using adapter_ind'; intros M IM; cbn [clone].
  - split; [exists []; now rewrite app_nil_r|]. cbn. auto.
  - unfold in_mem in IM. cbn in IM. unfold deref. destruct (nth_error (leaves M) p) as [lf|] eqn:E; [|apply nth_error_None in E; lia].
    cbn. split; [eauto|]. repeat split; eauto.
  - cbn. split; [exists []; now rewrite app_nil_r|]. auto.
  - specialize (IHa {| leaves := leaves M; fresh := S (fresh M) |} IM). destruct (clone _ a) as [M2 s']. exact IHa || (destruct IHa as (H1 & H2 & H3 & H4); cbn in *; auto).
  - cbn. split; [exists []; now rewrite app_nil_r|]. auto.
  - specialize (IHa {| leaves := leaves M; fresh := S (fresh M) |} IM). destruct (clone _ a) as [M2 s']. destruct IHa as (H1 & H2 & H3 & H4); cbn in *; auto.
Qed.

(** adapters in two memories *)
Definition same_leaf (M : wmem) (x : option adapter) (M' : wmem) (y : option adapter) : Prop :=
  match x, y with
  | Some (ALeaf p), Some (ALeaf q) => nth_error (leaves M) p = nth_error (leaves M') q
  | Some AEmpty, Some AEmpty | None, None => True
  | _, _ => False
  end.
Lemma same_leaf_all M a M' b : same_leaf M (base_of a) M' (base_of b) -> has_meta a = has_meta b -> has_sym a = has_sym b -> same_all M a M' b.
Proof.
  intros E1 E2 E3.
  assert (SS : same_sites M a M' b).
  { split.
    - rewrite !cnt_base. destruct (base_of a) as [[| | |]|], (base_of b) as [[| | |]|]; cbn in *; try tauto. unfold leaf_get, deref. now rewrite E1.
    - intros i. rewrite !typ_base, !pos_base, !occ_base, !ani_base, !uij_base.
      destruct (base_of a) as [[| | |]|], (base_of b) as [[| | |]|]; cbn in *; try tauto. unfold leaf_site, deref. now rewrite E1. }
  assert (HM : forall i, siteMultiplicity M a i = siteMultiplicity M' b i).
  { intros i. rewrite !mul_base, E3. destruct (has_sym b); auto.
    destruct (base_of a) as [[| | |]|], (base_of b) as [[| | |]|]; cbn in *; try tauto. unfold leaf_site, deref. now rewrite E1. }
  split; [auto|]. split.
  - split; [auto|]. split; [now apply total_ext|]. split.
    + rewrite !den_base, E3. destruct (has_sym b); auto. destruct (base_of a) as [[| | |]|], (base_of b) as [[| | |]|]; cbn in *; try tauto. unfold leaf_get, deref. now rewrite E1.
    + rewrite !gen_base, E3. destruct (has_sym b); [now apply base_gen_ext|].
      destruct (base_of a) as [[|p| |]|] eqn:Ea, (base_of b) as [[|q| |]|] eqn:Eb; cbn [thr same_leaf] in *; try tauto; try reflexivity.
      cbn [createBondGenerator]. unfold leaf_get, deref. rewrite E1. destruct (nth_error (leaves M') q) as [l|] eqn:E; auto. cbn [qbind]. destruct (lf_class l); auto.
      apply base_gen_ext. split.
      * cbn. unfold leaf_get, deref. now rewrite E1, E.
      * intros i. cbn. unfold leaf_site, deref. now rewrite E1, E.
  - rewrite !cfg_base, E2. destruct (has_meta b); auto. destruct (base_of a) as [[| | |]|], (base_of b) as [[| | |]|]; cbn in *; try tauto. unfold leaf_get, deref. now rewrite E1.
Qed.
Lemma base_cases a : match base_of a with Some (ANoMeta _ _) | Some (ANoSym _ _) => False | _ => True end.
Proof. induction a using adapter_ind'; cbn; auto. Qed.
Lemma same_leaf_in M M' a : (forall p, base_of a = Some (ALeaf p) -> nth_error (leaves M) p = nth_error (leaves M') p) -> same_leaf M (base_of a) M' (base_of a).
Proof. intros H. pose proof (base_cases a). destruct (base_of a) as [[| | |]|]; cbn; auto. Qed.

Lemma clone_spec M a : in_mem (length (leaves M)) a -> let (M', b) := clone M a in
  same_all M' b M a /\ (forall p l, (p < length (leaves M))%nat -> same_all (change M' p l) b M a) /\
  (forall p l c, in_mem (length (leaves M)) c -> (length (leaves M) <= p)%nat -> same_all (change M' p l) c M c) /\
  (forall c, in_mem (length (leaves M)) c -> same_all M' c M c).
Proof.
  intros IM. pose proof (clone_mem a M IM) as H. destruct (clone M a) as [M' b]. destruct H as ((l0 & EL) & E2 & E3 & E4). pose proof (base_cases a) as BC.
  assert (OLD : forall c, in_mem (length (leaves M)) c -> forall q, base_of c = Some (ALeaf q) -> nth_error (leaves M') q = nth_error (leaves M) q).
  { intros c Hc q Eq. unfold in_mem in Hc. rewrite Eq in Hc. rewrite EL, nth_error_app1; auto. }
  assert (NEW : forall M'', (forall q, (length (leaves M) <= q)%nat -> nth_error (leaves M'') q = nth_error (leaves M') q) -> same_all M'' b M a).
  { intros M'' HM. apply same_leaf_all; auto. destruct (base_of a) as [[|p| |]|]; try tauto.
    - rewrite E4. exact I.
    - destruct E4 as (lf & N1 & N2 & N3). rewrite N2. cbn. rewrite HM by lia. rewrite N3, N1. rewrite nth_error_app2, Nat.sub_diag by lia. reflexivity.
    - rewrite E4. exact I. }
  split; [apply NEW; auto|]. split; [|split].
  - intros p l Hp. apply NEW. intros q Hq. cbn. rewrite nth_error_upd. destruct (Nat.eqb_spec p q); [lia|reflexivity].
  - intros p l c Hc Hp. apply same_leaf_all; auto. apply same_leaf_in. intros q Eq. cbn. rewrite nth_error_upd.
    unfold in_mem in Hc. rewrite Eq in Hc. destruct (Nat.eqb_spec p q); [lia|]. apply (OLD c); auto. unfold in_mem. now rewrite Eq.
  - intros c Hc. apply same_leaf_all; auto. apply same_leaf_in. intros q Eq. apply (OLD c); auto.
Qed.

(** all pointers a user can hold *)
Definition winv (x : wstate) : Prop := forall a, In (Some a) (snd x) -> nonest a /\ in_mem (length (leaves (fst x))) a.
Lemma in_mem_mono n m a : in_mem n a -> (n <= m)%nat -> in_mem m a.
Proof. unfold in_mem. destruct (base_of a) as [[| | |]|]; auto. lia. Qed.
Lemma held_inv M h k a : winv (M, h) -> held h k = Some a -> nonest a /\ in_mem (length (leaves M)) a.
Proof.
  intros H E. apply (H a). cbn. unfold held in E. destruct (Nat.lt_ge_cases k (length h)) as [B|B]; [rewrite <- E; now apply nth_In|].
  rewrite nth_overflow in E by auto. discriminate.
Qed.
Lemma winv_add M h M' a : winv (M, h) -> (length (leaves M) <= length (leaves M'))%nat -> nonest a -> in_mem (length (leaves M')) a -> winv (M', h ++ [Some a]).
Proof.
  intros H B N I b Hb. cbn in Hb. apply in_app_or in Hb. destruct Hb as [Hb|[[= <-]|[]]]; auto. destruct (H b Hb) as [H1 H2]. split; auto. eapply in_mem_mono; eauto.
Qed.
Lemma new_in_mem M p n : (forall a, p = Some a -> in_mem n a) -> in_mem n (snd (newNoMeta M p)) /\ in_mem n (snd (newNoSym M p)).
Proof.
  intros H. unfold newNoMeta, newNoSym. cbn [snd]. split.
  - destruct p as [[|q|i [s|]|i [s|]]|]; cbn; try exact I; try (apply (H _ eq_refl)).
  - destruct p as [[|q|i [s|]|i [s|]]|]; cbn; try exact I; try (apply (H _ eq_refl)).
Qed.
Lemma wstep_inv x c : winv x -> winv (wstep x c).
Proof.
  destruct x as [M h]. intros W. assert (HH : forall k a, held h k = Some a -> nonest a /\ in_mem (length (leaves M)) a) by (intros; eapply held_inv; eauto).
  assert (NM : forall p, (forall a, p = Some a -> nonest a /\ in_mem (length (leaves M)) a) -> winv (fst (newNoMeta M p), h ++ [Some (snd (newNoMeta M p))])).
  { intros p Hp. apply (winv_add M); auto; [apply newNoMeta_nonest; intros; now apply Hp|apply (new_in_mem M p (length (leaves M))); intros; now apply Hp]. }
  assert (NS : forall p, (forall a, p = Some a -> nonest a /\ in_mem (length (leaves M)) a) -> winv (fst (newNoSym M p), h ++ [Some (snd (newNoSym M p))])).
  { intros p Hp. apply (winv_add M); auto; [apply newNoSym_nonest; intros; now apply Hp|apply (new_in_mem M p (length (leaves M))); intros; now apply Hp]. }
  destruct c; cbn [wstep].
  - intros a Ha. cbn in Ha. apply in_app_or in Ha. destruct Ha as [Ha|[Ha|[]]]; [now apply W|discriminate].
  - apply (winv_add M); auto; [now apply nonest_leaf|exact I].
  - apply (winv_add M); auto; cbn; [rewrite app_length; lia|now apply nonest_leaf|unfold in_mem; cbn; rewrite app_length; cbn; lia].
  - apply (winv_add M); auto; destruct meta; cbn; [now apply nonest_leaf|now apply nonest_leaf|exact I|exact I].
  - apply NM. apply HH.
  - apply NS. apply HH.
  - unfold nometa. destruct (held h k) as [[|q|i s|i s]|] eqn:E; try (apply NM; intros a Ea; apply (HH k); congruence).
    apply (winv_add M); auto; apply (HH k); auto.
  - unfold nosymmetry. destruct (held h k) as [[|q|i s|i s]|] eqn:E; try (apply NS; intros a Ea; apply (HH k); congruence).
    apply (winv_add M); auto; apply (HH k); auto.
  - destruct (held h k) as [a|] eqn:E; [|exact W]. destruct (HH k a E) as [N I]. pose proof (clone_nonest a N M) as (CN & _). pose proof (clone_mem a M I) as CM. destruct (clone M a) as [M' b].
    destruct CM as ((l & EL) & _ & _ & CB). apply (winv_add M); auto; [rewrite EL, app_length; lia|].
    unfold in_mem in *. destruct (base_of a) as [[|p| |]|].
    + rewrite CB. exact I.
    + destruct CB as (lf & _ & -> & ->). rewrite app_length. cbn. lia.
    + pose proof (base_cases b) as BB. rewrite CB in BB. destruct BB.
    + pose proof (base_cases b) as BB. rewrite CB in BB. destruct BB.
    + rewrite CB. exact I.
  - destruct (held h k) as [[|q|i s|i s]|] eqn:E; try exact W; destruct (HH k _ E) as [N I]; (destruct s as [s|];
      [apply (winv_add M); auto; exact (nonest_src _ _ N eq_refl)|intros a Ha; cbn in Ha; apply in_app_or in Ha; destruct Ha as [Ha|[Ha|[]]]; [now apply W|discriminate]]).
  - intros a Ha. cbn in *. rewrite upd_length. now apply W.
Qed.
Lemma wrun_inv l : winv (wrun l).
Proof.
  unfold wrun. assert (H : winv ({| leaves := []; fresh := 0 |}, [])) by (intros a []). revert H. generalize ({| leaves := []; fresh := 0 |}, @nil (option adapter)).
  induction l as [|c l IH]; intros x H; auto. cbn. apply IH. now apply wstep_inv.
Qed.
(** wrappers in turn *)
Fixpoint turns (n : nat) : list wcall :=
  match n with O => [] | S n => turns n ++ [WNometa (2 * n); WNosymmetry (2 * n + 1)] end.
Lemma turns_spec n : exists M h a, wrun (WEmpty :: turns n) = (M, h) /\ length h = (2 * n + 1)%nat /\ held h (2 * n) = Some a /\ depth a = (2 * n)%nat /\ ~ is_nometa a.
Proof.
  induction n as [|n (M & h & a & E & L & H & D & N)].
  - exists {| leaves := []; fresh := 0 |}, [Some AEmpty], AEmpty. repeat split; auto.
  - cbn [turns]. change (WEmpty :: turns n ++ [WNometa (2 * n); WNosymmetry (2 * n + 1)]) with ((WEmpty :: turns n) ++ [WNometa (2 * n); WNosymmetry (2 * n + 1)]).
    unfold wrun in *. rewrite fold_left_app, E. cbn [fold_left wstep]. rewrite H.
    destruct (newNoMeta M (Some a)) as [M1 b] eqn:EB.
    assert (Eb : nometa M (Some a) = (M1, b)) by (unfold nometa; destruct a; cbn in N; tauto || exact EB).
    rewrite Eb. assert (BD : depth b = (2 * n + 1)%nat /\ exists i, b = ANoMeta i (Some a)).
    { unfold newNoMeta in EB. destruct a; cbn in N; try tauto; injection EB as <- <-; cbn in *; split; try lia; eauto. }
    destruct BD as [BD (i & ->)]. cbn [wstep]. unfold held. rewrite app_nth2, L, Nat.sub_diag by lia. cbn [nth nosymmetry newNoSym].
    eexists _, _, _. split; [reflexivity|]. split; [rewrite !app_length; cbn; lia|]. split.
    + rewrite app_nth2 by (rewrite app_length; cbn; lia). rewrite app_length, L. cbn [length]. replace (2 * S n - (2 * n + 1 + 1))%nat with 0%nat by lia. reflexivity.
    + cbn [depth] in *. split; [lia|]. cbn. tauto.
Qed.
