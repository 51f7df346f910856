(** C47: nometa() and nosymmetry(). *)
From Coq Require Import String Lia Lra.
From Verif Require Import RBase R3 Trig Sphere Lattice BondGen BondGenSpec Sums Wrappers WrappersSpec WrappersProofs.
Import ListNotations.
Open Scope R_scope.
Notation length := List.length.

(** Wrapping a pointer that is already wrapped returns the same object and allocates nothing. *)
Theorem C47_idempotent M p :
  (let (M1, a) := nometa M p in is_nometa a /\ nometa M1 (Some a) = (M1, a)) /\
  (let (M1, a) := nosymmetry M p in is_nosym a /\ nosymmetry M1 (Some a) = (M1, a)) /\
  (forall a, p = Some a -> is_nometa a -> nometa M p = (M, a)) /\
  (forall a, p = Some a -> is_nosym a -> nosymmetry M p = (M, a)).
Proof.
  split; [|split; [|split]].
  - destruct p as [[|q|i s|i s]|]; cbn; auto.
  - destruct p as [[|q|i s|i s]|]; cbn; auto.
  - intros a -> H. destruct a; cbn in *; tauto || auto.
  - intros a -> H. destruct a; cbn in *; tauto || auto.
Qed.
Print Assumptions C47_idempotent.

(** In any history of calls, default construction included, no wrapper wraps a wrapper of its own class. *)
Theorem C47_no_direct_nesting l k a b s :
  held (snd (wrun l)) k = Some a -> within a b -> source b = Some s ->
  (is_nometa b -> ~ is_nometa s) /\ (is_nosym b -> ~ is_nosym s).
Proof.
  intros H. pose proof (wrun_inv l) as W. destruct (wrun l) as [M h]. apply (held_inv M h k a W H).
Qed.
Print Assumptions C47_no_direct_nesting.

(** nometa(s) answers like s in any later memory, except for the configuration: it sets nothing in a calculator. *)
Theorem C47_nometa_view M s M' :
  let a := snd (nometa M (Some s)) in
  same_sites M' a M' s /\ same_symmetry M' a M' s /\ customPQConfig M' a = QOk [].
Proof.
  intros a. destruct (nometa_flags M s) as (E1 & E2 & E3). fold a in E1, E2, E3.
  assert (SS : same_sites M' a M' s) by now apply sites_base.
  assert (HM : forall i, siteMultiplicity M' a i = siteMultiplicity M' s i) by (intros; now rewrite !mul_base, E1, E3).
  split; [auto|]. split; [|now rewrite cfg_base, E2].
  split; [auto|]. split; [now apply total_ext|]. split; [now rewrite !den_base, E1, E3|].
  rewrite !gen_base, E1, E3. destruct (has_sym s); auto. now apply base_gen_ext.
Qed.
Print Assumptions C47_nometa_view.

(** nosymmetry(s) has the sites and the configuration of s, multiplicities 1, density 0, the sum of the occupancies
    as its total, and a bond generator over isolated atoms at the sites of s. *)
Theorem C47_nosymmetry_view M s M' :
  let a := snd (nosymmetry M (Some s)) in
  same_sites M' a M' s /\ customPQConfig M' a = customPQConfig M' s /\
  (forall i, siteMultiplicity M' a i = QOk 1%nat) /\ numberDensity M' a = QOk 0 /\
  (usable M' s -> exists n o, countSites M' s = QOk n /\ (forall i, (i < n)%nat -> siteOccupancy M' s i = QOk (o i)) /\
                              totalOccupancy M' a = QOk (sumf o (seq 0 n))) /\
  (usable M' s -> exists g, createBondGenerator M' a = QOk g /\ isolated M' s g).
Proof.
  intros a. destruct (nosym_flags M s) as (E1 & E2 & E3). fold a in E1, E2, E3.
  assert (SS : same_sites M' a M' s) by now apply sites_base.
  assert (HM : forall i, siteMultiplicity M' a i = QOk 1%nat) by (intros; now rewrite !mul_base, E3).
  split; [auto|]. split; [now rewrite !cfg_base, E1, E2|]. split; [auto|]. split; [now rewrite den_base, E3|]. split.
  - intros (n & EN). pose proof (usable_sites M' s n EN) as US.
    exists n, (fun i => match siteOccupancy M' s i with QOk o => o | _ => 0 end).
    assert (HO : forall i, (i < n)%nat -> siteOccupancy M' s i = QOk (match siteOccupancy M' s i with QOk o => o | _ => 0 end)).
    { intros i Hi. destruct (US i Hi) as (_ & _ & o & ->). reflexivity. }
    split; [auto|]. split; [auto|]. destruct SS as (EC & HS). apply total_ones; [congruence| |auto].
    intros i Hi. destruct (HS i) as (_ & _ & E & _). rewrite E. now apply HO.
  - intros (n & EN). rewrite gen_base, E3. rewrite (base_gen_ext M' a M' s SS). apply isolated_gen with n; auto.
    intros i Hi. destruct (usable_sites M' s n EN i Hi) as (H1 & H2 & _). auto.
Qed.
Print Assumptions C47_nosymmetry_view.

(** A null pointer given to the constructors, or a default-constructed wrapper of the same class, stands for the
    empty structure. *)
Theorem C47_null_is_empty M M' p q : (p = None \/ exists i, p = Some (ANoMeta i None)) -> (q = None \/ exists i, q = Some (ANoSym i None)) ->
  same_all M' (snd (newNoMeta M p)) M' AEmpty /\
  (let b := snd (newNoSym M q) in
   same_sites M' b M' AEmpty /\ totalOccupancy M' b = QOk 0 /\ numberDensity M' b = QOk 0 /\ customPQConfig M' b = QOk [] /\
   createBondGenerator M' b = createBondGenerator M' AEmpty) /\ countSites M' AEmpty = QOk O.
Proof.
  intros HP HQ. split; [|split; [|reflexivity]].
  - destruct HP as [->|[i ->]]; unfold same_all, same_sites, same_symmetry; cbn; repeat (split; auto).
  - destruct HQ as [->|[i ->]]; cbn; unfold same_sites, totalOccupancy, base_generator; cbn; repeat (split; auto).
Qed.
Print Assumptions C47_null_is_empty.

(** Queries per site: around the empty structure every one throws out_of_range, except the multiplicity of a nosymmetry
    view; around a concrete adapter they answer with the atom of that index; an index out of range is undefined there. *)
Theorem C47_site_queries M a i :
  (within a AEmpty ->
     countSites M a = QOk O /\ totalOccupancy M a = QOk 0 /\ numberDensity M a = QOk 0 /\ customPQConfig M a = QOk [] /\
     siteAtomType M a i = QThrow /\ siteCartesianPosition M a i = QThrow /\ siteOccupancy M a i = QThrow /\
     siteAnisotropy M a i = QThrow /\ siteCartesianUij M a i = QThrow /\
     ((exists b, within a b /\ is_nosym b) -> siteMultiplicity M a i = QOk 1%nat) /\
     ((forall b, within a b -> ~ is_nosym b) -> siteMultiplicity M a i = QThrow)) /\
  (forall p lf, within a (ALeaf p) -> nth_error (leaves M) p = Some lf ->
     countSites M a = QOk (length (lf_sites lf)) /\
     match nth_error (lf_sites lf) i with
     | Some w =>
         siteAtomType M a i = QOk (w_type w) /\ siteCartesianPosition M a i = QOk (w_pos w) /\ siteOccupancy M a i = QOk (w_occ w) /\
         siteAnisotropy M a i = QOk (w_anis w) /\ siteCartesianUij M a i = QOk (w_uij w) /\
         ((forall b, within a b -> ~ is_nosym b) -> siteMultiplicity M a i = QOk (w_mult w))
     | None => siteAtomType M a i = QUndef /\ siteCartesianPosition M a i = QUndef /\ siteOccupancy M a i = QUndef /\
               siteAnisotropy M a i = QUndef /\ siteCartesianUij M a i = QUndef
     end).
Proof.
  assert (HB : forall b c, within b c -> base_of c = Some c -> base_of b = Some c).
  { intros b c W. induction W; auto. intros E. specialize (IHW E). destruct a0 as [| |j [t|]|j [t|]]; cbn in *; try discriminate; injection H as ->; auto. }
  assert (HY : forall b, (exists c, within b c /\ is_nosym c) -> base_of b <> None -> has_sym b = true).
  { intros b (c & W & Hc) _. induction W.
    - destruct a0; cbn in *; easy.
    - specialize (IHW Hc). destruct a0 as [| |j [t|]|j [t|]]; cbn in *; try discriminate; injection H as ->; auto. }
  assert (HN : forall b, (forall c, within b c -> ~ is_nosym c) -> has_sym b = false).
  { intros b. induction b using adapter_ind'; cbn; auto.
    - intros H. apply IHb. intros c Hc. apply H. eapply within_src; [reflexivity|auto].
    - intros H. exfalso. apply (H (ANoSym i0 None)); [constructor|exact I].
    - intros H. exfalso. apply (H (ANoSym i0 (Some b))); [constructor|exact I]. }
  split.
  - intros W. pose proof (HB _ _ W eq_refl) as E.
    rewrite typ_base, pos_base, occ_base, ani_base, uij_base, mul_base, den_base, cfg_base, E. cbn [thr numberDensity customPQConfig].
    assert (E0 : countSites M a = QOk O) by (rewrite cnt_base, E; reflexivity).
    split; [exact E0|]. split; [unfold totalOccupancy; rewrite E0; reflexivity|].
    split; [destruct (has_sym a); reflexivity|]. split; [destruct (has_meta a); reflexivity|].
    repeat (split; [reflexivity|]). split.
    + intros H. rewrite (HY a H); [reflexivity|congruence].
    + intros H. rewrite (HN a H). reflexivity.
  - intros p lf W Hl. pose proof (HB _ _ W eq_refl) as E.
    rewrite typ_base, pos_base, occ_base, ani_base, uij_base, mul_base, E, cnt_base, E.
    cbn [thr countSites siteAtomType siteCartesianPosition siteOccupancy siteAnisotropy siteCartesianUij siteMultiplicity].
    unfold leaf_get, leaf_site, deref. rewrite Hl. split; [reflexivity|].
    destruct (nth_error (lf_sites lf) i) as [w|]; repeat (split; [reflexivity|]); [|reflexivity].
    intros H. rewrite (HN a H). reflexivity.
Qed.
Print Assumptions C47_site_queries.

(** The order of the two wrappers does not matter, and any tower of wrappers answers like one of at most two. *)
Theorem C47_order_irrelevant M1 M2 M3 M4 s M :
  same_all M (snd (nometa M1 (Some (snd (nosymmetry M2 (Some s)))))) M (snd (nosymmetry M3 (Some (snd (nometa M4 (Some s)))))).
Proof.
  destruct (nosym_flags M2 s) as (A1 & A2 & A3). destruct (nometa_flags M1 (snd (nosymmetry M2 (Some s)))) as (B1 & B2 & B3).
  destruct (nometa_flags M4 s) as (C1 & C2 & C3). destruct (nosym_flags M3 (snd (nometa M4 (Some s)))) as (D1 & D2 & D3).
  apply all_base; congruence.
Qed.
Print Assumptions C47_order_irrelevant.
Definition is_meta_b (a : adapter) : bool := match a with ANoMeta _ _ => true | _ => false end.
Theorem C47_towers_collapse a : exists b, (depth b <= 2)%nat /\ (exists c, within a c /\ within b c /\ source c = None) /\ forall M, same_all M a M b.
Proof.
  pose proof (base_cases a) as BC.
  assert (X : exists c, within a c /\ source c = None /\ (base_of a = base_of c) /\ (match base_of a with Some c' => c = c' | None => depth c = 1%nat /\ has_meta c = is_meta_b c /\ has_sym c = negb (is_meta_b c) end)).
  { clear BC. induction a using adapter_ind'; cbn.
    - exists AEmpty. repeat split; constructor.
    - exists (ALeaf p). repeat split; constructor.
    - exists (ANoMeta i None). repeat split; constructor.
    - destruct IHa as (c & H1 & H2 & H3 & H4). exists c. split; [econstructor 2; [reflexivity|auto]|auto].
    - exists (ANoSym i None). repeat split; constructor.
    - destruct IHa as (c & H1 & H2 & H3 & H4). exists c. split; [econstructor 2; [reflexivity|auto]|auto]. }
  destruct X as (c & W & SC & EB & HC).
  assert (FL : has_meta c = true -> has_meta a = true). { clear -W. intros H. induction W; auto. destruct a as [| |i [t|]|i [t|]]; cbn in *; try discriminate; auto. injection H0 as ->. auto. }
  assert (FS : has_sym c = true -> has_sym a = true). { clear -W. intros H. induction W; auto. destruct a as [| |i [t|]|i [t|]]; cbn in *; try discriminate; auto. injection H0 as ->. auto. }
  set (c1 := if has_meta a then (if has_meta c then c else ANoMeta 0 (Some c)) else c).
  set (c2 := if has_sym a then (if has_sym c then c1 else ANoSym 0 (Some c1)) else c1).
  assert (D : (depth c2 <= 2)%nat).
  { subst c1 c2. destruct (base_of a) as [c'|] eqn:E.
    - subst c'. destruct c as [| |i s|i s]; try destruct BC; destruct (has_meta a), (has_sym a); cbn; lia.
    - destruct HC as (HD & HM & HS). rewrite HM, HS. destruct (is_meta_b c), (has_meta a), (has_sym a); cbn; lia. }
  exists c2. split; [exact D|]. split.
  - exists c. split; [auto|]. split; [|auto]. subst c1 c2. destruct (has_meta a), (has_meta c), (has_sym a), (has_sym c); repeat (first [apply within_refl|eapply within_src; [reflexivity|]]).
  - intros M. apply all_base; subst c1 c2.
    + rewrite EB. destruct (has_meta a), (has_meta c), (has_sym a), (has_sym c); reflexivity.
    + destruct (has_meta c) eqn:E1, (has_sym c) eqn:E2, (has_meta a) eqn:E3, (has_sym a) eqn:E4; cbn; rewrite ?E1; auto; discriminate FL || discriminate FS || (exfalso; discriminate (FL eq_refl)) || (exfalso; discriminate (FS eq_refl)).
    + destruct (has_meta c) eqn:E1, (has_sym c) eqn:E2, (has_meta a) eqn:E3, (has_sym a) eqn:E4; cbn; rewrite ?E2; auto; (exfalso; discriminate (FL eq_refl)) || (exfalso; discriminate (FS eq_refl)).
Qed.
Print Assumptions C47_towers_collapse.

(** A clone of a pointer held in any history answers the same and stays so whatever happens to the adapters that
    existed before; changing the clone's own adapter changes no answer of an older pointer. *)
Theorem C47_clone l k a : held (snd (wrun l)) k = Some a ->
  let M := fst (wrun l) in let n := length (leaves M) in let (M', b) := clone M a in
  same_all M' b M a /\
  (forall p x, (p < n)%nat -> same_all (change M' p x) b M a) /\
  (forall p x j c, held (snd (wrun l)) j = Some c -> (n <= p)%nat -> same_all (change M' p x) c M c).
Proof.
  intros H M n. pose proof (wrun_inv l) as W. unfold M, n. destruct (wrun l) as [M0 h]. cbn [fst snd] in *.
  pose proof (clone_spec M0 a (proj2 (held_inv M0 h k a W H))) as S. destruct (clone M0 a) as [M' b]. destruct S as (S1 & S2 & S3 & _).
  split; [auto|]. split; [auto|]. intros p x j c Hj. apply S3. eapply held_inv; eauto.
Qed.
Print Assumptions C47_clone.
(** The clone of a wrapper wraps a clone: it shares no concrete adapter with the original. *)
Theorem C47_clone_unshared l k a q : held (snd (wrun l)) k = Some a ->
  within (snd (clone (fst (wrun l)) a)) (ALeaf q) -> ~ within a (ALeaf q).
Proof.
  intros H. pose proof (wrun_inv l) as W. destruct (wrun l) as [M h]. cbn [fst snd] in *.
  pose proof (proj2 (held_inv M h k a W H)) as IM. pose proof (clone_mem a M IM) as C. destruct (clone M a) as [M' b]. destruct C as (_ & _ & _ & C).
  assert (WB : forall c q, within c (ALeaf q) -> base_of c = Some (ALeaf q)).
  { clear. intros c q Hc. remember (ALeaf q) as x eqn:E. revert E. induction Hc; intros ->; auto. specialize (IHHc eq_refl). destruct a as [| |i [t|]|i [t|]]; cbn in *; try discriminate; injection H as ->; auto. }
  intros H1 H2. apply WB in H1. apply WB in H2. cbn [snd] in H1. rewrite H2 in C. destruct C as (lf & E1 & E2 & _). rewrite H1 in E2. injection E2 as ->.
  assert (nth_error (leaves M) (length (leaves M)) = None) by (apply nth_error_None; lia). congruence.
Qed.
Print Assumptions C47_clone_unshared.

(** The wrappers do nest when applied in turn: after n rounds the held pointer is 2n wrappers deep. *)
Theorem C47_bounded_depth_refuted n : exists l k a, held (snd (wrun l)) k = Some a /\ depth a = (2 * n)%nat.
Proof. destruct (turns_spec n) as (M & h & a & E & _ & H & D & _). exists (WEmpty :: turns n), (2 * n)%nat, a. rewrite E. auto. Qed.
Print Assumptions C47_bounded_depth_refuted.
(** The public default constructors leave a null source that every query dereferences. *)
Theorem C47_default_constructed_refuted : exists l a, held (snd (wrun l)) 0 = Some a /\ countSites (fst (wrun l)) a = QUndef.
Proof. exists [WDefault true], (ANoMeta 0 None). auto. Qed.
Print Assumptions C47_default_constructed_refuted.

(** A crystal-like adapter with two sites, one of multiplicity 4: wrapped both ways, then changed in place. *)
Definition ex_leaf (o : R) : leaf :=
  {| lf_sites := [{| w_type := "Na"; w_pos := vzero; w_mult := 4; w_occ := o; w_anis := false; w_uij := mid |};
                  {| w_type := "Cl"; w_pos := {| vx := 1; vy := 2; vz := 3 |}; w_mult := 1; w_occ := 1; w_anis := true; w_uij := mid |}];
     lf_density := 7; lf_config := [("qmax"%string, 20)]; lf_class := GPeriodic; lf_lat := lattice0; lf_sym := [] |}.
Definition ex_calls : list wcall := [WMake (ex_leaf (1/2)); WNometa 0; WNosymmetry 0; WNosymmetry 1; WClone 3; WChange 0 (ex_leaf (1/4))].
Example C47_nonvacuous :
  let (M, h) := wrun ex_calls in
  exists m s ms c, held h 1 = Some m /\ held h 2 = Some s /\ held h 3 = Some ms /\ held h 4 = Some c /\
  usable M ms /\ customPQConfig M m = QOk [] /\ customPQConfig M s = QOk [("qmax"%string, 20)] /\ customPQConfig M ms = QOk [] /\
  siteMultiplicity M m 0 = QOk 4%nat /\ siteMultiplicity M ms 0 = QOk 1%nat /\ siteAtomType M ms 1 = QOk "Cl"%string /\
  numberDensity M m = QOk 7 /\ numberDensity M s = QOk 0 /\ siteOccupancy M ms 0 = QOk (1/4) /\ siteOccupancy M c 0 = QOk (1/2).
Proof.
  cbn. eexists _, _, _, _. repeat (split; [reflexivity|]). split; [exists 2%nat; reflexivity|]. repeat (split; [reflexivity|]). reflexivity.
Qed.
