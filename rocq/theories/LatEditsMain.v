(** What the loops show after changes of the lattice. *)
From Coq Require Import Reals Lra Lia List.
From Verif Require Import RBase R3 Trig Sphere SphereSpec SphereMain Lattice LatticeSpec LatticeProofs BondGen BondGenSpec BondGenProofs BondGenMain BondEditsProofs LatEdits LatEditsSpec LatEditsProofs.
Import ListNotations.
Open Scope R_scope.

Lemma lat_after_made ops : forall L, lattice_made L -> lats_made ops -> lattice_made (lat_after L ops).
Proof.
  unfold lats_made. induction ops as [|o ops IH]; intros L HL HO; [exact HL|]. inversion HO; subst. cbn [lat_after fold_left]. apply IH; [destruct o; auto|auto].
Qed.
Lemma chosen_made ops : forall X L c, lattice_made L -> match c with Some K => lattice_made K | None => True end -> lats_made ops -> lattice_made (chosen_with X L c ops).
Proof.
  unfold lats_made. induction ops as [|o ops IH]; intros X L c HL HC HO; cbn [chosen_with].
  - destruct c; auto.
  - inversion HO; subst. destruct o as [L1|o]; [apply IH; auto|]. apply IH; auto. destruct o; auto; try (destruct (Req_EM_T _ _); auto; fail).
    destruct c; auto.
Qed.
(** the translations that are visited *)
Lemma Ts_bound L sph g a b T : lattice_made L -> sphere_of L sph -> msphere g = Some (a, b) -> In T (Ts sph g) -> T = (0, 0, 0)%Z \/ vnorm (translation L T) < b.
Proof.
  intros HL SP E HT. destruct (made_built _ HL) as [C HB]. unfold Ts in HT. rewrite E in HT.
  assert (X : In T (sph a b) -> vnorm (translation L T) < b).
  { intros H. destruct (SP a b) as [f Hf]. rewrite (built_latpar _ _ HB) in Hf. pose proof (sphere_inside C (b_ok _ _ HB) _ _ _ _ _ Hf H) as D.
    rewrite (built_norm2 _ _ _ HB) in D. replace (translation L T) with (cartesian L (ivec T)); [exact D|].
    destruct T as [[m n] o]. unfold translation, ivec, cartesian. rewrite (b_va _ _ HB), (b_vb _ _ HB), (b_vc _ _ HB). vring. }
  destruct (sph a b) as [|t l]; [destruct HT as [<-|[]]; auto|]. right. now apply X.
Qed.
Lemma Ts_complete L sph g a b T : lattice_made L -> sphere_of L sph -> msphere g = Some (a, b) -> a <= vnorm (translation L T) < b -> In T (Ts sph g).
Proof.
  intros HL SP E H. destruct (made_built _ HL) as [C HB]. unfold Ts. rewrite E.
  assert (X : In T (sph a b)).
  { destruct (SP a b) as [f Hf]. rewrite (built_latpar _ _ HB) in Hf. eapply (sphere_complete C (b_ok _ _ HB)); [exact Hf|].
    rewrite (built_norm2 _ _ _ HB). replace (cartesian L (ivec T)) with (translation L T); [exact H|].
    destruct T as [[m n] o]. unfold translation, ivec, cartesian. rewrite (b_va _ _ HB), (b_vb _ _ HB), (b_vc _ _ HB). vring. }
  destruct (sph a b); [destruct X|exact X].
Qed.
Lemma Ts_nodup L sph g : lattice_made L -> sphere_of L sph -> NoDup (Ts sph g).
Proof.
  intros HL SP. destruct (made_built _ HL) as [C HB]. unfold Ts. assert (ONE : NoDup [(0, 0, 0)%Z]) by (constructor; [intros []|constructor]).
  destruct (msphere g) as [[a b]|]; [|exact ONE]. assert (N : NoDup (sph a b)).
  { destruct (SP a b) as [f Hf]. rewrite (built_latpar _ _ HB) in Hf. destruct (sphere_total C (b_ok _ _ HB) a b) as (l & [f0 Hl] & _ & HN).
    rewrite (points_det _ _ _ _ _ Hf). specialize (Hl f0 (le_n _)). now rewrite <- (points_det _ _ _ _ _ Hl). }
  destruct (sph a b); [exact ONE|exact N].
Qed.
Lemma crystal_images_nodup S sph g : NoDup (Ts sph g) -> NoDup (all_images GCrystal S sph g).
Proof.
  intros HT.
  assert (FM : forall (A D : Type) (h : A -> list D) l, NoDup l -> (forall a, In a l -> NoDup (h a)) ->
     (forall a b y, In y (h a) -> In y (h b) -> a = b) -> NoDup (flat_map h l)).
  { clear. intros A D h l HN Hh Hd. induction HN as [|a l Ha _ IH]; cbn; [constructor|]. apply NoDup_app_intro.
    - apply Hh. now left.
    - apply IH. intros; apply Hh; now right.
    - intros y H1 H2. apply in_flat_map in H2. destruct H2 as (b & Hb & H2). rewrite (Hd _ _ _ H1 H2) in Ha. auto. }
  unfold all_images. apply FM; [apply seq_NoDup| |].
  - intros k _. apply FM; [apply seq_NoDup| |].
    + intros s _. apply FinFun.Injective_map_NoDup; [|exact HT]. intros x y E. congruence.
    + intros s s' y H1 H2. apply in_map_iff in H1, H2. destruct H1 as (T & <- & _), H2 as (T' & E & _). congruence.
  - intros k k' y H1 H2. apply in_flat_map in H1, H2. destruct H1 as (s & _ & H1), H2 as (s' & _ & H2). apply in_map_iff in H1, H2.
    destruct H1 as (T & <- & _), H2 as (T' & E & _). congruence.
Qed.
Lemma in_crystal_images S sph g k s T : In (k, s, T) (all_images GCrystal S sph g) <-> image_ok GCrystal S (sel g) (k, s, T) /\ In T (Ts sph g).
Proof.
  unfold all_images, image_ok. rewrite in_flat_map. split.
  - intros (k' & Hk & H). apply in_flat_map in H. destruct H as (s' & Hs & H). apply in_map_iff in H. destruct H as (T' & E & HT). injection E as -> -> ->.
    apply in_seq in Hk, Hs. unfold equivalents. unfold symatoms in Hs. repeat split; [lia|lia|exact HT].
  - intros ((Hk & Hs) & HT). exists k. split; [apply in_seq; lia|]. apply in_flat_map. exists s. split; [apply in_seq; unfold equivalents in Hs; unfold symatoms; lia|].
    apply in_map_iff. eauto.
Qed.

Theorem crystal_lats made pts f ops L Lc g a : stru_ok GCrystal made -> (forall L, lattice_made L -> sphere_of L (pts L)) -> lats_made ops ->
  relatticed made pts f ops = LDone L Lc g ->
  let X := settings_of made (lcalls ops) in let K := chosen_with (settings0 made) (slat made) None ops in s_anchor X = Some a ->
  let S := with_lattice made L in let far T := vnorm (translation K T) in
  L = lat_after (slat made) ops /\ exists v, NoDup v /\
    (forall k s T, In (k, s, T) v -> image_ok GCrystal made (s_sites X) (k, s, T) /\
       in_range (s_rmin X) (s_rmax X) (image_distance GCrystal S a (s_sites X) (k, s, T)) /\ (T = (0, 0, 0)%Z \/ far T < s_rmax X + ucMaxDiagonalLength K)) /\
    (forall k s T, image_ok GCrystal made (s_sites X) (k, s, T) -> in_range (s_rmin X) (s_rmax X) (image_distance GCrystal S a (s_sites X) (k, s, T)) ->
       near K (s_rmin X) (s_rmax X) T -> In (k, s, T) v) /\
    exists f0, forall f', (f0 <= f')%nat -> lbonds made pts f' L Lc g = Some (map (bond_at GCrystal S a (s_sites X)) v).
Proof.
  intros OK SP HO H X K EA S far. destruct (OK) as (HL0 & HLen & HEq).
  destruct (lwinv_run made pts f ops _ _ _ _ _ _ _ _ (gen0_lwinv made (slat made) (slat made)) H) as (c' & W & EL & EK).
  split; [exact EL|]. change (fold_left set_step (lcalls ops) (settings0 made)) with X in W. fold K in EK.
  assert (ML : lattice_made L) by (rewrite EL; now apply lat_after_made).
  assert (MK : lattice_made K) by (apply chosen_made; auto).
  set (sl := sphere_lat L Lc g). assert (ESL : sl = K).
  { rewrite EK. unfold sl, sphere_lat. pose proof (l_sph _ _ _ _ _ _ W) as M. destruct (msphere g) as [[x y]|]; [destruct M as (-> & _); reflexivity|now rewrite M]. }
  pose proof (lwinv_sphered made L Lc c' g X W) as W'. fold sl in W'. rewrite ESL in W'. set (h := sphered GCrystal (lseen made L) g) in *.
  assert (HM : msphere h = Some (s_rmin X - ucMaxDiagonalLength K, s_rmax X + ucMaxDiagonalLength K)).
  { pose proof (l_sph _ _ _ _ _ _ W') as M. destruct (msphere h) as [[x y]|]; [|discriminate]. destruct M as (_ & -> & ->).
    now rewrite (l_rmin _ _ _ _ _ _ W'), (l_rmax _ _ _ _ _ _ W'). }
  destruct W' as [W1 W2 W3 W4 W5 _]. rewrite EA in W1. destruct W1 as (A1 & A2 & A3).
  assert (WK : stru_weak GCrystal S) by (split; [exact ML|]; split; [exact HLen|]; intros i Hi; apply (HEq i Hi)).
  assert (SPK := SP K MK).
  assert (VI : forall y, valid_i GCrystal S h y = valid_d (s_rmin X) (s_rmax X) (image_distance GCrystal S a (s_sites X) y)).
  { intros [[k s] T]. unfold valid_i, image_distance. rewrite A2, W2, W3, W4. reflexivity. }
  assert (HP : forall y, 0 <= image_distance GCrystal S a (s_sites X) y) by (intros [[k s] T]; apply vnorm_nonneg).
  exists (filter (valid_i GCrystal S h) (all_images GCrystal S (pts K) h)).
  assert (IO : forall y, image_ok GCrystal S (sel h) y <-> image_ok GCrystal made (s_sites X) y) by (intros [[k s] T]; rewrite W2; reflexivity).
  split; [apply NoDup_filter, crystal_images_nodup; eapply Ts_nodup; eauto|]. split; [|split].
  - intros k s T HI. apply filter_In in HI. destruct HI as [HI HV]. rewrite VI in HV. apply valid_d_spec in HV; auto.
    apply in_crystal_images in HI. destruct HI as [HI HT]. apply IO in HI. split; [exact HI|]. split; [exact HV|]. eapply Ts_bound; eauto.
  - intros k s T HI HV HN. apply filter_In. rewrite VI. split; [|now apply valid_d_spec]. apply in_crystal_images. split; [now apply IO|].
    eapply Ts_complete; eauto.
  - eexists. intros f' Hf. unfold lbonds. fold sl. rewrite ESL. change (lseen made L) with S.
    assert (WI : Forall (fun i => i < nsites S)%nat (sel g)) by exact (l_in _ _ _ _ _ _ W).
    rewrite (bonds_any GCrystal S (pts K) g WK WI f' Hf). change (sphered GCrystal S g) with h. f_equal. apply map_ext. intros [[k s] T]. unfold bnd, bond_at.
    rewrite A1, A2, W2. reflexivity.
Qed.

(** Nothing is missed when the translations are chosen for the lattice of now and its unit cell is not smaller than that of the time when the
    generator was made. *)
Theorem crystal_lats_complete made pts f ops L Lc g a : stru_ok GCrystal made -> (forall L, lattice_made L -> sphere_of L (pts L)) -> lats_made ops ->
  relatticed made pts f ops = LDone L Lc g ->
  let X := settings_of made (lcalls ops) in s_anchor X = Some a -> chosen_with (settings0 made) (slat made) None ops = L ->
  ucMaxDiagonalLength (slat made) <= ucMaxDiagonalLength L ->
  let S := with_lattice made L in exists v, NoDup v /\
    (forall y, In y v <-> image_ok GCrystal made (s_sites X) y /\ in_range (s_rmin X) (s_rmax X) (image_distance GCrystal S a (s_sites X) y)) /\
    exists f0, forall f', (f0 <= f')%nat -> lbonds made pts f' L Lc g = Some (map (bond_at GCrystal S a (s_sites X)) v).
Proof.
  intros OK SP HO H X EA EK HB S. destruct (crystal_lats made pts f ops L Lc g a OK SP HO H EA) as (_ & v & N & V1 & V2 & V3). fold X S in V1, V2, V3. rewrite EK in V1, V2.
  destruct (lwinv_run made pts f ops _ _ _ _ _ _ _ _ (gen0_lwinv made (slat made) (slat made)) H) as (c' & W & _).
  change (fold_left set_step (lcalls ops) (settings0 made)) with X in W.
  pose proof (l_anchor _ _ _ _ _ _ W) as W1. rewrite EA in W1. destruct W1 as (_ & _ & A3). pose proof (l_in _ _ _ _ _ _ W) as W5. rewrite (l_sel _ _ _ _ _ _ W) in W5.
  exists v. split; [exact N|]. split; [|exact V3]. intros [[k s] T]. split; [intros HI; destruct (V1 _ _ _ HI) as (H1 & H2 & _); auto|].
  intros (HI & HR). apply V2; auto. destruct (OK) as (HL0 & HLen & HEq). destruct HI as [Hk Hs]. set (i := nth k (s_sites X) O) in *.
  assert (Hi : (i < length (spos made))%nat) by (rewrite Forall_forall in W5; apply W5, nth_In; auto).
  assert (HD : vdist (home GCrystal made i s) (home GCrystal made a 0) < ucMaxDiagonalLength (slat made)).
  { apply (home_diff GCrystal made (ok_weak _ _ OK) OK); [discriminate|intros _; split; [exact Hi|exact Hs]|exact A3]. }
  unfold near. destruct HR as [HR _]. unfold image_distance in HR. fold i in HR. cbn [image_pos] in HR.
  pose proof (vdist_bound (translation L T) (home GCrystal made i s) (home GCrystal made a 0)) as HV.
  change (home GCrystal S) with (home GCrystal made) in HR. change (slat S) with L in HR.
  unfold Rabs in HV. destruct (Rcase_abs _) in HV; lra.
Qed.
