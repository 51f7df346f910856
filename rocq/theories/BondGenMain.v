(** Proofs for BondGen.v: histories of calls, the set of visited images. *)
From Verif Require Import RBase R3 Trig TrigProofs Sphere SphereSpec SphereProofs SphereGeom SphereMain Lattice LatticeSpec LatticeProofs BondGen BondGenSpec BondGenProofs.
Open Scope R_scope.

Lemma NoDup_app_intro {A} (l r : list A) : NoDup l -> NoDup r -> (forall y, In y l -> In y r -> False) -> NoDup (l ++ r).
Proof.
  induction l as [|a l IH]; cbn; auto. intros HN HR HD. inversion HN as [|? ? Ha HN' E]; subst. constructor.
  - rewrite in_app_iff. intros [H|H]; [auto|eapply HD; eauto].
  - apply IH; auto. intros y H1 H2. eapply HD; eauto.
Qed.

(** [stru_ok] without the requirement that equivalent positions are in the first unit cell *)
Definition stru_weak (cls : gclass) (S : stru) : Prop :=
  match cls with
  | GAtomic => True
  | GPeriodic => lattice_made (slat S)
  | GCrystal => lattice_made (slat S) /\ length (ssym S) = length (spos S) /\ forall i, (i < length (spos S))%nat -> equivalents S i <> []
  end.
Lemma ok_weak cls S : stru_ok cls S -> stru_weak cls S.
Proof. destruct cls; cbn; auto. intros (H1 & H2 & H3). split; [auto|]. split; [auto|]. intros i Hi. apply (H3 i Hi). Qed.

Section Main.
  Context (cls : gclass) (S : stru) (sph : R -> R -> list (Z * Z * Z)).
  Context (OK : stru_weak cls S).
  Context (SP : sphere_of (slat S) sph).
  Let HC : match cls with GAtomic => True | _ => exists C, built (slat S) C end.
  Proof. unfold stru_weak in OK. destruct cls; auto; [now apply made_built|]. destruct OK as [H _]. now apply made_built. Qed.
  Let HS : cls = GCrystal -> forall i, (i < nsites S)%nat -> symatoms S i <> [].
  Proof. intros E i Hi. unfold stru_weak in OK. rewrite E in OK. destruct OK as (_ & _ & H). now apply H. Qed.
  Notation B := (ucMaxDiagonalLength (slat S)).

  Record inv (g : gen) (x : settings) : Prop := {
    i_anchor : match s_anchor x with Some a => (a < nsites S)%nat /\ anchor g = a /\ r0 g = home cls S a 0 | None => anchor g = O /\ r0 g = vzero end;
    i_sel : sel g = s_sites x; i_rmin : rmin g = s_rmin x; i_rmax : rmax g = s_rmax x;
    i_in : Forall (fun i => i < nsites S)%nat (sel g);
    i_sph : match msphere g with Some (a, b) => a = rmin g - B /\ b = rmax g + B | None => True end;
    i_at : exists l, at_ cls S sph g l
  }.
  Lemma at_fin g : finished g = true -> at_ cls S sph g [].
  Proof. left; auto. Qed.
  Lemma setfin g : finished (setFinishedFlag g) = true.
  Proof. apply fin_true. cbn. lia. Qed.
  Lemma home_anchor a : home cls S a 0 = match cls with GAtomic => pos S a | GPeriodic => posuc S a | GCrystal => fst (nth 0 (symatoms S a) (vzero, mid)) end.
  Proof. unfold home. destruct cls; reflexivity. Qed.
  Lemma with_lim_id g : with_lim g (rmin g) (rmax g) = g. Proof. now destruct g. Qed.

  Lemma gen0_inv : inv (gen0 S) (settings0 S).
  Proof.
    constructor; cbn; auto.
    - apply Forall_forall. intros i Hi. apply in_seq in Hi. lia.
    - exists []. apply at_fin, fin_true. cbn. rewrite seq_length. reflexivity.
  Qed.

  Lemma cfg_inv g g' x l : inv g x -> cfg g' = cfg g -> at_ cls S sph g' l -> inv g' x.
  Proof.
    intros [] H HA. unfold cfg in H. injection H as E1 E2 E3 E4 E5 E6. constructor; rewrite ?E1, ?E2, ?E3, ?E4, ?E5, ?E6; auto. eauto.
  Qed.

  Definition sphered (g : gen) : gen :=
    match cls with
    | GAtomic => g
    | _ => match msphere g with Some _ => g | None => with_msphere g (Some (rmin g - B, rmax g + B)) end
    end.
  Lemma rewind_eq f g : rewind cls S sph f g = base_rewind cls S sph f (sphered g).
  Proof. unfold rewind, sphered. now destruct cls. Qed.
  Lemma sphered_cfg g x : inv g x -> (cls <> GAtomic -> msphere (sphered g) = Some (rmin g - B, rmax g + B)) /\
    (anchor (sphered g), sel (sphered g), rmin (sphered g), rmax (sphered g), r0 (sphered g)) = (anchor g, sel g, rmin g, rmax g, r0 g).
  Proof.
    intros I. pose proof (i_sph _ _ I) as HM. unfold sphered. clear HC HS OK I.
    destruct cls; [split; [congruence|reflexivity]| |]; (destruct (msphere g) as [[a b]|] eqn:E; [destruct HM as [-> ->]; auto|split; reflexivity]).
  Qed.

  Lemma base_rewind_spec g : (cls <> GAtomic -> msphere g <> None) -> Forall (fun i => i < nsites S)%nat (sel g) ->
    forall f, (length (all_images cls S sph g) < f)%nat ->
    exists g', base_rewind cls S sph f g = Some g' /\ cfg g' = cfg g /\ at_ cls S sph g' (dropw (valid_i cls S g) (all_images cls S sph g)).
  Proof.
    intros HM HA f Hf. destruct (rewind_start cls S sph HC HS g HM HA) as [H1 H2]. unfold base_rewind. cbv zeta in *.
    destruct (finished (with_cur g 0)) eqn:EF.
    - exists (with_cur g 0). split; auto. split; [reflexivity|]. destruct H2 as [[E _]|[HL _]].
      + rewrite E. left; auto.
      + destruct HL as [HL _]. congruence.
    - destruct (advance_spec cls S sph HC HS _ _ H2 f Hf) as (g' & E1 & E2 & E3).
      exists g'. split; auto. split; [congruence|]. rewrite (dropw_ext _ _ _ (valid_cfg cls S _ _ H1)) in E3. exact E3.
  Qed.

  (** the loop after any state *)
  Lemma bonds_spec g x : inv g x -> forall f, (length (all_images cls S sph (sphered g)) < f)%nat ->
    bonds cls S sph f g = Some (map (bnd cls S (sphered g)) (filter (valid_i cls S (sphered g)) (all_images cls S sph (sphered g)))).
  Proof.
    intros I f Hf. destruct (sphered_cfg g x I) as [HM HE]. injection HE as E1 E2 E3 E4 E5.
    unfold bonds. rewrite rewind_eq.
    destruct (base_rewind_spec (sphered g)) with (f := f) as (g' & H1 & H2 & H3); auto.
    { intros Hc. rewrite (HM Hc). discriminate. }
    { rewrite E2. apply (i_in _ _ I). }
    rewrite H1. rewrite <- (dropw_ext _ _ _ (valid_cfg cls S _ _ H2)) in H3.
    rewrite (collect_spec cls S sph HC HS _ _ _ (le_n _) H3 f Hf). f_equal.
    rewrite (filter_ext _ _ (valid_cfg cls S _ _ H2)). apply map_ext, bnd_cfg; auto.
  Qed.

  (** every call keeps the invariant and ends *)
  Lemma gstep_inv g x o : inv g x -> exists f0, forall f, (f0 <= f)%nat ->
    gstep cls S sph f g o = BUndef \/ exists g', gstep cls S sph f g o = BDone g' /\ inv g' (set_step x o).
  Proof.
    intros I. destruct o; cbn [gstep].
    - exists O. intros f _. destruct (Nat.ltb_spec a (nsites S)); [right|now left]. eexists; split; [reflexivity|].
      destruct I. constructor; cbn -[home]; auto. 
       { exists []. apply at_fin, setfin. }
    - exists O. intros f _. destruct (forallb _ l) eqn:E; [right|now left]. eexists; split; [reflexivity|].
      destruct I. constructor; cbn; auto. { rewrite forallb_forall in E. apply Forall_forall. intros i Hi. apply Nat.ltb_lt. auto. } { exists []. apply at_fin, setfin. }
    - exists O. intros f _. destruct (Nat.leb_spec last (nsites S)); [right|now left]. eexists; split; [reflexivity|].
      destruct I. constructor; cbn; auto. { apply Forall_forall. intros i Hi. apply in_seq in Hi. lia. } { exists []. apply at_fin, setfin. }
    - exists O. intros f _. right. eexists; split; [reflexivity|]. unfold setRmin. destruct (Reqb (rmin g) x0) eqn:E.
      + apply Reqb_true in E. subst x0. rewrite with_lim_id. destruct I. constructor; auto.
      + destruct I. constructor; cbn; auto. exists []. apply at_fin, fin_true. cbn. lia.
    - exists O. intros f _. right. eexists; split; [reflexivity|]. unfold setRmax. destruct (Reqb (rmax g) x0) eqn:E.
      + apply Reqb_true in E. subst x0. rewrite with_lim_id. destruct I. constructor; auto.
      + destruct I. constructor; cbn; auto. exists []. apply at_fin, fin_true. cbn. lia.
    - exists (Datatypes.S (length (all_images cls S sph (sphered g)))). intros f Hf. right. rewrite rewind_eq.
      destruct (sphered_cfg g x I) as [HM HE]. injection HE as E1 E2 E3 E4 E5.
      destruct (base_rewind_spec (sphered g)) with (f := f) as (g' & H1 & H2 & H3); auto.
      { intros Hc. rewrite (HM Hc). discriminate. }
      { rewrite E2. apply (i_in _ _ I). }
      rewrite H1. exists g'. split; [reflexivity|]. unfold cfg in H2. injection H2 as F1 F2 F3 F4 F5 F6.
      pose proof (i_sph _ _ I) as HI. destruct I. cbn [set_step].
      constructor; rewrite ?F1, ?F2, ?F3, ?F4, ?F5, ?F6, ?E1, ?E2, ?E3, ?E4, ?E5; auto; [|eauto].
      destruct (msphere (sphered g)) as [[a b]|] eqn:EM; auto.
      assert (HD : cls = GAtomic \/ cls <> GAtomic) by (clear; destruct cls; auto; right; discriminate).
      destruct HD as [HD|HD]; [|specialize (HM HD); injection HM as -> ->; auto].
      unfold sphered in EM. rewrite HD in EM. rewrite EM in HI. exact HI.
    - destruct (finished g) eqn:EF; [exists O; intros; now left|]. destruct (i_at _ _ I) as [l [[_ HF]|[HL HR]]]; [congruence|].
      destruct (rem_now cls S sph HC HS g HL) as [r E]. exists (Datatypes.S (length r)). intros f Hf. right.
      destruct (next_leads cls S sph HC HS g r HL E) as [H1 H2].
      destruct (advance_spec cls S sph HC HS _ _ H2 f Hf) as (g' & E1 & E2 & E3). unfold next. rewrite E1.
      exists g'. split; [reflexivity|]. eapply cfg_inv; eauto. congruence.
  Qed.

  (** a step that ends with less fuel ends in the same state with more *)
  Lemma advance_mono f : forall f' g g', (f <= f')%nat -> advance cls S sph f g = Some g' -> advance cls S sph f' g = Some g'.
  Proof.
    induction f as [|f IH]; intros f' g g' Hf H; [discriminate|]. destruct f' as [|f']; [lia|]. cbn [advance] in *.
    destruct (negb _ && _); auto. apply IH; [lia|auto].
  Qed.
  Lemma gstep_mono f f' g o r : (f <= f')%nat -> gstep cls S sph f g o = r -> r <> BFuel -> gstep cls S sph f' g o = r.
  Proof.
    intros Hf H HN. destruct o; cbn [gstep] in *; auto.
    - rewrite rewind_eq in *. unfold base_rewind in *. destruct (finished (with_cur (sphered g) 0)); auto.
      destruct (advance cls S sph f _) eqn:E; cbn in H; [|congruence]. now rewrite (advance_mono _ _ _ _ Hf E).
    - destruct (finished g); auto. unfold next in *. destruct (advance cls S sph f _) eqn:E; cbn in H; [|congruence].
      now rewrite (advance_mono _ _ _ _ Hf E).
  Qed.
  Lemma grun_inv ops : forall g x, inv g x -> exists f0, exists r, r <> BFuel /\
    (forall f, (f0 <= f)%nat -> grun cls S sph f g ops = r) /\ (forall g', r = BDone g' -> inv g' (fold_left set_step ops x)).
  Proof.
    induction ops as [|o ops IH]; intros g x I; cbn [grun fold_left].
    - exists O, (BDone g). split; [discriminate|]. split; [auto|]. intros g' E. injection E as <-. auto.
    - destruct (gstep_inv g x o I) as [f0 H0]. destruct (H0 f0 (le_n _)) as [HU|(g' & HD & I')].
      + exists f0, BUndef. split; [discriminate|]. split; [|discriminate]. intros f Hf. now rewrite (gstep_mono _ _ _ _ _ Hf HU ltac:(discriminate)).
      + destruct (IH g' _ I') as (f1 & r & HN & HR & HI). exists (Nat.max f0 f1), r. split; auto. split; [|exact HI].
        intros f Hf. rewrite (gstep_mono f0 f _ _ _ ltac:(lia) HD ltac:(discriminate)). apply HR. lia.
  Qed.
  Lemma grun_any f ops : forall g x g', inv g x -> grun cls S sph f g ops = BDone g' -> inv g' (fold_left set_step ops x).
  Proof.
    induction ops as [|o ops IH]; intros g x g' I; cbn [grun fold_left].
    - intros E. injection E as <-. auto.
    - destruct (gstep cls S sph f g o) as [g1| |] eqn:E; try discriminate. intros H.
      destruct (gstep_inv g x o I) as [f0 H0]. specialize (H0 (Nat.max f f0) ltac:(lia)).
      rewrite (gstep_mono f (Nat.max f f0) _ _ _ ltac:(lia) E ltac:(discriminate)) in H0.
      destruct H0 as [?|(g2 & Hd & I2)]; [discriminate|]. injection Hd as <-. eauto.
  Qed.

  (** *** which images *)
  Lemma sph_nodup a b : cls <> GAtomic -> NoDup (sph a b).
  Proof.
    intros Hc. assert (HB : exists C, built (slat S) C) by (destruct cls; tauto). destruct HB as [C HB].
    destruct (SP a b) as [f Hf]. rewrite (built_latpar _ _ HB) in Hf.
    destruct (sphere_total C (b_ok _ _ HB) a b) as (l & [f0 Hl] & _ & HN).
    rewrite (points_det _ _ _ _ _ Hf). specialize (Hl f0 (le_n _)). now rewrite <- (points_det _ _ _ _ _ Hl).
  Qed.
  Lemma sph_complete a b T : cls <> GAtomic -> a <= vnorm (translation (slat S) T) < b -> In T (sph a b).
  Proof.
    intros Hc H. assert (HB : exists C, built (slat S) C) by (destruct cls; tauto). destruct HB as [C HB].
    destruct (SP a b) as [f Hf]. rewrite (built_latpar _ _ HB) in Hf.
    eapply (sphere_complete C (b_ok _ _ HB)); eauto. now rewrite (built_norm2 _ _ _ HB), (cart_translation cls S HC HS).
  Qed.
  Lemma all_images_ok g x : inv g x -> forall y, In y (all_images cls S sph (sphered g)) -> image_ok cls S (sel g) y.
  Proof.
    intros I [[k s] T] Hy. destruct (sphered_cfg g x I) as [_ HE]. injection HE as _ E2 _ _ _. unfold all_images in Hy. rewrite E2 in Hy. unfold image_ok.
    revert Hy. clear. destruct cls; intros Hy.
    - apply in_map_iff in Hy. destruct Hy as (k' & E & Hk). injection E as <- <- <-. apply in_seq in Hk. repeat split; lia.
    - apply in_flat_map in Hy. destruct Hy as (T' & HT & Hy). apply in_map_iff in Hy. destruct Hy as (k' & E & Hk). injection E as <- <- <-. apply in_seq in Hk. split; lia.
    - apply in_flat_map in Hy. destruct Hy as (k' & Hk & Hy). apply in_flat_map in Hy. destruct Hy as (s' & Hs & Hy). apply in_map_iff in Hy.
      destruct Hy as (T' & E & HT). injection E as <- <- <-. apply in_seq in Hk, Hs. unfold equivalents. unfold symatoms in Hs. split; lia.
  Qed.
  Lemma all_images_nodup g x : inv g x -> NoDup (all_images cls S sph (sphered g)).
  Proof.
    intros I. destruct (sphered_cfg g x I) as [HM _].
    assert (HT : cls <> GAtomic -> NoDup (Ts sph (sphered g))).
    { intros Hc. unfold Ts. rewrite (HM Hc). pose proof (sph_nodup (rmin g - B) (rmax g + B) Hc). destruct (sph _ _); auto. constructor; [intros []|constructor]. }
    assert (FM : forall (A D : Type) (h : A -> list D) l, NoDup l -> (forall a, In a l -> NoDup (h a)) ->
       (forall a b y, In y (h a) -> In y (h b) -> a = b) -> NoDup (flat_map h l)).
    { clear. intros A D h l HN Hh Hd. induction HN as [|a l Ha _ IH]; cbn; [constructor|]. apply NoDup_app_intro.
      - apply Hh. now left.
      - apply IH. intros; apply Hh; now right.
      - intros y H1 H2. apply in_flat_map in H2. destruct H2 as (b & Hb & H2). rewrite (Hd _ _ _ H1 H2) in Ha. auto. }
    assert (MP : forall (A D : Type) (h : A -> D) l, NoDup l -> (forall a b, h a = h b -> a = b) -> NoDup (map h l)).
    { clear. intros A D h l HN Hi. apply FinFun.Injective_map_NoDup; auto. }
    unfold all_images. clear HC HS OK I HM. destruct cls.
    - apply MP; [apply seq_NoDup|]. intros; congruence.
    - apply FM; [apply HT; discriminate| |].
      + intros T _. apply MP; [apply seq_NoDup|]. intros; congruence.
      + intros T T' y H1 H2. apply in_map_iff in H1, H2. destruct H1 as (k & <- & _), H2 as (k' & E & _). congruence.
    - apply FM; [apply seq_NoDup| |].
      + intros k _. apply FM; [apply seq_NoDup| |].
        * intros s _. apply MP; [apply HT; discriminate|]. intros; congruence.
        * intros s s' y H1 H2. apply in_map_iff in H1, H2. destruct H1 as (T & <- & _), H2 as (T' & E & _). congruence.
      + intros k k' y H1 H2. apply in_flat_map in H1, H2. destruct H1 as (s & _ & H1), H2 as (s' & _ & H2). apply in_map_iff in H1, H2.
        destruct H1 as (T & <- & _), H2 as (T' & E & _). congruence.
  Qed.
  Context (OKC : stru_ok cls S).
  Lemma home_in_cell i s : cls <> GAtomic -> (cls = GCrystal -> (i < nsites S)%nat /\ (s < length (symatoms S i))%nat) ->
    exists q, in_cell q /\ home cls S i s = cartesian (slat S) q.
  Proof.
    intros Hc Hs. unfold home. unfold stru_ok in OKC. destruct cls; [congruence| |].
    - destruct HC as [C HB]. exists (ucvFractional (fractional (slat S) (site_pos S i))). split; [apply ucv_spec|reflexivity].
    - destruct HC as [C HB]. destruct OKC as (_ & _ & H). destruct (Hs eq_refl) as [Hi Hs']. destruct (H i Hi) as [_ Hq].
      exists (fractional (slat S) (fst (nth s (equivalents S i) (vzero, mid)))). split.
      + apply (Hq _ (snd (nth s (equivalents S i) (vzero, mid)))). rewrite <- surjective_pairing. apply nth_In. exact Hs'.
      + symmetry. apply (k_inv2 _ (built_consistent _ _ HB)).
  Qed.
  Lemma home_diff i s a : cls <> GAtomic -> (cls = GCrystal -> (i < nsites S)%nat /\ (s < length (symatoms S i))%nat) ->
    (a < nsites S)%nat -> vdist (home cls S i s) (home cls S a 0) < B.
  Proof.
    intros Hc Hs Ha. assert (HB : exists C, built (slat S) C) by (destruct cls; tauto). destruct HB as [C HB].
    destruct (home_in_cell i s Hc Hs) as (q & Hq & ->). destruct (home_in_cell a 0 Hc) as (q' & Hq' & ->).
    { intros E. split; auto. specialize (HS E a Ha). destruct (symatoms S a); [congruence|cbn; lia]. }
    apply cell_diff_lt; auto. eapply built_consistent; eauto.
  Qed.
  Lemma vdist_bound t u v : Rabs (vnorm t - vdist (vadd t u) v) <= vdist u v.
  Proof.
    assert (H1 : vnorm t <= vdist (vadd t u) v + vdist u v).
    { replace (vnorm t) with (vnorm (vadd (vsub (vadd t u) v) (vsub v u))) by (f_equal; vring).
      eapply Rle_trans; [apply norm_triangle|]. unfold vdist at 2. replace (vnorm (vsub u v)) with (vnorm (vsub v u)); [apply Rle_refl|].
      unfold vnorm. f_equal. vring. }
    assert (H2 : vdist (vadd t u) v <= vnorm t + vdist u v).
    { unfold vdist. replace (vsub (vadd t u) v) with (vadd t (vsub u v)) by vring. apply norm_triangle. }
    apply Rabs_le. lra.
  Qed.

  Lemma all_images_complete g x a : inv g x -> s_anchor x = Some a -> forall y, image_ok cls S (sel g) y ->
    rmin g <= image_distance cls S a (sel g) y <= rmax g -> In y (all_images cls S sph (sphered g)).
  Proof.
    intros I Ea [[k s] T] [Hk Hy] Hd. destruct (sphered_cfg g x I) as [HM HE]. injection HE as _ E2 _ _ _.
    pose proof (i_anchor _ _ I) as HA. rewrite Ea in HA. destruct HA as (Ha & _ & _).
    assert (Hki : (nth k (sel g) O < nsites S)%nat) by (pose proof (i_in _ _ I) as HI; rewrite Forall_forall in HI; apply HI, nth_In; auto).
    assert (HT : cls <> GAtomic -> In T (Ts sph (sphered g))).
    { intros Hc. unfold Ts. rewrite (HM Hc). assert (HIn : In T (sph (rmin g - B) (rmax g + B))); [|destruct (sph _ _); [destruct HIn|exact HIn]].
      apply sph_complete; auto. unfold image_distance in Hd. set (i := nth k (sel g) O) in *.
      assert (HD : vdist (home cls S i s) (home cls S a 0) < B) by (apply home_diff; auto; intros E; rewrite E in Hy; split; auto).
      assert (EP : image_pos cls S i s T = vadd (translation (slat S) T) (home cls S i s)) by (unfold image_pos; destruct cls; [congruence|reflexivity ..]).
      rewrite EP in Hd. pose proof (vdist_bound (translation (slat S) T) (home cls S i s) (home cls S a 0)) as HV.
      unfold Rabs in HV. destruct (Rcase_abs _) in HV; lra. }
    unfold all_images. rewrite E2. clear HC HS OK I HM E2. destruct cls.
    - destruct Hy as [-> ->]. apply in_map_iff. exists k. split; auto. apply in_seq. lia.
    - subst s. apply in_flat_map. exists T. split; [apply HT; discriminate|]. apply in_map_iff. exists k. split; auto. apply in_seq. lia.
    - apply in_flat_map. exists k. split; [apply in_seq; lia|]. apply in_flat_map. exists s. split; [apply in_seq; unfold equivalents in Hy; unfold symatoms; lia|].
      apply in_map_iff. exists T. split; auto. apply HT. discriminate.
  Qed.

  Lemma bonds_main_ f g x a : grun cls S sph f (gen0 S) x = BDone g -> let X := settings_of S x in s_anchor X = Some a ->
    exists v, NoDup v /\
      (forall y, In y v <-> image_ok cls S (s_sites X) y /\ in_range (s_rmin X) (s_rmax X) (image_distance cls S a (s_sites X) y)) /\
      exists f0, forall f', (f0 <= f')%nat -> bonds cls S sph f' g = Some (map (bond_at cls S a (s_sites X)) v).
  Proof.
    intros H X Ea. pose proof (grun_any _ _ _ _ _ gen0_inv H) as I. fold (settings_of S x) in I. fold X in I.
    destruct (sphered_cfg g X I) as [HM HE]. injection HE as E1 E2 E3 E4 E5.
    pose proof (i_anchor _ _ I) as HA. rewrite Ea in HA. destruct HA as (Ha & A1 & A2).
    assert (HV : forall y, valid_i cls S (sphered g) y = valid_d (s_rmin X) (s_rmax X) (image_distance cls S a (s_sites X) y)).
    { intros [[k s] T]. unfold valid_i, image_distance. rewrite E2, E3, E4, E5, A2, (i_sel _ _ I), (i_rmin _ _ I), (i_rmax _ _ I). reflexivity. }
    assert (HP : forall y, 0 <= image_distance cls S a (s_sites X) y) by (intros [[k s] T]; apply vnorm_nonneg).
    exists (filter (valid_i cls S (sphered g)) (all_images cls S sph (sphered g))). split; [|split].
    - apply NoDup_filter. eapply all_images_nodup; eauto.
    - intros y. rewrite filter_In, HV, valid_d_spec by auto. split; intros [HA HB]; (split; [|exact HB]).
      + rewrite <- (i_sel _ _ I). eapply all_images_ok; eauto.
      + eapply all_images_complete; eauto; rewrite (i_sel _ _ I); auto. rewrite (i_rmin _ _ I), (i_rmax _ _ I). apply HB.
    - eexists. intros f' Hf. rewrite (bonds_spec g X I f' Hf). f_equal. apply map_ext. intros [[k s] T]. unfold bnd, bond_at.
      rewrite E1, E2, E5, A1, A2, (i_sel _ _ I). reflexivity.
  Qed.
  Lemma grun_total_ ops : exists f0 r, r <> BFuel /\ forall f, (f0 <= f)%nat -> grun cls S sph f (gen0 S) ops = r.
  Proof. destruct (grun_inv ops _ _ gen0_inv) as (f0 & r & H1 & H2 & _). eauto. Qed.
End Main.
Lemma bonds_main cls S sph : stru_ok cls S -> sphere_of (slat S) sph -> forall f g x a, grun cls S sph f (gen0 S) x = BDone g -> let X := settings_of S x in s_anchor X = Some a ->
    exists v, NoDup v /\
      (forall y, In y v <-> image_ok cls S (s_sites X) y /\ in_range (s_rmin X) (s_rmax X) (image_distance cls S a (s_sites X) y)) /\
      exists f0, forall f', (f0 <= f')%nat -> bonds cls S sph f' g = Some (map (bond_at cls S a (s_sites X)) v).
Proof. intros OK SP. apply bonds_main_; auto. now apply ok_weak. Qed.
Lemma grun_total cls S sph : stru_ok cls S -> forall ops, exists f0 r, r <> BFuel /\ forall f, (f0 <= f)%nat -> grun cls S sph f (gen0 S) ops = r.
Proof. intros OK. apply grun_total_. now apply ok_weak. Qed.

(** *** the hypotheses can be met *)
Lemma sphere_exists L : lattice_made L -> exists sph, sphere_of L sph.
Proof.
  intros HL. destruct (made_built _ HL) as [C HB]. exists (fun a b => all_points a b (lp C)). intros a b.
  destruct (points_all a b (lp C)) as [f0 H]. exists f0. rewrite (built_latpar _ _ HB). apply H. lia.
Qed.

(** *** a generator whose anchor was never selected *)
Definition lone : stru := {| spos := [V3 1 0 0]; suij := [mid]; slat := lattice0; ssym := [] |}.
Lemma lone_bond sph : exists g f0, grun GAtomic lone sph 0 (gen0 lone) [SetRmax 2] = BDone g /\ forall f, (f0 <= f)%nat ->
  exists b, bonds GAtomic lone sph f g = Some [b] /\ b_site0 b = O /\ b_site1 b = O /\ b_r0 b = vzero /\ b_distance b = 1.
Proof.
  eexists. eexists. split; [reflexivity|]. intros f Hf.
  assert (I : inv GAtomic lone sph (setRmax (gen0 lone) 2) (settings_of lone [SetRmax 2])).
  { change (settings_of lone [SetRmax 2]) with (fold_left set_step [SetRmax 2] (settings0 lone)).
    eapply (grun_any GAtomic lone sph I O [SetRmax 2]); [apply (gen0_inv GAtomic lone sph)|]. reflexivity. }
  pose proof (bonds_spec GAtomic lone sph Logic.I _ _ I f Hf) as E.
  eexists. split; [rewrite E|].
  - assert (ED : vdist (V3 1 0 0) vzero = 1).
    { unfold vdist, vnorm, vsub, vdot, vzero. cbn [vx vy vz]. replace (_ + _ + _) with 1 by ring. apply sqrt_1. }
    set (g := sphered GAtomic lone (setRmax (gen0 lone) 2)) in *.
    assert (EA : all_images GAtomic lone sph g = [(0%nat, 0%nat, (0, 0, 0)%Z)]).
    { unfold all_images, g, sphered, setRmax. destruct (Reqb _ _); reflexivity. }
    rewrite EA. cbn [filter]. assert (EV : valid_i GAtomic lone g (0%nat, 0%nat, (0, 0, 0)%Z) = true).
    { unfold valid_i, g, sphered. apply valid_d_spec; [apply vnorm_nonneg|].
      assert (R1 : sel (setRmax (gen0 lone) 2) = [O]) by (unfold setRmax; destruct (Reqb _ _); reflexivity).
      assert (R2 : rmin (setRmax (gen0 lone) 2) = 0) by (unfold setRmax; destruct (Reqb _ _); reflexivity).
      assert (R3 : rmax (setRmax (gen0 lone) 2) = 2) by (unfold setRmax; destruct (Reqb _ _); reflexivity).
      assert (R4 : r0 (setRmax (gen0 lone) 2) = vzero) by (unfold setRmax; destruct (Reqb _ _); reflexivity).
      rewrite R1, R2, R3, R4. change (image_pos GAtomic lone (nth 0 [O] O) 0 (0, 0, 0)%Z) with (V3 1 0 0). rewrite ED. unfold in_range. lra. }
    rewrite EV. cbn [map]. reflexivity.
  - assert (ED : vdist (V3 1 0 0) vzero = 1).
    { unfold vdist, vnorm, vsub, vdot, vzero. cbn [vx vy vz]. replace (_ + _ + _) with 1 by ring. apply sqrt_1. }
    unfold bnd, sphered, setRmax. destruct (Reqb _ _); cbn; repeat split; exact ED.
Qed.
