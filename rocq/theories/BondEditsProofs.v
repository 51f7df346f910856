(** Proofs for BondEdits.v. *)
From Coq Require Import Reals Lra Lia List.
From Verif Require Import RBase R3 Trig Sphere Lattice LatticeSpec BondGen BondGenSpec BondGenProofs BondGenMain BondEdits BondEditsSpec.
Import ListNotations.
Open Scope R_scope.

(** the configuration is kept by the loops *)
Section Cfg.
  Context (cls : gclass) (S : stru) (sph : R -> R -> list (Z * Z * Z)).
  Lemma cfg_updater1 g : cfg (updater1 cls S g) = cfg g.
  Proof. unfold updater1. destruct cls; rewrite cfg_update; reflexivity. Qed.
  Lemma rewind_base f g : rewind cls S sph f g = base_rewind cls S sph f (sphered cls S g).
  Proof. unfold rewind, sphered. now destruct cls. Qed.
  Lemma cfg_iterateSphere g : cfg (fst (iterateSphere S g)) = cfg g. Proof. reflexivity. Qed.
  Lemma cfg_rewindSphere g : cfg (rewindSphere cls S sph g) = cfg g.
  Proof. unfold rewindSphere. rewrite cfg_updater1; reflexivity. Qed.
  Lemma cfg_rewindSymmetry g : cfg (rewindSymmetry cls S sph g) = cfg g.
  Proof. unfold rewindSymmetry. destruct cls eqn:E; [now rewrite cfg_update|rewrite <- E; apply cfg_rewindSphere|rewrite <- E, cfg_rewindSphere; reflexivity]. Qed.
  Lemma cfg_iterateSymmetry g : cfg (fst (iterateSymmetry cls S sph g)) = cfg g.
  Proof.
    unfold iterateSymmetry. destruct cls eqn:E; [reflexivity|reflexivity|]. rewrite <- E. unfold iterateSphere. cbv zeta.
    destruct (tl (rest g)) as [|t l].
    - destruct (_ <=? _)%nat; cbn [fst]; [reflexivity|]. rewrite cfg_rewindSphere. reflexivity.
    - cbn [fst]. rewrite cfg_updater1. reflexivity.
  Qed.
  Lemma cfg_getNextBond g : cfg (getNextBond cls S sph g) = cfg g.
  Proof.
    unfold getNextBond. destruct cls eqn:E; rewrite <- E.
    - pose proof (cfg_iterateSymmetry g) as H. destruct (iterateSymmetry cls S sph g) as [g1 more]. cbn [fst] in H. destruct more; auto.
      cbv zeta. destruct (finished _); [exact H|]. rewrite cfg_rewindSymmetry. exact H.
    - cbv zeta. set (g1 := with_cur g (cur g + 1)). pose proof (cfg_iterateSymmetry g1) as H. change (cfg g1) with (cfg g) in H.
      set (g2 := if finished g1 then _ else g1). assert (H2 : cfg g2 = cfg g).
      { unfold g2. destruct (finished g1); [|reflexivity]. destruct (iterateSymmetry cls S sph g1) as [g' more]. cbn [fst] in H. destruct more; exact H. }
      destruct (finished g2); [exact H2|]. rewrite cfg_updater1; exact H2.
    - pose proof (cfg_iterateSymmetry g) as H. destruct (iterateSymmetry cls S sph g) as [g1 more]. cbn [fst] in H. destruct more; auto.
      cbv zeta. destruct (finished _); [exact H|]. rewrite cfg_rewindSymmetry. exact H.
  Qed.
  Lemma cfg_advance f : forall g g', advance cls S sph f g = Some g' -> cfg g' = cfg g.
  Proof.
    induction f as [|f IH]; intros g g' H; [discriminate|]. cbn [advance] in H. destruct (negb _ && _); [|congruence].
    apply IH in H. now rewrite H, cfg_getNextBond.
  Qed.
  Lemma cfg_base_rewind f g g' : base_rewind cls S sph f g = Some g' -> cfg g' = cfg g.
  Proof.
    unfold base_rewind. cbv zeta. destruct (finished _); intros H; [injection H as <-; reflexivity|]. apply cfg_advance in H. now rewrite H, cfg_rewindSymmetry.
  Qed.
  (** the loop from any state *)
  Lemma bonds_any g : stru_weak cls S -> Forall (fun i => i < nsites S)%nat (sel g) ->
    forall f, (length (all_images cls S sph (sphered cls S g)) < f)%nat ->
    bonds cls S sph f g = Some (map (bnd cls S (sphered cls S g)) (filter (valid_i cls S (sphered cls S g)) (all_images cls S sph (sphered cls S g)))).
  Proof.
    intros OKS HA f Hf. set (h := sphered cls S g) in *.
    assert (HM : cls <> GAtomic -> msphere h <> None).
    { intros Hc. unfold h, sphered. destruct cls; [congruence| |]; (destruct (msphere g) as [ab|] eqn:E; [congruence|cbn; discriminate]). }
    assert (HAh : Forall (fun i => i < nsites S)%nat (sel h)).
    { unfold h, sphered. destruct cls; auto; destruct (msphere g); auto. }
    assert (HC : match cls with GAtomic => True | _ => exists C, LatticeProofs.built (slat S) C end).
    { unfold stru_weak in OKS. destruct cls; auto; [now apply made_built|]. destruct OKS as [H _]. now apply made_built. }
    assert (HS : cls = GCrystal -> forall i, (i < nsites S)%nat -> symatoms S i <> []).
    { intros E i Hi. unfold stru_weak in OKS. rewrite E in OKS. destruct OKS as (_ & _ & H). now apply H. }
    destruct (base_rewind_spec cls S sph OKS h HM HAh f Hf) as (g' & H1 & H2 & H3).
    unfold bonds. rewrite rewind_base. fold h. rewrite H1.
    rewrite <- (dropw_ext _ _ _ (valid_cfg cls S _ _ H2)) in H3.
    rewrite (collect_spec cls S sph HC HS _ _ _ (le_n _) H3 f Hf). f_equal.
    rewrite (filter_ext _ _ (valid_cfg cls S _ _ H2)). apply map_ext, bnd_cfg; auto.
  Qed.
End Cfg.

Section Edits.
  Context (cls : gclass) (made : stru) (sph : R -> R -> list (Z * Z * Z)).
  Context (OK : stru_ok cls made) (SP : sphere_of (slat made) sph).
  Notation B := (ucMaxDiagonalLength (slat made)).
  Notation seen := (seen cls made).
  Lemma seen_lat p u : slat (seen p u) = slat made. Proof. now destruct cls. Qed.
  Lemma seen_ok p u : stru_ok cls (seen p u).
  Proof. destruct cls; exact OK. Qed.

  (** what is known about a generator after edits: [P] is where the anchor was when it was selected *)
  Record winv (g : gen) (x : settings) (P : vec) : Prop := {
    w_anchor : match s_anchor x with
               | Some a => anchor g = a /\ r0 g = (match cls with GAtomic => P | _ => home cls made a 0 end) /\ (cls <> GAtomic -> (a < length (spos made))%nat)
               | None => True end;
    w_sel : sel g = s_sites x; w_rmin : rmin g = s_rmin x; w_rmax : rmax g = s_rmax x;
    w_in : cls <> GAtomic -> Forall (fun i => i < length (spos made))%nat (sel g);
    w_sph : match msphere g with Some (a, b) => a = rmin g - B /\ b = rmax g + B | None => True end
  }.
  Lemma winv_cfg g g' x P : cfg g' = cfg g -> winv g x P -> winv g' x P.
  Proof. intros H []. unfold cfg in H. injection H as E1 E2 E3 E4 E5 E6. constructor; rewrite ?E1, ?E2, ?E3, ?E4, ?E5, ?E6; auto. Qed.
  Lemma gen0_winv P : winv (gen0 made) (settings0 made) P.
  Proof. constructor; cbn; auto. intros _. apply Forall_forall. intros i Hi. apply in_seq in Hi. unfold nsites in Hi. lia. Qed.
  Lemma sphered_cases p u g : sphered cls (seen p u) g = g \/ (msphere g = None /\ sphered cls (seen p u) g = with_msphere g (Some (rmin g - B, rmax g + B))).
  Proof. unfold sphered. rewrite seen_lat. destruct cls; auto; destruct (msphere g); auto. Qed.
  Lemma winv_sphered p u g x P : winv g x P -> winv (sphered cls (seen p u) g) x P.
  Proof.
    intros W. destruct (sphered_cases p u g) as [->|[_ ->]]; [exact W|]. destruct W. constructor; cbn; auto.
  Qed.
  Definition next_P (p : list vec) (P : vec) (o : gop) : vec := match o with SelAnchor a => nth a p vzero | _ => P end.
  Lemma nsites_seen p u : cls <> GAtomic -> nsites (seen p u) = length (spos made).
  Proof. intros H. unfold nsites. destruct cls; [congruence|reflexivity|reflexivity]. Qed.
  Lemma winv_step f p u g o g' x P : winv g x P -> gstep cls (seen p u) sph f g o = BDone g' -> winv g' (set_step x o) (next_P p P o).
  Proof.
    intros W H. destruct o; cbn [gstep next_P] in *.
    - destruct (Nat.ltb_spec a (nsites (seen p u))) as [Ha|]; [|discriminate]. injection H as <-. destruct W as [W1 W2 W3 W4 W5 W6].
      constructor; cbn -[home BondEdits.seen]; auto. split; [reflexivity|]. split; [|intros Hc; now rewrite nsites_seen in Ha].
      unfold home, BondEdits.seen. destruct cls; reflexivity.
    - destruct (forallb _ l) eqn:E; [|discriminate]. injection H as <-. destruct W as [W1 W2 W3 W4 W5 W6]. constructor; cbn; auto.
      intros Hc. rewrite nsites_seen in E by exact Hc. rewrite forallb_forall in E. apply Forall_forall. intros i Hi. apply Nat.ltb_lt. auto.
    - destruct (Nat.leb_spec last (nsites (seen p u))) as [Hl|]; [|discriminate]. injection H as <-. destruct W as [W1 W2 W3 W4 W5 W6]. constructor; cbn; auto.
      intros Hc. rewrite nsites_seen in Hl by exact Hc. apply Forall_forall. intros i Hi. apply in_seq in Hi. lia.
    - injection H as <-. unfold setRmin. destruct (Reqb (rmin g) x0) eqn:E.
      + apply Reqb_true in E. subst x0. rewrite with_lim_id. destruct W. constructor; auto.
      + destruct W. constructor; cbn; auto.
    - injection H as <-. unfold setRmax. destruct (Reqb (rmax g) x0) eqn:E.
      + apply Reqb_true in E. subst x0. rewrite with_lim_id. destruct W. constructor; auto.
      + destruct W. constructor; cbn; auto.
    - destruct (rewind cls (seen p u) sph f g) as [g1|] eqn:E; [|discriminate]. injection H as <-. rewrite rewind_base in E. apply cfg_base_rewind in E.
      eapply winv_cfg; [exact E|]. cbn [set_step]. now apply winv_sphered.
    - destruct (finished g); [discriminate|]. destruct (next cls (seen p u) sph f g) as [g1|] eqn:E; [|discriminate]. injection H as <-.
      apply cfg_advance in E. rewrite cfg_getNextBond in E. eapply winv_cfg; [exact E|exact W].
  Qed.

  Lemma winv_run f ops : forall p u g x P p' u' g', winv g x P -> erun cls made sph f p u g ops = EDone p' u' g' ->
    winv g' (fold_left set_step (calls ops) x) (selected_at p P ops) /\
    (p', u') = fold_left (fun s o => match o with Edit p u => (p, u) | Call _ => s end) ops (p, u).
  Proof.
    induction ops as [|o ops IH]; intros p u g x P p' u' g' W H; cbn [erun calls flat_map fold_left selected_at app] in *.
    - injection H as <- <- <-. auto.
    - destruct o as [p1 u1|c]; cbn [estep] in H.
      + exact (IH _ _ _ _ _ _ _ _ W H).
      + destruct (call_ok cls made p g c); [|discriminate]. destruct (gstep cls (seen p u) sph f g c) as [g1| |] eqn:E; try discriminate.
        pose proof (winv_step _ _ _ _ _ _ _ _ W E) as W1. specialize (IH _ _ _ _ _ _ _ _ W1 H). cbn [app fold_left].
        destruct c; exact IH.
  Qed.

End Edits.

Theorem isolated_edits made sph f ops p u g a : edited GAtomic made sph f ops = EDone p u g ->
  let X := settings_of made (calls ops) in s_anchor X = Some a -> Forall (fun i => i < length p)%nat (s_sites X) ->
  let P := selected_at (spos made) vzero ops in let here k := vdist (nth (nth k (s_sites X) O) p vzero) P in
  (p, u) = atoms_after made ops /\ exists v, NoDup v /\
    (forall k, In k v <-> (k < length (s_sites X))%nat /\ in_range (s_rmin X) (s_rmax X) (here k)) /\
    loop_is GAtomic (seen GAtomic made p u) sph g (map (bond_from P a (s_sites X) p u) v).
Proof.
  intros H X EA HI P here. pose proof (gen0_winv GAtomic made vzero) as W0.
  destruct (winv_run GAtomic made sph I f ops _ _ _ _ _ _ _ _ W0 H) as [W EP]. split; [exact EP|]. clear W0.
  fold P in W. change (fold_left set_step (calls ops) (settings0 made)) with X in W. destruct W as [W1 W2 W3 W4 _ _].
  rewrite EA in W1. destruct W1 as (A1 & A2 & _).
  set (S := seen GAtomic made p u). set (all := filter (valid_i GAtomic S g) (all_images GAtomic S sph g)).
  assert (VI : forall k s T, valid_i GAtomic S g (k, s, T) = valid_d (s_rmin X) (s_rmax X) (here k)).
  { intros k s T. unfold valid_i. rewrite A2, W2, W3, W4. reflexivity. }
  exists (filter (fun k => valid_d (s_rmin X) (s_rmax X) (here k)) (seq 0 (length (s_sites X)))). split; [apply NoDup_filter, seq_NoDup|]. split.
  - intros k. rewrite filter_In, in_seq, valid_d_spec by apply vnorm_nonneg. split; (intros [H1 H2]; split; [lia|exact H2]).
  - eexists. intros f' Hf. assert (E := bonds_any GAtomic S sph g I). change (sphered GAtomic S g) with g in E.
    rewrite (E ltac:(rewrite W2; exact HI) f' Hf). f_equal. fold all.
    assert (EQ : all = map (fun k => (k, O, (0, 0, 0)%Z)) (filter (fun k => valid_d (s_rmin X) (s_rmax X) (here k)) (seq 0 (length (s_sites X))))).
    { unfold all, all_images. rewrite W2. generalize (seq 0 (length (s_sites X))). intros l. induction l as [|k l IH]; [reflexivity|]. cbn [map filter]. rewrite VI, IH.
      destruct (valid_d _ _ (here k)); reflexivity. }
    rewrite EQ, map_map. apply map_ext. intros k. unfold bnd, bond_from. rewrite A1, A2, W2. reflexivity.
Qed.

Theorem periodic_edits cls made sph f ops p u g a : cls <> GAtomic -> stru_ok cls made -> sphere_of (slat made) sph -> edited cls made sph f ops = EDone p u g ->
  let X := settings_of made (calls ops) in s_anchor X = Some a ->
  (p, u) = atoms_after made ops /\ exists v, NoDup v /\
    (forall y, In y v <-> image_ok cls made (s_sites X) y /\ in_range (s_rmin X) (s_rmax X) (image_distance cls made a (s_sites X) y)) /\
    loop_is cls (seen cls made p u) sph g (map (bond_at cls (with_tensors made u) a (s_sites X)) v).
Proof.
  intros Hc OK SP H X EA. pose proof (gen0_winv cls made vzero) as W0.
  destruct (winv_run cls made sph OK f ops _ _ _ _ _ _ _ _ W0 H) as [W EP]. split; [exact EP|]. clear W0.
  change (fold_left set_step (calls ops) (settings0 made)) with X in W. set (S := seen cls made p u).
  assert (ES : S = with_tensors made u) by (unfold S, seen; destruct cls; [congruence|reflexivity|reflexivity]).
  assert (OKS : stru_ok cls S) by (unfold S; now apply seen_ok). assert (WK := ok_weak _ _ OKS).
  assert (NS : nsites S = length (spos made)) by (rewrite ES; reflexivity).
  assert (SL : slat S = slat made) by (rewrite ES; reflexivity). assert (SPS : sphere_of (slat S) sph) by (rewrite SL; exact SP).
  set (h := setFinishedFlag g).
  assert (IH : inv cls S sph h X).
  { destruct W as [W1 W2 W3 W4 W5 W6]. constructor; cbn -[home S]; auto.
    - rewrite EA in *. destruct W1 as (A1 & A2 & A3). split; [rewrite NS; now apply A3|]. split; [exact A1|]. rewrite A2, ES. destruct cls; [congruence|reflexivity|reflexivity].
    - rewrite NS. now apply W5.
    - rewrite SL. exact W6.
    - exists []. apply at_fin, setfin. }
  assert (EB : forall f, bonds cls S sph f h = bonds cls S sph f g).
  { intros f'. unfold bonds. rewrite !rewind_base. replace (base_rewind cls S sph f' (sphered cls S h)) with (base_rewind cls S sph f' (sphered cls S g)); [reflexivity|].
    unfold base_rewind. replace (with_cur (sphered cls S h) 0) with (with_cur (sphered cls S g) 0); [reflexivity|].
    unfold h, sphered. clear. destruct cls; [reflexivity| |]; cbn [msphere setFinishedFlag with_cur]; destruct (msphere g); reflexivity. }
  clearbody h. clear W. destruct (sphered_cfg cls S sph h X IH) as [HM HE]. injection HE as E1 E2 E3 E4 E5.
  pose proof (i_anchor _ _ _ _ _ IH) as HA. rewrite EA in HA. destruct HA as (Ha & A1 & A2).
  assert (HV : forall y, valid_i cls S (sphered cls S h) y = valid_d (s_rmin X) (s_rmax X) (image_distance cls S a (s_sites X) y)).
  { intros [[k s] T]. unfold valid_i, image_distance. rewrite E2, E3, E4, E5, A2, (i_sel _ _ _ _ _ IH), (i_rmin _ _ _ _ _ IH), (i_rmax _ _ _ _ _ IH). reflexivity. }
  assert (HP : forall y, 0 <= image_distance cls S a (s_sites X) y) by (intros [[k s] T]; apply vnorm_nonneg).
  assert (ID : forall y, image_distance cls S a (s_sites X) y = image_distance cls made a (s_sites X) y) by (intros [[k s] T]; rewrite ES; destruct cls; reflexivity).
  assert (IO : forall y, image_ok cls S (s_sites X) y <-> image_ok cls made (s_sites X) y) by (intros [[k s] T]; rewrite ES; destruct cls; reflexivity).
  exists (filter (valid_i cls S (sphered cls S h)) (all_images cls S sph (sphered cls S h))). split; [|split].
  - apply NoDup_filter. eapply all_images_nodup; eauto.
  - intros y. rewrite filter_In, HV, valid_d_spec by auto. rewrite <- ID, <- IO. split; intros [H1 H2]; (split; [|exact H2]).
    + rewrite <- (i_sel _ _ _ _ _ IH). eapply all_images_ok; eauto.
    + eapply all_images_complete; eauto; rewrite (i_sel _ _ _ _ _ IH); auto. rewrite (i_rmin _ _ _ _ _ IH), (i_rmax _ _ _ _ _ IH). apply H2.
  - eexists. intros f' Hf. rewrite <- EB, (bonds_spec cls S sph WK h X IH f' Hf). f_equal. apply map_ext. intros [[k s] T]. unfold bnd, bond_at.
    rewrite E1, E2, E5, A1, A2, (i_sel _ _ _ _ _ IH), ES. reflexivity.
Qed.
