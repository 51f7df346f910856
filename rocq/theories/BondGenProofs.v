(** Proofs for BondGen.v: the loop visits exactly the valid images. *)
From Verif Require Import RBase R3 Trig TrigProofs Sphere SphereSpec SphereProofs SphereGeom SphereMain Lattice LatticeSpec LatticeProofs BondGen BondGenSpec.
Open Scope R_scope.

Lemma made_built L : lattice_made L -> exists C, built L C.
Proof.
  intros [->|(ops & o & HF & HO & ->)].
  - eexists. apply lattice0_built.
  - unfold lat_run. rewrite fold_left_app. cbn [fold_left]. apply step_good; auto. apply run_rot; auto.
    apply (b_rot _ _ lattice0_built).
Qed.

(** *** distances *)
Definition valid_d (rmin rmax d : R) : bool := negb ((Rltb d rmin || Rltb rmax d) || eps_eq d 0 SQRT_DOUBLE_EPS).
Lemma valid_d_spec a b d : 0 <= d -> valid_d a b d = true <-> in_range a b d.
Proof.
  intros Hd. unfold valid_d, in_range. rewrite negb_true_iff, !orb_false_iff, !Rltb_false. unfold eps_eq.
  rewrite Rleb_false, Rminus_0_r, Rabs_right by lra. unfold SQRT_DOUBLE_EPS. tauto.
Qed.
Lemma comp_le x y z : Rabs x <= vnorm (V3 x y z) /\ Rabs y <= vnorm (V3 x y z) /\ Rabs z <= vnorm (V3 x y z).
Proof.
  unfold vnorm, vdot. cbn [vx vy vz].
  repeat split; rewrite <- sqrt_Rsqr_abs; apply sqrt_le_1_alt; unfold Rsqr; nra.
Qed.

Section Machine.
  Context (cls : gclass) (S : stru) (sph : R -> R -> list (Z * Z * Z)).
  Notation gen := BondGen.gen.
  Notation upd1 := (updater1 cls S).

  Definition true_r01 (g : gen) : vec := vsub (r1 g) (r0 g).
  Definition true_d (g : gen) : R := vdist (r1 g) (r0 g).
  Definition fresh (g : gen) : Prop :=
    (bondOutOfRange g || atSelfPair g = negb (valid_d (rmin g) (rmax g) (true_d g))) /\
    (valid_d (rmin g) (rmax g) (true_d g) = true -> r01 g = true_r01 g /\ dist g = true_d g).
  Lemma update_fresh g : fresh (updateDistance g).
  Proof.
    unfold fresh, bondOutOfRange, atSelfPair, true_d, true_r01, updateDistance, vdist, vsub.
    set (x := vx (r1 g) - vx (r0 g)). set (y := vy (r1 g) - vy (r0 g)). set (z := vz (r1 g) - vz (r0 g)).
    destruct (comp_le x y z) as (HX & HY & HZ).
    assert (HB : forall d e, rmax g < e -> e <= d -> (Rltb e (rmin g) || Rltb (rmax g) e) || eps_eq e 0 SQRT_DOUBLE_EPS = true /\ valid_d (rmin g) (rmax g) d = false).
    { intros d e H1 H2. unfold valid_d. rewrite (proj2 (Rltb_true (rmax g) e)) by lra. rewrite (proj2 (Rltb_true (rmax g) d)) by lra.
      rewrite !orb_true_r. auto. }
    destruct (Rltb (rmax g) (Rabs x)) eqn:E1; [|destruct (Rltb (rmax g) (Rabs y)) eqn:E2; [|destruct (Rltb (rmax g) (Rabs z)) eqn:E3]];
      cbn [rmin rmax dist r01 r1 r0 with_dist]; fold x y z.
    1-3: rewrite Rltb_true in *; match goal with H : _ < Rabs _ |- _ => destruct (HB _ _ H ltac:(eassumption)) as [-> ->] end; split; auto; discriminate.
    unfold valid_d. rewrite negb_involutive. auto.
  Qed.

  (** configuration part of the state *)
  Definition cfg (g : gen) := (anchor g, sel g, rmin g, rmax g, r0 g, msphere g).
  Lemma cfg_update g : cfg (updateDistance g) = cfg g.
  Proof. unfold updateDistance. repeat destruct (Rltb _ _); reflexivity. Qed.
  Lemma loc_update g : (cur (updateDistance g), rest (updateDistance g), rcsphere (updateDistance g), symidx (updateDistance g)) = (cur g, rest g, rcsphere g, symidx g).
  Proof. unfold updateDistance. repeat destruct (Rltb _ _); reflexivity. Qed.
  Lemma r1_update g : r1 (updateDistance g) = r1 g /\ uc1 (updateDistance g) = uc1 g.
  Proof. unfold updateDistance. repeat destruct (Rltb _ _); split; reflexivity. Qed.

  Context (HC : match cls with GAtomic => True | _ => exists C, built (slat S) C end).
  Hypothesis (HS : cls = GCrystal -> forall i, (i < nsites S)%nat -> symatoms S i <> []).

  Lemma cart_translation T : cls <> GAtomic -> cartesian (slat S) (ivec T) = translation (slat S) T.
  Proof.
    intros Hc. assert (HB : exists C, built (slat S) C) by (destruct cls; tauto). destruct HB as [C HB].
    destruct T as [[m n] o]. unfold translation, ivec, cartesian. rewrite (b_va _ _ HB), (b_vb _ _ HB), (b_vc _ _ HB).
    clear. generalize (base (slat S)). intros B. vring.
  Qed.
  Lemma trans0 : cls <> GAtomic -> translation (slat S) (0, 0, 0)%Z = vzero.
  Proof. intros _. unfold translation. generalize (Lva (slat S)) (Lvb (slat S)) (Lvc (slat S)). clear. intros. vring. Qed.

  Definition curT (l : list (Z * Z * Z)) : Z * Z * Z := match l with [] => (0, 0, 0)%Z | t :: _ => t end.
  Lemma rc_curT l : cls <> GAtomic -> rc_of S l = translation (slat S) (curT l).
  Proof.
    intros Hc. destruct l as [|[[m n] o] l]; cbn [rc_of curT].
    - now rewrite trans0.
    - now rewrite <- cart_translation.
  Qed.

  Definition Ts (g : gen) : list (Z * Z * Z) :=
    match msphere g with Some (a, b) => match sph a b with [] => [(0, 0, 0)%Z] | l => l end | None => [(0,0,0)%Z] end.
  Definition sphl (g : gen) : list (Z * Z * Z) := match msphere g with Some (a, b) => sph a b | None => [] end.
  Lemma Ts_sphl g : Ts g = curT (sphl g) :: tl (sphl g).
  Proof. unfold Ts, sphl. destruct (msphere g) as [[a b]|]; auto. now destruct (sph a b). Qed.

  Notation nsym g k := (length (symatoms S (nth k (sel g) O))).
  Definition rem (g : gen) : list image :=
    let n := length (sel g) in
    match cls with
    | GAtomic => map (fun k => (k, O, (0, 0, 0)%Z)) (seq (cur g) (n - cur g))
    | GPeriodic => map (fun k => (k, O, curT (rest g))) (seq (cur g) (n - cur g)) ++
                   flat_map (fun T => map (fun k => (k, O, T)) (seq 0 n)) (tl (rest g))
    | GCrystal => map (fun T => (cur g, symidx g, T)) (curT (rest g) :: tl (rest g)) ++
                  flat_map (fun s => map (fun T => (cur g, s, T)) (Ts g)) (seq (symidx g + 1) (nsym g (cur g) - (symidx g + 1))) ++
                  flat_map (fun k => flat_map (fun s => map (fun T => (k, s, T)) (Ts g)) (seq 0 (nsym g k))) (seq (cur g + 1) (n - (cur g + 1)))
    end.
  (** the image shown now *)
  Definition now (g : gen) : image :=
    match cls with
    | GAtomic => (cur g, O, (0, 0, 0)%Z)
    | GPeriodic => (cur g, O, curT (rest g))
    | GCrystal => (cur g, symidx g, curT (rest g))
    end.
  Definition shows (g : gen) (x : image) : Prop :=
    let '(k, s, T) := x in
    r1 g = image_pos cls S (nth k (sel g) O) s T /\ uc1 g = image_u cls S (nth k (sel g) O) s.
  Definition live (g : gen) : Prop :=
    finished g = false /\ (cls <> GAtomic -> msphere g <> None /\ rcsphere g = rc_of S (rest g)) /\
    (cls = GCrystal -> (symidx g < nsym g (cur g))%nat) /\
    fresh g /\ shows g (now g) /\ Forall (fun i => i < nsites S)%nat (sel g).

  (** rem starts with the current image *)
  Lemma rem_now g : live g -> exists r, rem g = now g :: r.
  Proof.
    intros (HF & _). unfold finished in HF. apply Nat.leb_gt in HF. unfold rem, now.
    destruct cls; [|replace (length (sel g) - cur g)%nat with (Datatypes.S (length (sel g) - cur g - 1)) by lia; cbn [seq map app]; eauto ..].
    - replace (length (sel g) - cur g)%nat with (Datatypes.S (length (sel g) - cur g - 1)) by lia. cbn [seq map app]. eauto.
  Qed.

  Lemma fin_false g : finished g = false <-> (cur g < length (sel g))%nat.
  Proof. unfold finished. apply Nat.leb_gt. Qed.
  Lemma fin_true g : finished g = true <-> (length (sel g) <= cur g)%nat.
  Proof. unfold finished. apply Nat.leb_le. Qed.

  (** updater1 makes a state live *)
  Lemma cfg_upd1 g : cfg (upd1 g) = cfg g.
  Proof. unfold updater1. destruct cls; rewrite cfg_update; reflexivity. Qed.
  Lemma loc_upd1 g : (cur (upd1 g), rest (upd1 g), rcsphere (upd1 g), symidx (upd1 g)) = (cur g, rest g, rcsphere g, symidx g).
  Proof. unfold updater1. destruct cls; rewrite loc_update; reflexivity. Qed.
  Lemma upd1_fresh g : fresh (upd1 g).
  Proof. unfold updater1. destruct cls; apply update_fresh. Qed.
  Lemma upd1_live g : cls <> GAtomic -> finished g = false -> msphere g <> None -> rcsphere g = rc_of S (rest g) ->
    (cls = GCrystal -> (symidx g < nsym g (cur g))%nat) -> Forall (fun i => i < nsites S)%nat (sel g) -> live (upd1 g).
  Proof.
    intros HCl HF HM HR HY HA. pose proof (cfg_upd1 g) as HC1. pose proof (loc_upd1 g) as HL1. pose proof (upd1_fresh g) as HFr.
    unfold cfg in HC1. injection HC1 as C1 C2 C3 C4 C5 C6. injection HL1 as L1 L2 L3 L4.
    assert (HNow : now (upd1 g) = now g) by (unfold now; rewrite L1, L2, L4; reflexivity).
    unfold live. rewrite HNow. unfold finished, shows, now. rewrite C2, C6, L1, L2, L3, L4. unfold finished in HF.
    split; [auto|]. split; [auto|]. split; [auto|]. split; [exact HFr|]. split; [|auto].
    pose proof (rc_curT (rest g) HCl) as HRC. clear HC HS. destruct cls; [congruence| |]; unfold updater1; destruct (r1_update (with_r1 g (vadd (rcsphere g) (posuc S (site1 g))) (uij S (site1 g)))) as [A1 A2].
    - cbv iota. rewrite A1, A2. cbn [r1 uc1 with_r1]. rewrite HR, HRC. split; reflexivity.
    - destruct (r1_update (with_r1 g (vadd (rcsphere g) (fst (nth (symidx g) (symatoms S (site1 g)) (vzero, mid)))) (snd (nth (symidx g) (symatoms S (site1 g)) (vzero, mid))))) as [B1 B2].
      cbv iota zeta. rewrite B1, B2. cbn [r1 uc1 with_r1]. rewrite HR, HRC. split; reflexivity.
  Qed.

  Definition leads (g : gen) (r : list image) (g' : gen) : Prop :=
    cfg g' = cfg g /\ ((r = [] /\ finished g' = true) \/ (live g' /\ rem g' = r)).

  Lemma cfg_Ts g g' : cfg g' = cfg g -> Ts g' = Ts g.
  Proof. unfold cfg, Ts. intros H. injection H as _ _ _ _ _ ->. reflexivity. Qed.

  (** rewindSymmetry at a site that is not the end *)
  Definition atomic_upd (g : gen) : gen := updateDistance (with_r1 g (pos S (site1 g)) (uij S (site1 g))).
  Lemma atomic_live g : cls = GAtomic -> finished g = false -> Forall (fun i => i < nsites S)%nat (sel g) ->
    live (atomic_upd g) /\ cfg (atomic_upd g) = cfg g /\ cur (atomic_upd g) = cur g.
  Proof.
    intros Hc HF HA. unfold atomic_upd. set (h := with_r1 g _ _).
    pose proof (cfg_update h) as HC1. pose proof (loc_update h) as HL1. destruct (r1_update h) as [R1 R2].
    unfold cfg in HC1. assert (HC2 := HC1). injection HC2 as C1 C2 C3 C4 C5 C6. injection HL1 as L1 L2 L3 L4.
    split; [|split; [exact HC1|rewrite L1; reflexivity]].
    split; [unfold finished in *; rewrite C2, L1; exact HF|]. split; [congruence|]. split; [congruence|]. split; [apply update_fresh|].
    split; [|rewrite C2; exact HA]. unfold now, shows. rewrite Hc, R1, R2, C2, L1. unfold h. cbn [r1 uc1 with_r1 sel cur].
    unfold image_pos, image_u, home. split; reflexivity.
  Qed.

  Definition sph_start (g : gen) : gen := with_sph g (sphl g) (rc_of S (sphl g)).
  Lemma rewindSphere_eq g : rewindSphere cls S sph g = upd1 (sph_start g).
  Proof. reflexivity. Qed.
  Lemma rewindSphere_live g : cls <> GAtomic -> finished g = false -> msphere g <> None ->
    (cls = GCrystal -> (symidx g < nsym g (cur g))%nat) -> Forall (fun i => i < nsites S)%nat (sel g) ->
    let g' := rewindSphere cls S sph g in
    live g' /\ cfg g' = cfg g /\ cur g' = cur g /\ symidx g' = symidx g /\ rest g' = sphl g.
  Proof.
    intros Hc HF HM HY HA. cbv zeta. rewrite rewindSphere_eq.
    pose proof (cfg_upd1 (sph_start g)) as HC1. pose proof (loc_upd1 (sph_start g)) as HL1.
    injection HL1 as L1 L2 L3 L4. rewrite L1, L4, HC1, L2. split; [|auto].
    apply upd1_live; auto.
  Qed.

  Lemma next_atomic g r : cls = GAtomic -> live g -> rem g = now g :: r -> leads g r (getNextBond cls S sph g).
  Proof.
    intros Hc HL HR. destruct HL as (HF & _ & _ & _ & _ & HA). apply fin_false in HF.
    assert (Er : r = map (fun k => (k, O, (0, 0, 0)%Z)) (seq (cur g + 1) (length (sel g) - (cur g + 1)))).
    { unfold rem, now in HR. rewrite Hc in HR. replace (length (sel g) - cur g)%nat with (Datatypes.S (length (sel g) - (cur g + 1))) in HR by lia.
      cbn [seq map] in HR. injection HR as HR. rewrite <- HR. replace (Datatypes.S (cur g)) with (cur g + 1)%nat by lia. reflexivity. }
    unfold getNextBond, iterateSymmetry, rewindSymmetry. rewrite Hc. cbv beta iota zeta. set (h := with_cur g (cur g + 1)).
    destruct (finished h) eqn:EF.
    - split; [reflexivity|]. left. split; auto. apply fin_true in EF. cbn in EF. rewrite Er. replace (length (sel g) - (cur g + 1))%nat with O by lia. reflexivity.
    - destruct (atomic_live h Hc EF HA) as (H1 & H2 & H3). split; [exact H2|]. right. split; [exact H1|].
      unfold rem. rewrite Hc. fold (atomic_upd h). rewrite H3. unfold cfg in H2. injection H2 as _ -> _ _ _ _. rewrite Er. reflexivity.
  Qed.

  Lemma next_periodic g r : cls = GPeriodic -> live g -> rem g = now g :: r -> leads g r (getNextBond cls S sph g).
  Proof.
    intros Hc HL HR. destruct HL as (HF & HM & _ & _ & _ & HA). apply fin_false in HF. destruct HM as [HM HRC]; [congruence|].
    assert (Hna : cls <> GAtomic) by congruence. assert (Hnc : cls = GCrystal -> False) by congruence.
    assert (Er : r = map (fun k => (k, O, curT (rest g))) (seq (cur g + 1) (length (sel g) - (cur g + 1))) ++
                     flat_map (fun T => map (fun k => (k, O, T)) (seq 0 (length (sel g)))) (tl (rest g))).
    { unfold rem, now in HR. rewrite Hc in HR. replace (length (sel g) - cur g)%nat with (Datatypes.S (length (sel g) - (cur g + 1))) in HR by lia.
      cbn [seq map app] in HR. injection HR as HR. rewrite <- HR. replace (Datatypes.S (cur g)) with (cur g + 1)%nat by lia. reflexivity. }
    assert (EN : getNextBond cls S sph g = let g1 := with_cur g (cur g + 1) in
        let g2 := if finished g1 then let (g', more) := iterateSphere S g1 in if more then with_cur g' 0 else g' else g1 in
        if finished g2 then g2 else upd1 g2).
    { unfold getNextBond, iterateSymmetry. rewrite !Hc. reflexivity. }
    rewrite EN. cbv zeta. set (h := with_cur g (cur g + 1)).
    destruct (finished h) eqn:EF.
    - apply fin_true in EF. cbn in EF. replace (length (sel g) - (cur g + 1))%nat with O in Er by lia. cbn [seq map app] in Er.
      unfold iterateSphere. destruct (tl (rest h)) as [|t l] eqn:ET; cbn [rest h with_cur] in ET.
      + assert (EF2 : finished (with_sph h [] (rc_of S [])) = true) by (apply fin_true; cbn; lia). rewrite EF2. split; [reflexivity|]. left. split; [|exact EF2]. rewrite Er, ET. reflexivity.
      + set (h2 := with_cur (with_sph h (t :: l) (rc_of S (t :: l))) 0).
        assert (EF2 : finished h2 = false) by (apply fin_false; cbn; lia). rewrite EF2.
        pose proof (cfg_upd1 h2) as HC1. pose proof (loc_upd1 h2) as HL1. injection HL1 as L1 L2 L3 L4.
        split; [rewrite HC1; reflexivity|]. right. split; [apply upd1_live; auto; tauto|].
        unfold rem. rewrite L1, L2. unfold cfg in HC1. injection HC1 as _ -> _ _ _ _. rewrite Hc. rewrite Er, ET. cbn [curT rest cur sel h2 h with_cur with_sph].
        rewrite Nat.sub_0_r. reflexivity.
    - rewrite EF. pose proof (cfg_upd1 h) as HC1. pose proof (loc_upd1 h) as HL1. injection HL1 as L1 L2 L3 L4.
      split; [rewrite HC1; reflexivity|]. right. split; [apply upd1_live; auto; tauto|].
      unfold rem. rewrite L1, L2. unfold cfg in HC1. injection HC1 as _ -> _ _ _ _. rewrite Hc. rewrite Er. reflexivity.
  Qed.

  Lemma next_crystal g r : cls = GCrystal -> live g -> rem g = now g :: r -> leads g r (getNextBond cls S sph g).
  Proof.
    intros Hc HL HR. destruct HL as (HF & HM & HY & _ & _ & HA). apply fin_false in HF. destruct HM as [HM HRC]; [congruence|].
    specialize (HY Hc). assert (Hna : cls <> GAtomic) by congruence.
    assert (Er : r = map (fun T => (cur g, symidx g, T)) (tl (rest g)) ++
                  flat_map (fun s => map (fun T => (cur g, s, T)) (Ts g)) (seq (symidx g + 1) (nsym g (cur g) - (symidx g + 1))) ++
                  flat_map (fun k => flat_map (fun s => map (fun T => (k, s, T)) (Ts g)) (seq 0 (nsym g k))) (seq (cur g + 1) (length (sel g) - (cur g + 1)))).
    { unfold rem, now in HR. rewrite Hc in HR. cbn [map app] in HR. injection HR as HR. rewrite <- HR. reflexivity. }
    assert (EN : getNextBond cls S sph g =
      let (g1, more) := (let (g1, more) := iterateSphere S g in
        if more then (upd1 g1, true)
        else let g2 := with_sym g1 (symidx g1 + 1) in
             if (length (symatoms S (site1 g2)) <=? symidx g2)%nat then (g2, false)
             else (rewindSphere cls S sph g2, true)) in
        if more then g1
        else let g2 := with_cur g1 (cur g1 + 1) in
             if finished g2 then g2 else rewindSphere cls S sph (with_sym g2 0)).
    { unfold getNextBond, iterateSymmetry, rewindSymmetry. rewrite !Hc. reflexivity. }
    rewrite EN. unfold iterateSphere. destruct (tl (rest g)) as [|t l] eqn:ET.
    - cbn [symidx with_sph with_sym]. set (h := with_sym _ _).
      assert (ES : site1 h = nth (cur g) (sel g) O) by reflexivity. rewrite ES. cbn [map app] in Er.
      change (symidx h) with (symidx g + 1)%nat.
      destruct (Nat.leb_spec (nsym g (cur g)) (symidx g + 1)) as [H1|H1].
      + (* all equivalents used: next site *)
        cbn [cur h with_sym with_sph]. set (h2 := with_cur h (cur g + 1)).
        replace (nsym g (cur g) - (symidx g + 1))%nat with O in Er by lia. cbn [seq flat_map app] in Er.
        destruct (finished h2) eqn:EF.
        * split; [reflexivity|]. left. split; auto. apply fin_true in EF. cbn in EF. rewrite Er. replace (length (sel g) - (cur g + 1))%nat with O by lia. reflexivity.
        * assert (HSn : symatoms S (site1 h2) <> []).
          { apply HS; auto. apply fin_false in EF. cbn in EF. unfold site1. rewrite Forall_forall in HA. apply HA. cbn. apply nth_In. exact EF. }
          destruct (rewindSphere_live (with_sym h2 0)) as (K1 & K2 & K3 & K4 & K5); auto.
          { intros _. cbn [symidx with_sym]. change (nth (cur (with_sym h2 0)) (sel (with_sym h2 0)) O) with (site1 h2). destruct (symatoms S (site1 h2)); [congruence|cbn; lia]. }
          split; [rewrite K2; reflexivity|]. right. split; auto.
          unfold rem. rewrite K3, K4, K5, (cfg_Ts _ _ K2). unfold cfg in K2. injection K2 as _ Q _ _ _ _. rewrite Q, Hc.
          cbn [cur symidx with_sym h2 with_cur h with_sph sel].
          rewrite Er. apply fin_false in EF. cbn in EF. replace (length (sel g) - (cur g + 1))%nat with (Datatypes.S (length (sel g) - (cur g + 1 + 1))) by lia.
          cbn [seq flat_map]. change (sphl (with_sym h2 0)) with (sphl g). rewrite <- Ts_sphl.
          change (Ts (with_sym h2 0)) with (Ts g).
          assert (HPos : (0 < nsym g (cur g + 1))%nat) by (change (nth (cur g + 1) (sel g) O) with (site1 h2); destruct (symatoms S (site1 h2)); [congruence|cbn; lia]).
          replace (nsym g (cur g + 1)) with (Datatypes.S (nsym g (cur g + 1) - 1)) at 2 by lia. cbn [seq flat_map].
          rewrite <- app_assoc. replace (Datatypes.S (cur g + 1)) with (cur g + 1 + 1)%nat by lia. reflexivity.
      +
        destruct (rewindSphere_live h) as (K1 & K2 & K3 & K4 & K5); auto; [apply fin_false; exact HF|].
        split; [rewrite K2; reflexivity|]. right. split; auto.
        unfold rem. rewrite K3, K4, K5, (cfg_Ts _ _ K2). unfold cfg in K2. injection K2 as _ Q _ _ _ _. rewrite Q, Hc.
        cbn [cur symidx with_sym h with_sph sel]. change (sphl h) with (sphl g). rewrite <- Ts_sphl. change (Ts h) with (Ts g).
        rewrite Er. replace (nsym g (cur g) - (symidx g + 1))%nat with (Datatypes.S (nsym g (cur g) - (symidx g + 1 + 1))) by lia.
        cbn [seq flat_map]. rewrite <- app_assoc. replace (Datatypes.S (symidx g + 1)) with (symidx g + 1 + 1)%nat by lia. reflexivity.
    - set (h := with_sph g (t :: l) (rc_of S (t :: l))).
      pose proof (cfg_upd1 h) as HC1. pose proof (loc_upd1 h) as HL1. injection HL1 as L1 L2 L3 L4.
      split; [rewrite HC1; reflexivity|]. right. split; [apply upd1_live; auto; apply fin_false; exact HF|].
      unfold rem. rewrite L1, L2, L4, (cfg_Ts _ _ HC1). unfold cfg in HC1. injection HC1 as _ Q _ _ _ _. rewrite Q, Hc. rewrite Er. reflexivity.
  Qed.
  Lemma next_leads g r : live g -> rem g = now g :: r -> leads g r (getNextBond cls S sph g).
  Proof.
    assert (H : cls = GAtomic \/ cls = GPeriodic \/ cls = GCrystal) by (clear; destruct cls; auto).
    destruct H as [H|[H|H]]; [apply next_atomic|apply next_periodic|apply next_crystal]; auto.
  Qed.

  (** *** the loops, over the list of images still to come *)
  Definition at_ (g : gen) (l : list image) : Prop := (l = [] /\ finished g = true) \/ (live g /\ rem g = l).
  Definition valid_i (g : gen) (x : image) : bool :=
    let '(k, s, T) := x in valid_d (rmin g) (rmax g) (vdist (image_pos cls S (nth k (sel g) O) s T) (r0 g)).
  Fixpoint dropw (p : image -> bool) (l : list image) : list image :=
    match l with [] => [] | x :: r => if p x then l else dropw p r end.
  Definition bnd (g : gen) (x : image) : bond :=
    let '(k, s, T) := x in let i := nth k (sel g) O in
    {| b_site0 := anchor g; b_site1 := i; b_r0 := r0 g; b_r1 := image_pos cls S i s T;
       b_r01 := vsub (image_pos cls S i s T) (r0 g); b_distance := vdist (image_pos cls S i s T) (r0 g); b_u1 := image_u cls S i s |}.

  Lemma valid_cfg g g' : cfg g' = cfg g -> forall x, valid_i g' x = valid_i g x.
  Proof. unfold cfg. intros H [[k s] T]. unfold valid_i. injection H as _ -> -> -> -> _. reflexivity. Qed.
  Lemma bnd_cfg g g' : cfg g' = cfg g -> forall x, bnd g' x = bnd g x.
  Proof. unfold cfg. intros H [[k s] T]. unfold bnd. injection H as -> -> _ _ -> _. reflexivity. Qed.
  Lemma dropw_ext p q l : (forall x, p x = q x) -> dropw p l = dropw q l.
  Proof. intros H. induction l as [|x l IH]; cbn; auto. now rewrite H, IH. Qed.
  Lemma filter_dropw p l : filter p (dropw p l) = filter p l.
  Proof. induction l as [|x l IH]; cbn; auto. destruct (p x) eqn:E; cbn; auto. now rewrite E. Qed.
  Lemma dropw_len p l : (length (dropw p l) <= length l)%nat.
  Proof. induction l as [|x l IH]; cbn; auto. destruct (p x); cbn; lia. Qed.

  Lemma live_valid g : live g -> bondOutOfRange g || atSelfPair g = negb (valid_i g (now g)).
  Proof.
    intros (HF & _ & _ & [HV _] & HSh & _). rewrite HV. unfold true_d, valid_i, shows, now in *.
    destruct cls; destruct HSh as [-> _]; reflexivity.
  Qed.
  Lemma live_bond g : live g -> valid_i g (now g) = true -> bond_of g = bnd g (now g).
  Proof.
    intros (HF & _ & _ & [_ HV] & HSh & _) Hv. unfold true_d, true_r01, valid_i, shows, now, bnd, bond_of, site1 in *.
    clear HC HS. destruct cls; destruct HSh as [E1 E2]; rewrite <- E1 in Hv; destruct (HV Hv) as [-> ->]; rewrite E1, E2; reflexivity.
  Qed.

  Lemma advance_spec l : forall g, at_ g l -> forall f, (length l < f)%nat ->
    exists g', advance cls S sph f g = Some g' /\ cfg g' = cfg g /\ at_ g' (dropw (valid_i g) l).
  Proof.
    induction l as [|x l IH]; intros g HA f Hf.
    - destruct HA as [[_ HF]|[HL HR]].
      + destruct f as [|f]; [cbn in Hf; lia|]. cbn [advance]. rewrite HF. cbn. exists g. repeat split; auto. left; auto.
      + destruct (rem_now g HL) as [r E]. congruence.
    - destruct HA as [[? _]|[HL HR]]; [discriminate|]. destruct (rem_now g HL) as [r E]. rewrite HR in E. injection E as -> <-.
      destruct f as [|f]; [cbn in Hf; lia|]. cbn [advance]. rewrite (live_valid _ HL). destruct HL as (HF & HL'). assert (HL : live g) by (split; auto).
      rewrite HF. cbn [negb andb]. cbn [dropw]. destruct (valid_i g (now g)) eqn:EV; cbn [negb].
      + exists g. repeat split; auto. right. auto.
      + destruct (next_leads g l HL HR) as [HCf HAt].
        destruct (IH (getNextBond cls S sph g) HAt f) as (g' & H1 & H2 & H3); [cbn in Hf; lia|].
        exists g'. split; auto. split; [congruence|]. rewrite (dropw_ext _ _ l (valid_cfg _ _ HCf)) in H3. exact H3.
  Qed.

  Lemma collect_spec n : forall l g, (length l <= n)%nat -> at_ g (dropw (valid_i g) l) -> forall f, (n < f)%nat ->
    collect cls S sph f g = Some (map (bnd g) (filter (valid_i g) l)).
  Proof.
    induction n as [|n IH]; intros l g Hn HA f Hf.
    - destruct l; [|cbn in Hn; lia]. cbn in *. destruct f as [|f]; [lia|]. cbn [collect].
      destruct HA as [[_ HF]|[HL HR]]; [now rewrite HF|]. destruct (rem_now g HL) as [r E]. congruence.
    - destruct f as [|f]; [lia|]. cbn [collect]. rewrite <- (filter_dropw _ l). pose proof (dropw_len (valid_i g) l) as HLen.
      assert (HD : forall x r, dropw (valid_i g) l = x :: r -> valid_i g x = true).
      { clear. induction l as [|y l IH]; cbn; intros x r H; [discriminate|]. destruct (valid_i g y) eqn:E; [injection H as -> ->; auto|eauto]. }
      set (l' := dropw (valid_i g) l) in *. clearbody l'. destruct l' as [|x r].
      + destruct HA as [[_ HF]|[HL HR]]; [now rewrite HF|]. destruct (rem_now g HL) as [r E]. congruence.
      + specialize (HD x r eq_refl). destruct HA as [[? _]|[HL HR]]; [discriminate|]. destruct (rem_now g HL) as [r' E]. rewrite HR in E. injection E as -> <-.
        pose proof (proj1 HL) as HF. rewrite HF. destruct (next_leads g r HL HR) as [HCf HAt].
        destruct (advance_spec r _ HAt (Datatypes.S f)) as (g' & H1 & H2 & H3); [cbn in HLen; lia|].
        unfold next. rewrite H1.
        assert (HCf2 : cfg g' = cfg g) by congruence.
        assert (HVE : forall x, valid_i (getNextBond cls S sph g) x = valid_i g' x) by (intros; rewrite (valid_cfg _ _ HCf), (valid_cfg _ _ HCf2); auto).
        rewrite (dropw_ext _ _ r HVE) in H3.
        rewrite (IH r g'); [|cbn in HLen; lia|exact H3|lia]. cbn [filter]. rewrite HD. cbn [map]. rewrite (live_bond g HL HD).
        f_equal. f_equal. rewrite (filter_ext _ _ (valid_cfg _ _ HCf2)). apply map_ext, bnd_cfg. auto.
  Qed.

  (** *** rewind *)
  Definition all_images (g : gen) : list image :=
    match cls with
    | GAtomic => map (fun k => (k, O, (0, 0, 0)%Z)) (seq 0 (length (sel g)))
    | GPeriodic => flat_map (fun T => map (fun k => (k, O, T)) (seq 0 (length (sel g)))) (Ts g)
    | GCrystal => flat_map (fun k => flat_map (fun s => map (fun T => (k, s, T)) (Ts g)) (seq 0 (nsym g k))) (seq 0 (length (sel g)))
    end.
  Lemma rewind_start g : (cls <> GAtomic -> msphere g <> None) -> Forall (fun i => i < nsites S)%nat (sel g) ->
    let g1 := with_cur g 0 in let g2 := if finished g1 then g1 else rewindSymmetry cls S sph g1 in
    cfg g2 = cfg g /\ at_ g2 (all_images g).
  Proof.
    intros HM HA. cbv zeta. set (h := with_cur g 0).
    assert (H : cls = GAtomic \/ cls = GPeriodic \/ cls = GCrystal) by (clear; destruct cls; auto).
    destruct (finished h) eqn:EF.
    - split; [reflexivity|]. left. split; auto. apply fin_true in EF. cbn in EF. assert (E0 : length (sel g) = O) by lia.
      unfold all_images. rewrite E0. destruct H as [H|[H|H]]; rewrite H; auto. induction (Ts g); cbn; auto.
    - pose proof (proj1 (fin_false h) EF) as HL. cbn in HL. unfold rewindSymmetry. destruct H as [Hc|[Hc|Hc]].
      + rewrite Hc at 1 2. destruct (atomic_live h Hc EF HA) as (H1 & H2 & H3). split; [exact H2|]. right. split; [exact H1|].
        unfold rem, all_images. rewrite Hc. fold (atomic_upd h). rewrite H3. unfold cfg in H2. injection H2 as _ -> _ _ _ _. cbn. now rewrite Nat.sub_0_r.
      + assert (Hna : cls <> GAtomic) by congruence.
        assert (E : match cls with GAtomic => updateDistance (with_r1 h (pos S (site1 h)) (uij S (site1 h))) | GPeriodic => rewindSphere cls S sph h | GCrystal => rewindSphere cls S sph (with_sym h 0) end = rewindSphere cls S sph h)
          by (rewrite !Hc; reflexivity).
        rewrite E. destruct (rewindSphere_live h) as (K1 & K2 & K3 & K4 & K5); auto; [congruence|].
        split; [exact K2|]. right. split; [exact K1|]. unfold rem, all_images. rewrite K3, K5. unfold cfg in K2. injection K2 as _ Q _ _ _ _. rewrite Q, Hc.
        cbn [cur sel h with_cur]. change (sphl h) with (sphl g). rewrite Ts_sphl, Nat.sub_0_r. reflexivity.
      + assert (Hna : cls <> GAtomic) by congruence.
        assert (E : match cls with GAtomic => updateDistance (with_r1 h (pos S (site1 h)) (uij S (site1 h))) | GPeriodic => rewindSphere cls S sph h | GCrystal => rewindSphere cls S sph (with_sym h 0) end = rewindSphere cls S sph (with_sym h 0))
          by (rewrite !Hc; reflexivity).
        rewrite E.
        assert (HPos : (0 < nsym g 0)%nat).
        { assert (HSn : symatoms S (nth 0 (sel g) O) <> []) by (apply HS; auto; rewrite Forall_forall in HA; apply HA, nth_In; lia).
          destruct (symatoms S (nth 0 (sel g) O)); [congruence|cbn; lia]. }
        destruct (rewindSphere_live (with_sym h 0)) as (K1 & K2 & K3 & K4 & K5); auto.
        split; [exact K2|]. right. split; [exact K1|]. unfold rem, all_images. rewrite K3, K4, K5, (cfg_Ts _ _ K2). unfold cfg in K2. injection K2 as _ Q _ _ _ _. rewrite Q, Hc.
        cbn [cur sel symidx h with_cur with_sym]. change (sphl (with_sym (with_cur g 0) 0)) with (sphl g). change (Ts (with_sym (with_cur g 0) 0)) with (Ts g). rewrite <- Ts_sphl.
        replace (length (sel g)) with (Datatypes.S (length (sel g) - 1)) at 2 by lia. cbn [seq flat_map].
        replace (nsym g 0) with (Datatypes.S (nsym g 0 - 1)) at 2 by lia. cbn [seq flat_map]. rewrite <- app_assoc. reflexivity.
  Qed.
End Machine.
