(** Proofs: bond loops over structures whose atoms may lie outside of the unit cell. *)
From Coq Require Import String.
From Verif Require Import RBase R3 Trig TrigProofs Sphere SphereSpec SphereProofs SphereGeom SphereMain Lattice LatticeSpec LatticeProofs BondGen BondGenSpec BondGenProofs BondGenMain
  Crystal CrystalSpec CrystalProofs CrystalMain CrystalSep CrystalCell CrystalExample.
Import ListNotations.
Open Scope R_scope.
Notation length := List.length.

Lemma bonds_weak cls S sph : stru_weak cls S -> sphere_of (slat S) sph -> forall f g x a,
  grun cls S sph f (gen0 S) x = BDone g -> let X := settings_of S x in s_anchor X = Some a ->
  exists v, NoDup v /\
    (forall y, In y v -> image_ok cls S (s_sites X) y /\ in_range (s_rmin X) (s_rmax X) (image_distance cls S a (s_sites X) y) /\
       (cls <> GAtomic -> let T := snd y in T = (0, 0, 0)%Z \/ vnorm (translation (slat S) T) < s_rmax X + ucMaxDiagonalLength (slat S))) /\
    exists f0, forall f', (f0 <= f')%nat -> bonds cls S sph f' g = Some (map (bond_at cls S a (s_sites X)) v).
Proof.
  intros OK SP f g x a H X Ea.
  assert (HC : match cls with GAtomic => True | _ => exists C, built (slat S) C end).
  { unfold stru_weak in OK. destruct cls; auto; [now apply made_built|]. destruct OK as [HL _]. now apply made_built. }
  assert (HS : cls = GCrystal -> forall i, (i < nsites S)%nat -> symatoms S i <> []).
  { intros E i Hi. unfold stru_weak in OK. rewrite E in OK. destruct OK as (_ & _ & HL). now apply HL. }
  pose proof (grun_any cls S sph OK _ _ _ _ _ (gen0_inv cls S sph) H) as I. fold (settings_of S x) in I. fold X in I.
  destruct (sphered_cfg cls S sph g X I) as [HM HE]. injection HE as E1 E2 E3 E4 E5.
  pose proof (i_anchor _ _ _ _ _ I) as HA. rewrite Ea in HA. destruct HA as (Ha & A1 & A2).
  assert (HV : forall y, valid_i cls S (sphered cls S g) y = valid_d (s_rmin X) (s_rmax X) (image_distance cls S a (s_sites X) y)).
  { intros [[k s] T]. unfold valid_i, image_distance. rewrite E2, E3, E4, E5, A2, (i_sel _ _ _ _ _ I), (i_rmin _ _ _ _ _ I), (i_rmax _ _ _ _ _ I). reflexivity. }
  assert (HP : forall y, 0 <= image_distance cls S a (s_sites X) y) by (intros [[k s] T]; apply vnorm_nonneg).
  exists (filter (valid_i cls S (sphered cls S g)) (all_images cls S sph (sphered cls S g))). split; [|split].
  - apply NoDup_filter. eapply all_images_nodup; eauto.
  - intros y. rewrite filter_In, HV, valid_d_spec by auto. intros [HA HB]. split; [|split; [exact HB|]].
    + rewrite <- (i_sel _ _ _ _ _ I). eapply all_images_ok; eauto.
    + intros Hc. destruct y as [[k s] T]. cbn [snd]. assert (HT : In T (Ts sph (sphered cls S g))).
      { revert HA. unfold all_images. clear -Hc. destruct cls; [congruence| |].
        - intros HA. apply in_flat_map in HA. destruct HA as (T' & HT & HA). apply in_map_iff in HA. destruct HA as (? & [= <- <- <-] & _). exact HT.
        - intros HA. apply in_flat_map in HA. destruct HA as (? & _ & HA). apply in_flat_map in HA. destruct HA as (? & _ & HA).
          apply in_map_iff in HA. destruct HA as (T' & [= <- <- <-] & HT). exact HT. }
      unfold Ts in HT. rewrite (HM Hc) in HT. set (B := ucMaxDiagonalLength (slat S)) in *.
      assert (HIn : T = (0, 0, 0)%Z \/ In T (sph (rmin g - B) (rmax g + B))).
      { destruct (sph (rmin g - B) (rmax g + B)); [destruct HT as [<-|[]]; now left|now right]. }
      destruct HIn as [->|HIn]; [now left|right].
      assert (HB' : exists C, built (slat S) C) by (destruct cls; [congruence|auto|auto]). destruct HB' as [C HB'].
      destruct (SP (rmin g - B) (rmax g + B)) as [f' Hf]. rewrite (built_latpar _ _ HB') in Hf.
      pose proof (sphere_inside C (b_ok _ _ HB') _ _ _ _ _ Hf HIn) as HI. rewrite (built_norm2 _ _ _ HB'), (cart_translation cls S HC HS) in HI by auto.
      rewrite (i_rmax _ _ _ _ _ I) in HI. exact HI.
  - eexists. intros f' Hf. rewrite (bonds_spec cls S sph OK g X I f' Hf). f_equal. apply map_ext. intros [[k s] T]. unfold bnd, bond_at.
    rewrite E1, E2, E5, A1, A2, (i_sel _ _ _ _ _ I). reflexivity.
Qed.

(** ** no symmetry operations: atoms far outside of the cell *)
Definition far_atoms : list catom := [mkCA vzero mid "C"%string 1 true; mkCA (V3 (15 / 2) 0 0) mid "C"%string 1 true].
Definition far_crystal : crystal := mkCr far_atoms lattice0 [] (5 / 100000) [] false.
Lemma far_run : xrun crystal0 [XAtoms far_atoms] = far_crystal.
Proof. reflexivity. Qed.
Lemma far_home a : (a = 0%nat \/ a = 1%nat) -> home GCrystal (stru_of far_crystal) a 0 = site_pos (stru_of far_crystal) a.
Proof.
  intros [->| ->]; unfold home, equivalents, site_pos, stru_of, updateSymmetryPositions, far_crystal, far_atoms, expand_site, expandLatticeAtom, toFractional, toCartesian;
    cbn [ssym spos x_sym x_atoms x_lat x_ops map nth fst snd c_xyz c_uij c_type c_occ c_anis fold_left eqsites eqsumpos eqduplicity mean_sites INR];
    rewrite frac0, cart0; unfold vscale, vzero; cbn [vx vy vz]; f_equal; field.
Qed.

Lemma diag0 : ucMaxDiagonalLength lattice0 < 2.
Proof.
  assert (X : forall u, In u (vzero :: diagonals) -> lnorm lattice0 u < 2).
  { intros u H. rewrite lnorm0. unfold vnorm. rewrite <- (sqrt_square 2) by lra. apply sqrt_lt_1_alt. unfold vdot.
    destruct H as [<-|[<-|[<-|[<-|[<-|[]]]]]]; unfold vzero; cbn [vx vy vz]; lra. }
  unfold ucMaxDiagonalLength. apply X. unfold ucMaxDiagonal.
  assert (Y : forall l acc, In (snd acc) (vzero :: diagonals) -> incl l diagonals ->
    In (snd (fold_left (fun (acc : R * vec) v => if Rltb (fst acc) (lnorm lattice0 v) then (lnorm lattice0 v, v) else acc) l acc)) (vzero :: diagonals)).
  { induction l as [|u l IH]; intros acc H K; cbn [fold_left]; auto. apply IH.
    - destruct (Rltb _ _); auto. cbn [snd]. right. apply K. now left.
    - intros y Hy. apply K. now right. }
  apply Y; [now left|apply incl_refl].
Qed.
Lemma far_weak : stru_weak GCrystal (stru_of far_crystal).
Proof.
  unfold stru_weak. split; [now left|]. split; [reflexivity|]. intros i Hi. cbn in Hi. unfold equivalents, stru_of. cbn [ssym].
  destruct i as [|[|i]]; [discriminate|discriminate|lia].
Qed.
Lemma far_nobond sph : sphere_of lattice0 sph ->
  exists g, grun GCrystal (stru_of far_crystal) sph 0 (gen0 (stru_of far_crystal)) [SelAnchor 0; SetRmax 1] = BDone g /\
  exists f0, forall f, (f0 <= f)%nat -> exists l, bonds GCrystal (stru_of far_crystal) sph f g = Some l /\ forall b, In b l -> b_site1 b <> 1%nat.
Proof.
  intros SP. set (S := stru_of far_crystal).
  assert (HG : exists g, grun GCrystal S sph 0 (gen0 S) [SelAnchor 0; SetRmax 1] = BDone g).
  { cbn [grun gstep]. change (nsites S) with 2%nat. cbn. eauto. }
  destruct HG as (g & HG). exists g. split; [exact HG|].
  destruct (bonds_weak GCrystal S sph far_weak SP 0 g _ 0%nat HG eq_refl) as (v & _ & HV & f0 & HB).
  exists f0. intros f Hf. eexists. split; [apply HB, Hf|]. intros b Hb. apply in_map_iff in Hb. destruct Hb as ([[k s] T] & <- & Hy).
  destruct (HV _ Hy) as (HI & HR & HT). specialize (HT ltac:(discriminate)). cbn [snd] in HT.
  unfold bond_at. cbn [b_site1]. change (s_sites (settings_of S [SelAnchor 0; SetRmax 1])) with [0%nat; 1%nat] in *.
  destruct HI as (Hk & Hs). destruct k as [|[|k]]; cbn [nth length] in *; [discriminate| |lia]. intros _.
  change (length (equivalents S 1)) with 1%nat in Hs. assert (s = 0%nat) by lia. subst s.
  destruct HR as [[_ HR] _]. change (s_rmax (settings_of S [SelAnchor 0; SetRmax 1])) with 1 in *. change (slat S) with lattice0 in *.
  unfold image_distance in HR. cbn [nth] in HR. unfold image_pos in HR.
  unfold S in HR. rewrite !far_home in HR by auto. fold S in HR. change (slat S) with lattice0 in HR.
  change (site_pos S 1) with (V3 (15 / 2) 0 0) in HR. change (site_pos S 0) with vzero in HR.
  pose proof (vdist_bound (translation lattice0 T) (V3 (15 / 2) 0 0) vzero) as VB.
  assert (VN : vdist (V3 (15 / 2) 0 0) vzero = 15 / 2).
  { unfold vdist, vnorm. replace (vdot _ _) with (15 / 2 * (15 / 2)) by (unfold vdot, vsub, vzero; cbn [vx vy vz]; ring). apply sqrt_square. lra. }
  rewrite VN in VB. pose proof diag0 as D0. destruct HT as [->|HT].
  - replace (translation lattice0 (0, 0, 0)%Z) with vzero in HR by (unfold translation; unfold vzero; destruct (Lva lattice0), (Lvb lattice0), (Lvc lattice0); vring).
    replace (vadd vzero (V3 (15 / 2) 0 0)) with (V3 (15 / 2) 0 0) in HR by vring. lra.
  - revert VB. rewrite Rabs_minus_sym. intros VB. 
    assert (vdist (V3 (15 / 2) 0 0) vzero <= vdist (vadd (translation lattice0 T) (V3 (15 / 2) 0 0)) vzero + vnorm (translation lattice0 T)).
    { unfold vdist. replace (vsub (V3 (15 / 2) 0 0) vzero) with (vadd (vsub (vadd (translation lattice0 T) (V3 (15 / 2) 0 0)) vzero) (vsub vzero (translation lattice0 T))) by (destruct (translation lattice0 T) as [t1 t2 t3]; vring).
      eapply Rle_trans; [apply norm_triangle|]. apply Rplus_le_compat_l. right. unfold vnorm. f_equal. destruct (translation lattice0 T) as [t1 t2 t3]; vring. }
    lra.
Qed.
(** the bond that is missing *)
Lemma far_missing : let y := (1%nat, 0%nat, (-7, 0, 0)%Z) in
  image_ok GCrystal (stru_of far_crystal) [0%nat; 1%nat] y /\ image_distance GCrystal (stru_of far_crystal) 0 [0%nat; 1%nat] y = 1 / 2.
Proof.
  cbv zeta. split; [split; [cbn; lia|change (0 < 1)%nat; lia]|]. unfold image_distance. cbn [nth]. unfold image_pos. rewrite !far_home by auto.
  change (slat (stru_of far_crystal)) with lattice0. change (site_pos (stru_of far_crystal) 1) with (V3 (15 / 2) 0 0). change (site_pos (stru_of far_crystal) 0) with vzero.
  replace (translation lattice0 (-7, 0, 0)%Z) with (V3 (-7) 0 0).
  - unfold vdist, vnorm. replace (vdot _ _) with (1 / 2 * (1 / 2)) by (unfold vdot, vsub, vadd, vzero; cbn [vx vy vz]; field). apply sqrt_square. lra.
  - unfold translation. replace (Lva lattice0) with (row0 (base lattice0)) by reflexivity. replace (Lvb lattice0) with (row1 (base lattice0)) by reflexivity.
    replace (Lvc lattice0) with (row2 (base lattice0)) by reflexivity. rewrite base0. vring.
Qed.
