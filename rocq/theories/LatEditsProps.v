(** C112: bond generators of crystals and later changes of the lattice. *)
From Coq Require Import Reals Lra Lia List.
From Verif Require Import RBase R3 Trig Sphere SphereSpec SphereMain Lattice LatticeSpec LatticeProofs BondGen BondGenSpec BondGenProofs BondGenMain BondEditsProofs
  LatEdits LatEditsSpec LatEditsProofs LatEditsMain.
Import ListNotations.
Open Scope R_scope.

(** After any calls and changes of the lattice the loop measures in the lattice of now, with the Cartesian positions of the time when the generator
    was made, but visits the translations chosen for the lattice of the first rewind after the last change of the limits. *)
Theorem C112_crystal : forall made pts f ops L Lc g a, stru_ok GCrystal made -> (forall L, lattice_made L -> sphere_of L (pts L)) -> lats_made ops ->
  relatticed made pts f ops = LDone L Lc g ->
  let X := settings_of made (lcalls ops) in let K := chosen_with (settings0 made) (slat made) None ops in s_anchor X = Some a ->
  let S := with_lattice made L in let far T := vnorm (translation K T) in
  L = lat_after (slat made) ops /\ exists v, NoDup v /\
    (forall k s T, In (k, s, T) v -> image_ok GCrystal made (s_sites X) (k, s, T) /\
       in_range (s_rmin X) (s_rmax X) (image_distance GCrystal S a (s_sites X) (k, s, T)) /\ (T = (0, 0, 0)%Z \/ far T < s_rmax X + ucMaxDiagonalLength K)) /\
    (forall k s T, image_ok GCrystal made (s_sites X) (k, s, T) -> in_range (s_rmin X) (s_rmax X) (image_distance GCrystal S a (s_sites X) (k, s, T)) ->
       near K (s_rmin X) (s_rmax X) T -> In (k, s, T) v) /\
    exists f0, forall f', (f0 <= f')%nat -> lbonds made pts f' L Lc g = Some (map (bond_at GCrystal S a (s_sites X)) v).
Proof. exact crystal_lats. Qed.
Print Assumptions C112_crystal.

(** When the limits were changed after the last change of the lattice (or no loop was started before it), and the longest diagonal of the cell did
    not become shorter, all images in the range are shown. *)
Theorem C112_complete : forall made pts f ops L Lc g a, stru_ok GCrystal made -> (forall L, lattice_made L -> sphere_of L (pts L)) -> lats_made ops ->
  relatticed made pts f ops = LDone L Lc g ->
  let X := settings_of made (lcalls ops) in s_anchor X = Some a -> chosen_with (settings0 made) (slat made) None ops = L ->
  ucMaxDiagonalLength (slat made) <= ucMaxDiagonalLength L ->
  let S := with_lattice made L in exists v, NoDup v /\
    (forall y, In y v <-> image_ok GCrystal made (s_sites X) y /\ in_range (s_rmin X) (s_rmax X) (image_distance GCrystal S a (s_sites X) y)) /\
    exists f0, forall f', (f0 <= f')%nat -> lbonds made pts f' L Lc g = Some (map (bond_at GCrystal S a (s_sites X)) v).
Proof. exact crystal_lats_complete. Qed.
Print Assumptions C112_complete.

From Verif Require Import SphereProofs SphereGeom CrystalExample CrystalCache.
Definition all_pts (L : lattice) (a b : R) : list (Z * Z * Z) := all_points a b (latpar_of L).
Lemma all_pts_ok L : lattice_made L -> sphere_of L (all_pts L).
Proof.
  intros HL a b. destruct (made_built _ HL) as [C HB]. destruct (points_all a b (lp C)) as [f0 H]. exists f0. unfold all_pts.
  rewrite (built_latpar _ _ HB). apply H. lia.
Qed.
Lemma wide_made : lattice_made wide.
Proof.
  right. exists [], (SetPar 2 1 1 90 90 90). assert (GP : good_params 2 1 1 90 90 90).
  { unfold good_params. repeat split; try lra. replace (90 / 180 * PI) with (PI / 2) by field. rewrite cos_PI2. lra. }
  split; [constructor|]. split; [exact GP|reflexivity].
Qed.
(** one atom at the origin of a cell of 2, 1, 1 *)
Definition single : stru := {| spos := [vzero]; suij := [mid]; slat := wide; ssym := [[(vzero, mid)]] |}.
Lemma frac_zero L : fractional L vzero = vzero.
Proof. unfold fractional. destruct (recbase L). vring. Qed.
Lemma single_ok : stru_ok GCrystal single.
Proof.
  split; [exact wide_made|]. split; [reflexivity|]. intros i Hi. cbn in Hi. assert (i = O) by lia. subst i. split; [discriminate|].
  intros p u [E|[]]. injection E as <- <-. cbv zeta. cbn [slat single]. rewrite frac_zero. cbn. lra.
Qed.
Lemma cart_wide x y z : cartesian wide (V3 x y z) = V3 (2 * x) y z.
Proof. unfold cartesian. rewrite wide_base. unfold vm. cbn. f_equal; ring. Qed.
Lemma diag_wide : ucMaxDiagonalLength wide <= 3.
Proof.
  destruct (made_built _ wide_made) as [C HB]. pose proof (built_consistent _ _ HB) as HK.
  assert (A : In (ucMaxDiagonal wide) (vzero :: diagonals)).
  { unfold ucMaxDiagonal, diagonals. cbn [fold_left fst snd]. repeat (destruct (Rltb _ _); cbn [fst snd]); cbn; auto 6. }
  unfold ucMaxDiagonalLength. rewrite (k_norm _ HK). revert A. generalize (ucMaxDiagonal wide). intros v A.
  cbn in A. unfold vzero in A.
  assert (S : forall x y z, x * x + y * y + z * z <= 9 -> vnorm (V3 x y z) <= 3).
  { intros x y z H. unfold vnorm, vdot. cbn [vx vy vz]. replace 3 with (sqrt (3 * 3)) by (apply sqrt_square; lra). apply sqrt_le_1_alt. lra. }
  destruct A as [<-|[<-|[<-|[<-|[<-|[]]]]]]; rewrite cart_wide; apply S; lra.
Qed.
Lemma trans_wide m n o : translation wide (m, n, o) = V3 (2 * IZR m) (IZR n) (IZR o).
Proof.
  destruct (made_built _ wide_made) as [C HB]. unfold translation. rewrite (b_va _ _ HB), (b_vb _ _ HB), (b_vc _ _ HB), wide_base.
  unfold vadd, vscale, row0, row1, row2. cbn. f_equal; ring.
Qed.
Lemma trans_one m n o : translation lattice0 (m, n, o) = V3 (IZR m) (IZR n) (IZR o).
Proof.
  destruct (made_built lattice0 (or_introl eq_refl)) as [C HB]. unfold translation. rewrite (b_va _ _ HB), (b_vb _ _ HB), (b_vc _ _ HB), base0.
  unfold vadd, vscale, row0, row1, row2, mid. cbn. f_equal; ring.
Qed.
Definition shrunk : list lop := [LCall (SelAnchor 0); LCall (SetRmax 3); LCall Rewind; SetLat lattice0].
Lemma shrunk_runs : exists f g, relatticed single all_pts f shrunk = LDone lattice0 wide g.
Proof.
  set (g0 := setRmax (selectAnchorSite GCrystal single (gen0 single) 0) 3).
  assert (NM : msphere (sphered GCrystal (lseen single wide) g0) <> None) by (unfold sphered; destruct (msphere g0) eqn:E; [now rewrite E|discriminate]).
  set (h := sphered GCrystal (lseen single wide) g0) in *.
  assert (HF : Forall (fun i => i < nsites (lseen single wide))%nat (sel h)) by (unfold h, sphered, g0, setRmax; destruct (msphere _); cbn; destruct (Reqb _ _); cbn; repeat constructor).
  destruct (base_rewind_spec GCrystal (lseen single wide) (all_pts wide) (ok_weak _ _ single_ok) h (fun _ => NM) HF _ (Nat.lt_succ_diag_r _)) as (g1 & H & HC & _).
  unfold h in H at 2.
  rewrite <- rewind_base in H. set (f := S _) in H. clearbody f.
  assert (SL : forall g, sphere_lat wide wide g = wide) by (intros g; unfold sphere_lat; destruct (msphere g); reflexivity).
  assert (STEP1 : lstep single all_pts f wide wide (gen0 single) (LCall (SelAnchor 0)) = LDone wide wide (selectAnchorSite GCrystal single (gen0 single) 0)).
  { unfold lstep. rewrite SL. reflexivity. }
  assert (STEP2 : lstep single all_pts f wide wide (selectAnchorSite GCrystal single (gen0 single) 0) (LCall (SetRmax 3)) = LDone wide wide g0).
  { unfold lstep. rewrite SL. reflexivity. }
  assert (STEP3 : lstep single all_pts f wide wide g0 (LCall Rewind) = LDone wide wide g1).
  { unfold lstep. rewrite SL. cbn [gstep]. rewrite H. reflexivity. }
  exists f, g1. unfold relatticed, shrunk. change (slat single) with wide. cbn [lrun]. rewrite STEP1. cbn [lrun]. rewrite STEP2. cbn [lrun]. rewrite STEP3.
  cbn [lrun]. unfold lstep. rewrite SL. reflexivity.
Qed.
Lemma shrunk_chosen : chosen_with (settings0 single) (slat single) None shrunk = wide.
Proof. unfold shrunk. cbn [chosen_with]. destruct (Req_EM_T _ _); reflexivity. Qed.
(** C112 fails when the cell becomes smaller between two loops with the same limits: the cell edge a changes from 2 to 1, rmax = 3, and the bond
    to the atom three cells away, of length 3, is not shown. *)
Theorem C112_shrunk_refuted : exists made f ops L Lc g l, stru_ok GCrystal made /\ lats_made ops /\ relatticed made all_pts f ops = LDone L Lc g /\
  let X := settings_of made (lcalls ops) in let S := with_lattice made L in s_anchor X = Some O /\
  image_ok GCrystal made (s_sites X) (0%nat, 0%nat, (3, 0, 0)%Z) /\ image_distance GCrystal S 0 (s_sites X) (0%nat, 0%nat, (3, 0, 0)%Z) = 3 /\
  in_range (s_rmin X) (s_rmax X) 3 /\ image_pos GCrystal S 0 0 (3, 0, 0)%Z = V3 3 0 0 /\
  (exists f0, forall f', (f0 <= f')%nat -> lbonds made all_pts f' L Lc g = Some l) /\ forall b, In b l -> b_r1 b <> V3 3 0 0.
Proof.
  destruct shrunk_runs as (f & g & H).
  assert (LM : lats_made shrunk) by (unfold lats_made, shrunk; repeat constructor).
  destruct (crystal_lats single all_pts f shrunk lattice0 wide g O single_ok all_pts_ok LM H eq_refl) as (_ & v & _ & V1 & _ & V3').
  rewrite shrunk_chosen in V1. exists single, f, shrunk, lattice0, wide, g. eexists. split; [exact single_ok|]. split; [exact LM|]. split; [exact H|].
  cbv zeta. split; [reflexivity|]. split; [split; cbn; lia|].
  assert (IP : forall s m n o, (s < 1)%nat -> image_pos GCrystal (with_lattice single lattice0) 0 s (m, n, o) = V3 (IZR m) (IZR n) (IZR o)).
  { intros s m n o Hs. assert (s = O) by lia. subst s. unfold image_pos. change (slat (with_lattice single lattice0)) with lattice0. rewrite trans_one.
    unfold home, equivalents. cbn [ssym with_lattice single nth fst]. unfold vadd, vzero. cbn [vx vy vz]. f_equal; ring. }
  split; [|split; [|split; [apply IP; lia|split; [exact V3'|]]]].
  - unfold image_distance. change (nth 0 _ O) with O. rewrite IP by lia. unfold home, equivalents. cbn [ssym with_lattice single nth fst].
    unfold vdist, vnorm, vsub, vdot, vzero. cbn [vx vy vz]. replace (_ + _ + _) with (3 * 3) by ring. apply sqrt_square. lra.
  - cbn. unfold in_range. lra.
  - intros b HI E. apply in_map_iff in HI. destruct HI as ([[k s] [[m n] o]] & <- & HI). destruct (V1 _ _ _ HI) as ((Hk & Hs) & _ & HT).
    assert (k = O) by (cbn in Hk; lia). subst k. change (nth 0 (s_sites (settings_of single (lcalls shrunk))) O) with O in Hs.
    unfold bond_at in E. cbn [b_r1] in E. change (nth 0 (s_sites (settings_of single (lcalls shrunk))) O) with O in E. rewrite IP in E by exact Hs.
    injection E as Em En Eo. change 0 with (IZR 0) in En, Eo. change 3 with (IZR 3) in Em. apply eq_IZR in Em, En, Eo. subst m n o.
    destruct HT as [HT|HT]; [discriminate|]. rewrite trans_wide in HT. change (s_rmax (settings_of single (lcalls shrunk))) with 3 in HT.
    pose proof diag_wide as D. assert (N : vnorm (V3 (2 * 3) 0 0) = 6).
    { unfold vnorm, vdot. cbn [vx vy vz]. replace (_ + _ + _) with (6 * 6) by ring. apply sqrt_square. lra. }
    rewrite N in HT. lra.
Qed.
Print Assumptions C112_shrunk_refuted.

(** The hypotheses are met: a program that changes the lattice and then the limits, after which the translations are chosen for the new lattice, and
    with a lattice put back in force the cell is as long as before. *)
Example C112_nonvacuous : stru_ok GCrystal single /\ (forall L, lattice_made L -> sphere_of L (all_pts L)) /\
  (exists f g, relatticed single all_pts f shrunk = LDone lattice0 wide g) /\
  (let ops := [LCall (SelAnchor 0); SetLat lattice0; LCall (SetRmax 3); SetLat wide] in lats_made ops /\
  (exists Lc g, relatticed single all_pts 0 ops = LDone wide Lc g) /\ s_anchor (settings_of single (lcalls ops)) = Some O /\
  chosen_with (settings0 single) (slat single) None ops = wide) /\
  in_range 0 3 (image_distance GCrystal single 0 [0%nat] (0%nat, 0%nat, (1, 0, 0)%Z)).
Proof.
  split; [exact single_ok|]. split; [exact all_pts_ok|]. split; [exact shrunk_runs|]. split.
  - cbv zeta. split; [unfold lats_made; repeat (constructor; [first [exact I|exact wide_made|left; reflexivity]|]); constructor|]. split; [|split; [reflexivity|]].
    + eexists. eexists. unfold relatticed. change (slat single) with wide. cbn [lrun lstep gstep nsites lseen spos single length Nat.ltb Nat.leb].
      unfold sphere_lat. cbn [msphere gen0 selectAnchorSite setRmax with_lim with_anchor setFinishedFlag with_cur]. unfold setRmax.
      match goal with |- context [Reqb ?a ?b] => destruct (Reqb a b) end; cbn; reflexivity.
    + cbn [chosen_with]. destruct (Req_EM_T _ _); reflexivity.
  - unfold image_distance. change (nth 0 [0%nat] O) with O. unfold image_pos. change (slat single) with wide. rewrite trans_wide.
    unfold home, equivalents. cbn [ssym single nth fst]. unfold vdist, vnorm, vadd, vsub, vdot, vzero, in_range. cbn [vx vy vz].
    replace (sqrt _) with 2; [lra|]. replace (_ + _ + _) with (2 * 2) by ring. symmetry. apply sqrt_square. lra.
Qed.
