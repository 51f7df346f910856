(** C108: the bonds of an atom in double arithmetic. *)
From Flocq Require Import Core.
From Coq Require Import Reals Lra Lia.
From Verif Require Import RBase R3 Fp FpGrid FpAngle FpSphere FpSphereSpec FpSphereMore FpBonds FpBondsSpec FpBondsMain FpBondsMore FpBondsExample FpBondsDiag.
From Verif Require FpBondsLoop.
Import ListNotations.
Open Scope R_scope.

(** Periodic structures: whatever is rounded, the loop ends, it never shows the same image of a site twice, each bond has the distance and the vector
    of an image up to its [tol], all the bonds are in the range, and every image in the range, by more than its [tol], is among them. *)
Theorem C108_periodic_partial : forall S a sel rmin rmax, same_lattice S -> bpow radix2 (-299) <= fp_maxdiag S -> 0 <= rmax ->
  exists pts l v, visits (fp_sphmin S rmin) (fp_sphmax S rmax) (p_sph S) pts /\ loop_shows true S a sel rmin rmax pts l /\
    NoDup v /\ Forall2 (shown S a sel) v l /\
    (forall k T, In (k, T) v -> let j := nth k sel O in (k < length sel)%nat /\ within (- tol S a j T) rmin rmax (vnorm (apart S a j T))) /\
    (forall k T, let j := nth k sel O in (k < length sel)%nat -> ints T -> roomy S rmin rmax a j ->
       within (tol S a j T) rmin rmax (vnorm (apart S a j T)) -> In (k, T) v).
Proof. exact periodic_bonds. Qed.
Print Assumptions C108_periodic_partial.

(** The atoms of the first cell are the given atoms, moved by a lattice vector, up to a 2^-25 part of the base vectors (the tolerance of
    ucvFractional). *)
Theorem C108_first_cell : forall S i, let f := fp_vm (fp_pos S i) (p_rec S) in let B := p_base S in exists n1 n2 n3 : Z,
  let w := vm (V3 (vx f - IZR n1) (vy f - IZR n2) (vz f - IZR n3)) B in let h := fp_home true S i in
  Rabs (vx h - vx w) <= / 33554432 * size1 (col0 B) + bpow radix2 (-300) /\
  Rabs (vy h - vy w) <= / 33554432 * size1 (col1 B) + bpow radix2 (-300) /\
  Rabs (vz h - vz w) <= / 33554432 * size1 (col2 B) + bpow radix2 (-300).
Proof. exact first_cell. Qed.
Print Assumptions C108_first_cell.

(** The longest diagonal of [roomy] is right up to a relative error of 2^-25, unless the cell is extremely oblique. *)
Theorem C108_diagonal : forall S, let M := p_met S in bpow radix2 (-300) <= msize M -> (forall w, corner w -> / 1048576 * msize M <= quad M w) ->
  (forall w, corner w -> sqrt (quad M w) <= (1 + / 33554432) * fp_maxdiag S) /\ exists w, corner w /\ fp_maxdiag S <= (1 + / 33554432) * sqrt (quad M w).
Proof. exact longest_diagonal. Qed.
Print Assumptions C108_diagonal.

(** The hypothesis [same_lattice] for cells with right angles, also when the first base vector is off by four last digits. *)
Theorem C108_right_angles : forall S a a' b c, edge a -> edge b -> edge c -> Rabs (a' - a) <= / 1125899906842624 * a ->
  p_base S = M3 a' 0 0 0 b 0 0 0 c -> p_sph S = box a b c -> same_lattice S.
Proof. exact right_angles_same. Qed.
Print Assumptions C108_right_angles.

(** Isolated structures: the distance has a relative error of 2^-51; every selected site in the range, by more than that, is shown once. *)
Theorem C108_isolated_partial : forall S a sel rmin rmax pts, (forall i, vdbl (fp_pos S i)) ->
  exists l v, loop_shows false S a sel rmin rmax pts l /\ NoDup v /\
    Forall2 (fun k b => let j := nth k sel O in let d := vdist (fp_pos S j) (fp_pos S a) in b_site1 b = j /\ Rabs (b_dist b - d) <= iso_tol d) v l /\
    (forall k, In k v -> let d := vdist (fp_pos S (nth k sel O)) (fp_pos S a) in (k < length sel)%nat /\ within (- iso_tol d) rmin rmax d) /\
    (forall k, let d := vdist (fp_pos S (nth k sel O)) (fp_pos S a) in (k < length sel)%nat -> within (iso_tol d) rmin rmax d -> In k v).
Proof. exact isolated_bonds. Qed.
Print Assumptions C108_isolated_partial.

(** In an isolated structure the two ends of a bond agree to the last bit. *)
Theorem C108_isolated_symmetric : forall S a b sel rmin rmax pts la lb,
  loop_shows false S a sel rmin rmax pts la -> loop_shows false S b sel rmin rmax pts lb -> In a sel ->
  forall x, In x la -> b_site1 x = b -> exists y, In y lb /\ b_site1 y = a /\ b_dist y = b_dist x /\ b_r01 y = turned (b_r01 x).
Proof. exact isolated_symmetric. Qed.
Print Assumptions C108_isolated_symmetric.

(** This is not so in a periodic structure: a bond of the length rmax is seen from one of its atoms only. *)
Theorem C108_symmetric_refuted : exists S sel rmax pts l0 l1 b, same_lattice S /\ bpow radix2 (-299) <= fp_maxdiag S /\ In O sel /\ In 1%nat sel /\
  visits (fp_sphmin S 0) (fp_sphmax S rmax) (p_sph S) pts /\
  loop_shows true S 0 sel 0 rmax pts l0 /\ loop_shows true S 1 sel 0 rmax pts l1 /\
  In b l0 /\ b_site1 b = 1%nat /\ b_dist b = rmax /\ forall x, In x l1 -> b_site1 x <> 0%nat.
Proof.
  assert (D : bpow radix2 (-299) <= fp_maxdiag cube).
  { pose proof cube_diag. apply Rle_trans with (bpow radix2 0); [apply bpow_le; lia|]. change (bpow radix2 0) with 1. lra. }
  assert (P : 0 <= rx) by (apply Rlt_le, bpow_gt_0).
  destruct (periodic_bonds cube 0 [0; 1]%nat 0 rx cube_same D P) as (pts & l0 & v & HV & H0 & _).
  destruct (periodic_bonds cube 1 [0; 1]%nat 0 rx cube_same D P) as (pts' & l1 & v' & HV' & H1 & _).
  assert (E : pts' = pts). { apply visits_all in HV, HV'. congruence. } subst pts'.
  exists cube, [0; 1]%nat, rx, pts, l0, l1, (FpBondsLoop.i_bond true cube 0 [0; 1]%nat (1%nat, (1, 0, 0)%Z)).
  split; [exact cube_same|]. split; [exact D|]. split; [cbn; auto|]. split; [cbn; auto|]. split; [exact HV|]. split; [exact H0|]. split; [exact H1|].
  destruct sees as [S1 S2]. split.
  - rewrite (shows_unique _ _ _ _ _ _ _ _ H0). apply in_map, filter_In. split; [|exact S1]. apply in_images. split; [cbn; lia|].
    pose proof (seen pts HV) as I. unfold FpBondsLoop.Ts. destruct pts; [destruct I|exact I].
  - split; [reflexivity|]. split; [exact S2|]. intros x I E. rewrite (shows_unique _ _ _ _ _ _ _ _ H1) in I.
    apply in_map_iff in I as ((k & [[m n] o]) & <- & I). apply filter_In in I as [I V]. apply in_images in I as [Hk _]. cbn [length] in Hk.
    destruct k as [|[|k]]; [|discriminate|lia]. now rewrite blind in V.
Qed.
Print Assumptions C108_symmetric_refuted.

(** a cell with two atoms: the hypotheses hold, and with rmax = 2 the first sees the second in the same cell *)
Example C108_nonvacuous : same_lattice cube /\ bpow radix2 (-299) <= fp_maxdiag cube /\
  bpow radix2 (-300) <= msize (p_met cube) /\ (forall w, corner w -> / 1048576 * msize (p_met cube) <= quad (p_met cube) w) /\
  roomy cube 0 2 0 1 /\ within (tol cube 0 1 (0, 0, 0)%Z) 0 2 (vnorm (apart cube 0 1 (0, 0, 0)%Z)).
Proof.
  split; [exact cube_same|]. pose proof cube_diag as D. split.
  { apply Rle_trans with (bpow radix2 0); [apply bpow_le; lia|]. change (bpow radix2 0) with 1. lra. }
  assert (M : msize (p_met cube) = 3). { unfold msize, cube. cbn [p_met g00 g11 g22 g01 g02 g12]. rewrite Rabs_R0, (Rabs_pos_eq 1) by lra. ring. }
  rewrite M. split.
  { apply Rle_trans with (bpow radix2 0); [apply bpow_le; lia|]. change (bpow radix2 0) with 1. lra. }
  split.
  { intros w (Hx & Hy & Hz). unfold quad, cube. cbn [p_met g00 g11 g22 g01 g02 g12].
    destruct Hx as [-> | ->], Hy as [-> | ->], Hz as [-> | ->]; lra. }
  clear M. pose proof b60 as B. assert (P : px = 1023 / 1024) by (unfold px; rewrite b10; lra).
  assert (N : forall x, 0 <= x -> vnorm (V3 (- x) 0 0) = x).
  { intros x H. unfold vnorm, vdot. cbn [vx vy vz]. rewrite Rmult_0_l, !Rplus_0_r. rewrite Rmult_opp_opp. now apply sqrt_square. }
  split.
  - left. rewrite home0, home1. replace (vsub _ _) with (V3 (- (px - py)) 0 0) by (unfold vsub; cbn [vx vy vz]; f_equal; ring).
    rewrite N by (unfold py; lra). unfold py. set (q := bpow radix2 (-60)) in *. clearbody q. set (m := fp_maxdiag cube) in *. clearbody m. lra.
  - unfold apart. rewrite home0, home1. replace (vadd _ _) with (V3 (- (px - py)) 0 0)
      by (unfold vadd, vsub, lattice_vec, vm; cbn [vx vy vz]; f_equal; ring).
    rewrite N by (unfold py; lra). unfold within, tol, extent. rewrite home0, home1. unfold size1. cbn [vx vy vz]. rewrite Rabs_R0.
    rewrite (Rabs_pos_eq px), (Rabs_pos_eq py) by (unfold py; lra). rewrite !Rmult_0_l, !Rplus_0_l, !Rplus_0_r.
    assert (bpow radix2 (-300) <= bpow radix2 0) by (apply bpow_le; lia). change (bpow radix2 0) with 1 in *. pose proof (bpow_gt_0 radix2 (-300)).
    unfold py. set (q := bpow radix2 (-60)) in *. clearbody q. set (e := bpow radix2 (-300)) in *. clearbody e. split; lra.
Qed.
