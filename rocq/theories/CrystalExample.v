(** Concrete crystals: what the expansion does at the cell boundary, for nearly special positions, without
    symmetry operations. *)
From Coq Require Import String.
From Verif Require Import RBase R3 Trig TrigProofs Sphere SphereMain Lattice LatticeSpec LatticeProofs BondGen BondGenSpec BondGenProofs BondGenMain
  Crystal CrystalSpec CrystalProofs CrystalMain CrystalSep CrystalCell.
Import ListNotations.
Open Scope R_scope.
Notation length := List.length.

(** ** the default lattice *)
Lemma cosd90 : cosd 90 = 0.
Proof. rewrite cosd_cos. replace (90 / 180 * PI) with (PI / 2) by field. apply cos_PI2. Qed.
Lemma sind90 : sind 90 = 1.
Proof. rewrite sind_sin. replace (90 / 180 * PI) with (PI / 2) by field. apply sin_PI2. Qed.
Lemma base0 : base lattice0 = mid.
Proof.
  unfold lattice0, setLatPar. cbn [base baserot blank]. rewrite cosd90, sind90. rewrite mm_id_r. unfold mk_stdbase, mklatpar, Vunit.
  cbn [ar cgr sgr cb la lb sa ca lc]. replace (1 + 2 * 0 * 0 * 0 - 0 * 0 - 0 * 0 - 0 * 0) with 1 by ring. rewrite sqrt_1.
  replace (1 - (0 * 0 - 0) / (1 * 1) * ((0 * 0 - 0) / (1 * 1))) with 1 by field. rewrite sqrt_1. unfold mid. f_equal; field.
Qed.
Lemma cart0 u : cartesian lattice0 u = u.
Proof. unfold cartesian. now rewrite base0, vm_id. Qed.
Lemma frac0 u : fractional lattice0 u = u.
Proof. rewrite <- (cart0 (fractional lattice0 u)). apply (k_inv2 _ lattice0_consistent). Qed.
Lemma recbase0 : recbase lattice0 = mid.
Proof.
  unfold lattice0, setLatPar. cbn [recbase]. change (mm _ _) with (base lattice0). rewrite base0.
  unfold minv, det, adj, mid, mscale. cbn [x00 x01 x02 x10 x11 x12 x20 x21 x22]. f_equal; field.
Qed.
Lemma recip0 : vnorm (Lvar lattice0) = 1 /\ vnorm (Lvbr lattice0) = 1 /\ vnorm (Lvcr lattice0) = 1.
Proof.
  change (vnorm (col0 (recbase lattice0)) = 1 /\ vnorm (col1 (recbase lattice0)) = 1 /\ vnorm (col2 (recbase lattice0)) = 1).
  rewrite recbase0. unfold vnorm, col0, col1, col2, mid, vdot. cbn [vx vy vz x00 x01 x02 x10 x11 x12 x20 x21 x22].
  repeat split; (transitivity (sqrt 1); [f_equal; ring|apply sqrt_1]).
Qed.
Lemma fine0 eps : 0 <= eps < 1 / 2 -> fine lattice0 eps.
Proof. intros H. destruct recip0 as (E1 & E2 & E3). unfold fine. rewrite E1, E2, E3. lra. Qed.
Lemma lnorm0 u : lnorm lattice0 u = vnorm u.
Proof. rewrite (k_norm _ lattice0_consistent). now rewrite cart0. Qed.

Lemma snap_is x : 0 <= x < 1 - / 67108864 -> snap x = x.
Proof. intros H. assert (E : Rfloor x = 0%Z) by (apply Rfloor_unit; lra). rewrite snap_frac; rewrite E; lra. Qed.
Lemma Rround_is x k : Rabs (x - IZR k) < 1 / 2 -> Rround x = k.
Proof. apply Rround_unique. Qed.
Lemma norm_le_sq u e : 0 <= e -> vdot u u <= e * e -> vnorm u <= e.
Proof. intros H K. unfold vnorm. rewrite <- (sqrt_square e) by auto. now apply sqrt_le_1_alt. Qed.
Lemma norm_gt_sq u e : 0 <= e -> e * e < vdot u u -> e < vnorm u.
Proof. intros H K. unfold vnorm. rewrite <- (sqrt_square e) by auto. apply sqrt_lt_1_alt. nra. Qed.

(** ** an atom close to an inversion centre at the origin *)
Definition inversion : list symop := [mkOp mid vzero; mkOp (mscale (-1) mid) vzero].
Definition off_origin : catom := mkCA (V3 (/ 1000000) 0 0) mid "C"%string 1 true.
Definition prec0 : R := 5 / 100000.
Lemma off_images : images inversion (c_xyz off_origin) = [V3 (/ 1000000) 0 0; V3 (- / 1000000) 0 0].
Proof. unfold images, inversion. cbn [map op_R op_t off_origin c_xyz]. repeat f_equal; vring. Qed.
Lemma off_expand : expandLatticeAtom lattice0 inversion prec0 off_origin = [mkCA (V3 (1 / 2) 0 0) mid "C"%string 1 true].
Proof.
  unfold expandLatticeAtom, inversion. cbn [fold_left].
  set (st1 := expand_step lattice0 prec0 off_origin (mkEq [] [] []) (mkOp mid vzero)).
  assert (E1 : st1 = mkEq [mkCA (V3 (/ 1000000) 0 0) mid "C"%string 1 true] [V3 (/ 1000000) 0 0] [1%nat]).
  { unfold st1, expand_step. cbn [eqsites eqsumpos eqduplicity findEqualPosition op_R op_t off_origin c_xyz c_uij c_type c_occ c_anis app upd nth length].
    assert (EI : op_image (mkOp mid vzero) (V3 (/ 1000000) 0 0) = V3 (/ 1000000) 0 0) by (unfold op_image; cbn [op_R op_t]; vring).
    rewrite EI. f_equal; [f_equal; f_equal; vring|]. f_equal. unfold ucvFractional, vadd, vzero. cbn [vx vy vz]. rewrite !snap_is by lra. f_equal; ring. }
  rewrite E1. clear E1 st1. unfold expand_step. cbn [eqsites eqsumpos eqduplicity].
  assert (EI : op_image (mkOp (mscale (-1) mid) vzero) (c_xyz off_origin) = V3 (- / 1000000) 0 0) by (unfold op_image; cbn [op_R op_t off_origin c_xyz]; vring).
  rewrite EI. cbn [findEqualPosition c_xyz].
  assert (ED : drnd (V3 (/ 1000000) 0 0) (V3 (- / 1000000) 0 0) = V3 (2 / 1000000) 0 0).
  { unfold drnd, vsub. cbn [vx vy vz]. rewrite (Rround_is (/ 1000000 - - / 1000000) 0), (Rround_is (0 - 0) 0).
    - f_equal; field.
    - rewrite Rminus_0_r, Rminus_0_r, Rabs_R0. lra.
    - rewrite Rabs_right; lra. }
  rewrite ED. rewrite (proj2 (Rleb_true _ _)).
  - cbn [eqsites eqsumpos eqduplicity upd nth mean_sites c_uij c_type c_occ c_anis]. f_equal. f_equal.
    unfold ucvFractional. cbn [vx vy vz].
    assert (ES : snap (- / 1000000) = 1 - / 1000000).
    { assert (EF : Rfloor (- / 1000000) = (-1)%Z).
      { apply Z.le_antisymm; [apply Z.lt_succ_r; cbn; apply Rfloor_lt; cbn; lra|apply Rfloor_le; cbn; lra]. }
      rewrite snap_frac; rewrite EF; cbn; lra. }
    rewrite ES, (snap_is 0) by lra. unfold vscale, vadd. cbn [vx vy vz Nat.add INR]. f_equal; field.
  - rewrite lnorm0. unfold prec0. apply norm_le_sq; [lra|]. unfold vdot. cbn [vx vy vz]. lra.
Qed.
Lemma off_far u : In u (images inversion (c_xyz off_origin)) -> ~ near lattice0 (2 / 5) (V3 (1 / 2) 0 0) u.
Proof.
  rewrite off_images. intros H (m & n & o & K). unfold vdist in K. rewrite cart_sub in K.
  destruct (comp_bound lattice0 (vsub (V3 (1 / 2) 0 0) (vadd u (iv m n o))) lattice0_consistent) as (B & _ & _).
  rewrite (proj1 recip0), Rmult_1_r in B. assert (B2 : Rabs (vx (vsub (V3 (1 / 2) 0 0) (vadd u (iv m n o)))) <= 2 / 5) by lra. clear B K.
  assert (X : exists x, -1 / 1000000 <= x <= 1 / 1000000 /\ vx u = x).
  { destruct H as [<-|[<-|[]]]; eexists; (split; [|reflexivity]); cbn; lra. }
  destruct X as (x & X1 & X2). unfold vsub, vadd, iv in B2. cbn [vx] in B2. rewrite X2 in B2.
  assert (C1 : 0 < IZR m \/ IZR m <= 0) by lra.
  assert (- (2 / 5) <= 1 / 2 - (x + IZR m) <= 2 / 5) by (revert B2; unfold Rabs; destruct (Rcase_abs _); lra).
  assert ((m < 1)%Z) by (apply lt_IZR; lra). assert ((-1 < m)%Z) by (apply lt_IZR; lra). assert (m = 0%Z) by lia. subst m. cbn in *. lra.
Qed.

(** ** a fourfold axis at (1/2, 1/2): images on a small square *)
Definition rot4 : mat := M3 0 (-1) 0 1 0 0 0 0 1.
Definition fourfold : list symop := [mkOp mid vzero; mkOp rot4 (V3 1 0 0); mkOp (mm rot4 rot4) (V3 1 1 0); mkOp (mm rot4 (mm rot4 rot4)) (V3 0 1 0)].
Definition dsq : R := 3 / 100000.
Definition off_axis : catom := mkCA (V3 (1 / 2 + dsq) (1 / 2) 0) mid "C"%string 1 true.
Lemma ax_images : images fourfold (c_xyz off_axis) =
  [V3 (1 / 2 + dsq) (1 / 2) 0; V3 (1 / 2) (1 / 2 + dsq) 0; V3 (1 / 2 - dsq) (1 / 2) 0; V3 (1 / 2) (1 / 2 - dsq) 0].
Proof. unfold images, fourfold. cbn [map op_R op_t off_axis c_xyz]. unfold rot4, mm, mv, vadd. cbn [x00 x01 x02 x10 x11 x12 x20 x21 x22 vx vy vz mid vzero]. repeat (apply f_equal2; [f_equal; field|]); reflexivity. Qed.
Lemma drnd_small u v : Rabs (vx u - vx v) < 1 / 2 -> Rabs (vy u - vy v) < 1 / 2 -> Rabs (vz u - vz v) < 1 / 2 -> drnd u v = vsub u v.
Proof.
  intros H1 H2 H3. unfold drnd. destruct u as [u1 u2 u3], v as [v1 v2 v3]. unfold vsub. cbn [vx vy vz] in *.
  rewrite (Rround_is (u1 - v1) 0), (Rround_is (u2 - v2) 0), (Rround_is (u3 - v3) 0) by (rewrite Rminus_0_r; auto). f_equal; ring.
Qed.
Ltac comp := unfold dsq, prec0; cbn [vx vy vz]; unfold Rabs; repeat destruct (Rcase_abs _); lra.
Ltac near_tac := rewrite drnd_small by comp; rewrite lnorm0.
Lemma ax_expand : exists a b, expandLatticeAtom lattice0 fourfold prec0 off_axis = [a; b] /\
  c_xyz a = V3 (1 / 2 + dsq / 3) (1 / 2) 0 /\ c_xyz b = V3 (1 / 2 - dsq) (1 / 2) 0.
Proof.
  unfold expandLatticeAtom, fourfold. cbn [fold_left]. set (o1 := mkOp mid vzero). set (o2 := mkOp rot4 (V3 1 0 0)).
  set (o3 := mkOp (mm rot4 rot4) (V3 1 1 0)). set (o4 := mkOp (mm rot4 (mm rot4 rot4)) (V3 0 1 0)).
  pose proof ax_images as EI. unfold images, fourfold in EI. cbn [map] in EI. injection EI as X1 Y1 Z1 X2 Y2 Z2 X3 Y3 Z3 X4 Y4 Z4.
  assert (I1 : op_image o1 (c_xyz off_axis) = V3 (1 / 2 + dsq) (1 / 2) 0) by (unfold op_image, vadd; f_equal; assumption).
  assert (I2 : op_image o2 (c_xyz off_axis) = V3 (1 / 2) (1 / 2 + dsq) 0) by (unfold op_image, vadd; f_equal; assumption).
  assert (I3 : op_image o3 (c_xyz off_axis) = V3 (1 / 2 - dsq) (1 / 2) 0) by (unfold op_image, vadd; f_equal; assumption).
  assert (I4 : op_image o4 (c_xyz off_axis) = V3 (1 / 2) (1 / 2 - dsq) 0) by (unfold op_image, vadd; f_equal; assumption).
  clear X1 Y1 Z1 X2 Y2 Z2 X3 Y3 Z3 X4 Y4 Z4.
  assert (U1 : ucvFractional (V3 (1 / 2 + dsq) (1 / 2) 0) = V3 (1 / 2 + dsq) (1 / 2) 0) by (unfold ucvFractional; cbn [vx vy vz]; rewrite !snap_is by (unfold dsq; lra); reflexivity).
  assert (U2 : ucvFractional (V3 (1 / 2) (1 / 2 + dsq) 0) = V3 (1 / 2) (1 / 2 + dsq) 0) by (unfold ucvFractional; cbn [vx vy vz]; rewrite !snap_is by (unfold dsq; lra); reflexivity).
  assert (U3 : ucvFractional (V3 (1 / 2 - dsq) (1 / 2) 0) = V3 (1 / 2 - dsq) (1 / 2) 0) by (unfold ucvFractional; cbn [vx vy vz]; rewrite !snap_is by (unfold dsq; lra); reflexivity).
  assert (U4 : ucvFractional (V3 (1 / 2) (1 / 2 - dsq) 0) = V3 (1 / 2) (1 / 2 - dsq) 0) by (unfold ucvFractional; cbn [vx vy vz]; rewrite !snap_is by (unfold dsq; lra); reflexivity).
  assert (D12 : Rleb (lnorm lattice0 (drnd (V3 (1 / 2 + dsq) (1 / 2) 0) (V3 (1 / 2) (1 / 2 + dsq) 0))) prec0 = true).
  { apply Rleb_true. near_tac. apply norm_le_sq; [unfold prec0; lra|]. unfold vdot, vsub, dsq, prec0. cbn [vx vy vz]. lra. }
  assert (D13 : Rleb (lnorm lattice0 (drnd (V3 (1 / 2 + dsq) (1 / 2) 0) (V3 (1 / 2 - dsq) (1 / 2) 0))) prec0 = false).
  { apply Rleb_false. near_tac. apply norm_gt_sq; [unfold prec0; lra|]. unfold vdot, vsub, dsq, prec0. cbn [vx vy vz]. lra. }
  assert (D14 : Rleb (lnorm lattice0 (drnd (V3 (1 / 2 + dsq) (1 / 2) 0) (V3 (1 / 2) (1 / 2 - dsq) 0))) prec0 = true).
  { apply Rleb_true. near_tac. apply norm_le_sq; [unfold prec0; lra|]. unfold vdot, vsub, dsq, prec0. cbn [vx vy vz]. lra. }
  unfold expand_step. rewrite I1, I2, I3, I4.
  repeat (cbn [eqsites eqsumpos eqduplicity findEqualPosition c_xyz app upd nth length]; rewrite ?D12, ?D13, ?D14).
  eexists. eexists. split; [cbn [mean_sites]; reflexivity|]. cbn [c_xyz]. rewrite U1, U2, U3, U4.
  unfold vscale, vadd, vzero. cbn [vx vy vz Nat.add INR]. split; f_equal; field.
Qed.
