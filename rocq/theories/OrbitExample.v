(** A crystal with a fourfold axis, and a quantity that looks at the tensors. *)
From Coq Require Import String.
From Verif Require Import RBase R3 Trig Sphere SphereProofs Lattice LatticeSpec LatticeProofs Crystal CrystalSpec CrystalProofs CrystalMain CrystalSep CrystalCell CrystalTensor CrystalExample
  StructDiff StructDiffSpec Evaluator EvaluatorSpec BondGen BondGenSpec BondGenProofs World WorldSpec OrbitSpec OrbitGroup OrbitTensor.
Import ListNotations.
Open Scope R_scope.
Notation length := List.length.

Definition r1 : mat := M3 0 (-1) 0 1 0 0 0 0 1.
Definition r2 : mat := M3 (-1) 0 0 0 (-1) 0 0 0 1.
Definition r3 : mat := M3 0 1 0 (-1) 0 0 0 0 1.
Definition quad : list symop := [mkOp mid vzero; mkOp r1 vzero; mkOp r2 vzero; mkOp r3 vzero].
Definition iron : catom := mkCA (V3 (1 / 4) 0 0) (M3 2 0 0 0 1 0 0 0 1) "Fe"%string 1 true.
Definition nickel : catom := mkCA vzero (M3 1 0 0 0 1 0 0 0 3) "Ni"%string 1 true.
Definition metals (x : adp) : Prop :=
  x = Adp 0 (StructDiff.Crystal lattice0 prec0 quad [iron]) \/ x = Adp 1 (StructDiff.Crystal lattice0 prec0 quad [iron; nickel]).

Ltac ops4 H := destruct H as [<-|[<-|[<-|[<-|[]]]]].
Ltac calc := unfold op_image, mv, vadd, r1, r2, r3, mid, vzero in *; cbn [op_R op_t vx vy vz x00 x01 x02 x10 x11 x12 x20 x21 x22] in *.
Ltac lin u := destruct u as [a b c]; calc; f_equal; ring.
Lemma eq_same u v : u = v -> same_site u v. Proof. intros ->. apply same_refl. Qed.
Lemma quad_group : space_group lattice0 quad.
Proof.
  split.
  - intros o Ho u. rewrite !cart0. unfold vnorm. f_equal. destruct u as [a b c]. ops4 Ho; unfold vdot; calc; ring.
  - intros o Ho i j k. ops4 Ho; unfold iv; calc.
    + exists i, j, k. f_equal; ring.
    + exists (- j)%Z, i, k. rewrite opp_IZR. f_equal; ring.
    + exists (- i)%Z, (- j)%Z, k. rewrite !opp_IZR. f_equal; ring.
    + exists j, (- i)%Z, k. rewrite opp_IZR. f_equal; ring.
  - assert (P : forall o o' q, In q quad -> (forall u, op_image o (op_image o' u) = op_image q u) -> exists q, In q quad /\ forall u, same_site (op_image o (op_image o' u)) (op_image q u)).
    { intros o o' q Hq H. exists q. split; auto. intros u. now apply eq_same. }
    intros o o' Ho Ho'. ops4 Ho; ops4 Ho';
      first [apply (P _ _ (mkOp mid vzero)); [cbn; tauto|intros u; lin u] | apply (P _ _ (mkOp r1 vzero)); [cbn; tauto|intros u; lin u]
            |apply (P _ _ (mkOp r2 vzero)); [cbn; tauto|intros u; lin u] | apply (P _ _ (mkOp r3 vzero)); [cbn; tauto|intros u; lin u]].
  - intros o Ho. ops4 Ho; [exists (mkOp mid vzero)|exists (mkOp r3 vzero)|exists (mkOp r2 vzero)|exists (mkOp r1 vzero)];
      (split; [cbn; tauto|split; intros u; apply eq_same; lin u]).
Qed.
(** positions on a grid of quarters *)
Definition quarter (u : vec) : Prop := exists i j k, u = V3 (IZR i / 4) (IZR j / 4) (IZR k / 4).
Lemma small_int x (k : Z) : x = IZR k / 4 -> Rabs x <= prec0 -> x = 0.
Proof.
  intros -> H. assert (- (1 / 4) < IZR k / 4 < 1 / 4) by (revert H; unfold prec0, Rabs; destruct (Rcase_abs _); lra).
  assert (k = 0)%Z as ->; [|lra]. assert (-1 < k < 1)%Z by (split; apply lt_IZR; lra). lia.
Qed.
Lemma quarter_near u v : quarter u -> quarter v -> same_site u v \/ ~ near lattice0 prec0 u v.
Proof.
  intros (i & j & k & ->) (i' & j' & k' & ->).
  destruct (Classical_Prop.classic (near lattice0 prec0 (V3 (IZR i / 4) (IZR j / 4) (IZR k / 4)) (V3 (IZR i' / 4) (IZR j' / 4) (IZR k' / 4)))) as [(m & n & o & H)|H]; [left|now right].
  unfold vdist in H. rewrite cart_sub in H. destruct (comp_bound lattice0 (vsub (V3 (IZR i / 4) (IZR j / 4) (IZR k / 4)) (vadd (V3 (IZR i' / 4) (IZR j' / 4) (IZR k' / 4)) (iv m n o))) lattice0_consistent) as (A & B & C).
  destruct recip0 as (e1 & e2 & e3). rewrite e1, Rmult_1_r in A. rewrite e2, Rmult_1_r in B. rewrite e3, Rmult_1_r in C. exists m, n, o.
  unfold vsub, vadd, iv in *. cbn [vx vy vz] in *.
  assert (X : IZR i / 4 - (IZR i' / 4 + IZR m) = 0) by (apply (small_int _ (i - i' - 4 * m)); [rewrite !minus_IZR, mult_IZR; field|lra]).
  assert (Y : IZR j / 4 - (IZR j' / 4 + IZR n) = 0) by (apply (small_int _ (j - j' - 4 * n)); [rewrite !minus_IZR, mult_IZR; field|lra]).
  assert (Z : IZR k / 4 - (IZR k' / 4 + IZR o) = 0) by (apply (small_int _ (k - k' - 4 * o)); [rewrite !minus_IZR, mult_IZR; field|lra]).
  f_equal; lra.
Qed.
Lemma quarter_snap i : no_snap (IZR i / 4).
Proof.
  unfold no_snap. destruct (Rfloor_spec (IZR i / 4)) as [H1 H2]. set (k := Rfloor (IZR i / 4)) in *.
  assert (X : (i - 4 * k < 4)%Z) by (apply lt_IZR; rewrite minus_IZR, mult_IZR; lra).
  assert (Y : (i - 4 * k <= 3)%Z) by lia. apply IZR_le in Y. rewrite minus_IZR, mult_IZR in Y. lra.
Qed.
Lemma quarter_image u o : quarter u -> In o quad -> quarter (op_image o u).
Proof.
  intros (i & j & k & ->) Ho. ops4 Ho; calc.
  - exists i, j, k. f_equal; field.
  - exists (- j)%Z, i, k. rewrite opp_IZR. f_equal; field.
  - exists (- i)%Z, (- j)%Z, k. rewrite !opp_IZR. f_equal; field.
  - exists j, (- i)%Z, k. rewrite opp_IZR. f_equal; field.
Qed.
Lemma quarter_exact a : quarter (c_xyz a) -> exact_site lattice0 prec0 quad a.
Proof.
  intros HQ. unfold exact_site. rewrite frac0.
  assert (X : forall u, In u (images quad (c_xyz a)) -> quarter u) by (intros u Hu; unfold images in Hu; apply in_map_iff in Hu as (o & <- & Ho); now apply quarter_image).
  split; [intros u v Hu Hv; apply quarter_near; auto|]. intros u Hu. destruct (X u Hu) as (i & j & k & ->). cbn [vx vy vz]. repeat split; apply quarter_snap.
Qed.
Lemma iron_quarter : quarter (c_xyz iron). Proof. exists 1%Z, 0%Z, 0%Z. cbn [iron c_xyz]. f_equal; field. Qed.
Lemma nickel_quarter : quarter (c_xyz nickel). Proof. exists 0%Z, 0%Z, 0%Z. cbn [nickel c_xyz]. unfold vzero. f_equal; field. Qed.
Lemma part0 M N : cart_part lattice0 M N -> N = M.
Proof. intros H. apply mv_ext. intros u. specialize (H u). now rewrite !cart0 in H. Qed.
Lemma half_int (k : Z) x : x = 1 / 2 \/ x = 1 / 4 \/ x = - (1 / 2) \/ x = - (1 / 4) -> x = IZR k -> False.
Proof. intros H E. assert (-1 < k < 1)%Z by (split; apply lt_IZR; lra). assert (k = 0%Z) as -> by lia. lra. Qed.
Lemma iron_sym : site_symmetric lattice0 quad iron.
Proof.
  intros o N Ho HN S. apply part0 in HN. subst N. rewrite frac0 in S. destruct S as (i & j & k & E). cbn [iron c_xyz c_uij] in *. unfold iv in E. ops4 Ho; calc; injection E as E1 E2 E3.
  - unfold mm, tr. cbn [x00 x01 x02 x10 x11 x12 x20 x21 x22]. f_equal; ring.
  - exfalso. apply (half_int j (1 / 4)); lra.
  - exfalso. apply (half_int i (- (1 / 2))); lra.
  - exfalso. apply (half_int j (- (1 / 4))); lra.
Qed.
Lemma nickel_sym : site_symmetric lattice0 quad nickel.
Proof.
  intros o N Ho HN _. apply part0 in HN. subst N. cbn [nickel c_uij]. ops4 Ho; calc; unfold mm, tr; cbn [x00 x01 x02 x10 x11 x12 x20 x21 x22]; f_equal; ring.
Qed.
Lemma quad_follow a : quarter (c_xyz a) -> site_symmetric lattice0 quad a -> tensors_follow lattice0 prec0 quad a.
Proof.
  intros HQ SS. refine (follow_holds lattice0 prec0 quad _ _ quad_group (mkOp mid vzero) _ eq_refl eq_refl _ a (quarter_exact a HQ) SS).
  - now left.
  - apply fine0. unfold prec0. lra.
  - intros o _. unfold axes_match. cbv zeta. destruct recip0 as (-> & -> & ->). auto.
Qed.
Lemma metals_orderly x : metals x -> orderly true x.
Proof.
  intros [-> | ->]; unfold orderly; cbn [env_of atoms_of]; (split; [exact quad_group|]); intros a Ha.
  - destruct Ha as [<-|[]]. split; [apply quarter_exact, iron_quarter|]. intros _. apply quad_follow; [apply iron_quarter|apply iron_sym].
  - destruct Ha as [<-|[<-|[]]]; (split; [apply quarter_exact|intros _; apply quad_follow]); first [apply iron_quarter|apply nickel_quarter|apply iron_sym|apply nickel_sym].
Qed.
Lemma metals_program : program metals.
Proof.
  split.
  - intros x y [-> | ->] [-> | ->]; cbn; (split; [intros E; try discriminate E; reflexivity|exact I]).
  - intros x y [-> | ->] [-> | ->]; exact I.
  - intros x [-> | ->]; cbn [env_of good_env]; (split; [now left|split; [apply fine0; unfold prec0; lra|discriminate]]).
Qed.

(** the spread of the two atoms along their bond, times the multiplicity *)
Definition along (r : vec) (u0 u1 : mat) : R := vdot r (mv u0 r) + vdot r (mv u1 r).
Definition spread : quantity R R := {|
  q_zero := 0; q_add := Rplus; q_rmin := fun _ => 0; q_rmax := fun r => r; q_hasmask := fun _ => false; q_haspairmask := fun _ => false;
  q_mask := fun _ _ _ _ _ => true; q_contrib := fun _ e z a _ r _ u => INR (multiplicity e a) * (IZR z * along r (c_uij a) u); q_outer := fun _ _ => true; q_stash := true |}.
Definition hspread (c : R) (e : envt) (z : Z) (a b : catom) (r : vec) (u0 u1 : mat) : R := IZR z * along r u0 u1.
Lemma times_spread n v : times spread n v = INR n * v.
Proof. unfold times. induction n as [|n IH]; [cbn; ring|]. cbn [repeat]. unfold qsum in *. cbn [fold_right]. rewrite IH. cbn [q_add spread]. rewrite S_INR. ring. Qed.
Lemma isometry_dot N : (forall w, vnorm (mv N w) = vnorm w) -> forall u w, vdot (mv N u) (mv N w) = vdot u w.
Proof.
  intros H. assert (S : forall w, vdot (mv N w) (mv N w) = vdot w w) by (intros w; rewrite <- !vnorm_sq; now rewrite H).
  intros u w. pose proof (S (vadd u w)) as E. pose proof (S u) as E1. pose proof (S w) as E2.
  assert (X : forall p q, vdot (vadd p q) (vadd p q) = vdot p p + 2 * vdot p q + vdot q q) by (intros p q; vring).
  replace (mv N (vadd u w)) with (vadd (mv N u) (mv N w)) in E by (clear; vring). rewrite !X in E. lra.
Qed.
Lemma turn_form N U r : (forall w, vnorm (mv N w) = vnorm w) -> vdot (mv N r) (mv (mm N (mm U (tr N))) (mv N r)) = vdot r (mv U r).
Proof.
  intros H. assert (T : mm (tr N) N = mid).
  { apply mv_ext. intros u. pose proof (isometry_dot N H) as D. assert (E : forall w, vdot w (mv (mm (tr N) N) u) = vdot w u) by (intros w; rewrite <- (D w u); clear; vring).
    pose proof (E (V3 1 0 0)) as A. pose proof (E (V3 0 1 0)) as B. pose proof (E (V3 0 0 1)) as C. clear E D H. destruct (mv (mm (tr N) N) u) as [p q s]. destruct u as [x y z].
    unfold vdot, mv, mid in *. cbn [vx vy vz x00 x01 x02 x10 x11 x12 x20 x21 x22] in *. f_equal; lra. }
  replace (mv (mm N (mm U (tr N))) (mv N r)) with (mv N (mv U (mv (mm (tr N) N) r))) by (clear; vring). rewrite (isometry_dot N H), T. f_equal. f_equal. clear. vring.
Qed.
Lemma spread_pairs : invariant_pairs spread hspread.
Proof.
  split.
  - intros c e z a b r u. cbn [q_contrib spread]. now rewrite times_spread.
  - intros c e z a b r u0 u1. unfold hspread, along. f_equal. vring.
  - intros c e z a b r u0 u1 N H. unfold hspread, along. now rewrite !turn_form.
  - intros c e a b r d u. cbn [q_contrib q_add spread]. lra.
  - reflexivity.
Qed.
Lemma spread_ok : quantity_ok spread Ropp.
Proof. split; cbn; intros; try lra; try reflexivity. rewrite opp_IZR. lra. Qed.
