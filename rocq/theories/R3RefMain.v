(** setLatBase with references to own members, and the uses of references inside the library *)
From Verif Require Import Base RBase R3 Trig Sphere SphereSpec SphereProofs SphereGeom Lattice LatticeSpec LatticeProofs BondGen Crystal R3Ref R3RefSpec R3RefLU R3RefProofs.
From Coq Require Import Psatz.
Import ListNotations.
Open Scope R_scope.

Lemma setLatBase_value L xa xb xc : ~ overwritten xb xc ->
  setLatBase_ref L xa xb xc = setLatBase L (read (Lva L) (Lvb L) (Lvc L) xa) (read (Lva L) (Lvb L) (Lvc L) xb) (read (Lva L) (Lvb L) (Lvc L) xc).
Proof.
  intros H. unfold setLatBase_ref. rewrite determinant_det.
  set (va := read (Lva L) (Lvb L) (Lvc L) xa). set (vb := read (Lva L) (Lvb L) (Lvc L) xb). set (vc := read (Lva L) (Lvb L) (Lvc L) xc).
  assert (EB : read va (Lvb L) (Lvc L) xb = vb) by (unfold vb, overwritten in *; destruct xb; try reflexivity; tauto).
  rewrite EB.
  assert (EC : read va vb (Lvc L) xc = vc) by (unfold vc, overwritten in *; destruct xc; try reflexivity; tauto).
  rewrite EC. clearbody va vb vc. unfold setLatBase.
  destruct (Rltb (Rabs (det (rows va vb vc))) (/ 100000000)) eqn:E1; [reflexivity|].
  destruct (Rltb (det (rows va vb vc)) 0) eqn:E2; [reflexivity|].
  apply Rltb_false in E1. apply Rltb_false in E2.
  assert (HT : 0 < / 100000000) by (apply Rinv_0_lt_compat; lra).
  assert (Hp : 0 < det (rows va vb vc)) by (rewrite Rabs_pos_eq in E1; lra).
  pose proof (stdbase_det_pos _ (cell_of_base_ok va vb vc Hp)) as HS.
  cbv zeta. change (mklatpar _ _ _ _ _ _ _ _ _) with (lp (cell_of_base va vb vc)).
  rewrite !LU_invert_spec.
  replace (Reqb (det (mk_stdbase (lp (cell_of_base va vb vc)))) 0) with false by (symmetry; apply Reqb_false; lra).
  replace (Reqb (det (rows va vb vc)) 0) with false by (symmetry; apply Reqb_false; lra). reflexivity.
Qed.
(** a member used after its assignment: two members become equal *)
Lemma setLatBase_overwritten L xa xb xc L' : overwritten xb xc -> setLatBase_ref L xa xb xc = Ok L' ->
  Lva L' = Lvb L' \/ Lva L' = Lvc L' \/ Lvb L' = Lvc L'.
Proof.
  intros H. unfold setLatBase_ref. cbv zeta.
  destruct (Rltb _ _); [discriminate|]. destruct (Rltb _ _); [discriminate|].
  destruct (LU_invert _) as [Si|]; [|discriminate]. destruct (LU_invert _) as [Bi|]; [|discriminate].
  intros E. injection E as <-. cbn [Lva Lvb Lvc].
  destruct H as [H|[H|H]]; subst; cbn [read]; tauto.
Qed.
Lemma degenerate L : consistent L -> Lva L = Lvb L \/ Lva L = Lvc L \/ Lvb L = Lvc L -> False.
Proof.
  intros K H.
  assert (X : forall u v, cartesian L u = cartesian L v -> u = v) by (intros u v E; rewrite <- (k_inv1 _ K u), <- (k_inv1 _ K v), E; reflexivity).
  rewrite <- (k_va _ K), <- (k_vb _ K), <- (k_vc _ K) in H. destruct H as [H|[H|H]]; apply X in H; injection H; lra.
Qed.

(** *** the library *)
Lemma ucvFractional_val' v m : v <> SFloor -> vecs (ucvFractional_ref v m) SUcvFrac = ucvFractional (vecs m v).
Proof.
  intros I. unfold ucvFractional_ref.
  assert (E : vecs (put SUcvFrac (vsub (vecs (floorv v m) v) (vecs (floorv v m) SFloor)) (floorv v m)) SUcvFrac = vsub (vecs m v) (floor3 (vecs m v))).
  { rewrite put_same, floorv_val. rewrite floorv_other by auto. reflexivity. }
  destruct (ucv_tail _ _ E) as (H & _). rewrite H. reflexivity.
Qed.
Lemma toCartesian_value L a m : snd (toCartesian_ref L a m) = toCartesian L a.
Proof.
  unfold toCartesian_ref, toCartesian. cbn [snd].
  rewrite cartesian_val by discriminate. rewrite put_same, cartesianMatrix_val, mput_same. reflexivity.
Qed.
Lemma toFractional_value L a m : snd (toFractional_ref L a m) = toFractional L a.
Proof.
  unfold toFractional_ref, toFractional. cbn [snd].
  rewrite fractional_val by discriminate. rewrite put_same, fractionalMatrix_val, mput_same. reflexivity.
Qed.
Lemma expand_step_value L e a m st o : snd (expand_step_ref L e a (m, st) o) = expand_step L e a st o.
Proof.
  unfold expand_step_ref, expand_step. cbv zeta.
  rewrite put_same, put_same.
  rewrite (mxvec_val (MVar 1) (Var 0)) by discriminate. rewrite put_same.
  change (mats (put (Var 0) (c_xyz a) (mput (MVar 1) (op_R o) m)) (MVar 1)) with (mats (mput (MVar 1) (op_R o) m) (MVar 1)).
  rewrite mput_same. change (vadd (mv (op_R o) (c_xyz a)) (op_t o)) with (op_image o (c_xyz a)).
  destruct (findEqualPosition L e (eqsites st) (op_image o (c_xyz a))) as [k|]; cbn [snd];
    rewrite ucvFractional_val' by discriminate; rewrite put_same; reflexivity.
Qed.
Lemma expand_fold L e a ops : forall m st, snd (fold_left (expand_step_ref L e a) ops (m, st)) = fold_left (expand_step L e a) ops st.
Proof.
  induction ops as [|o ops IH]; intros m st; cbn [fold_left]; [reflexivity|].
  rewrite <- (expand_step_value L e a m st o). destruct (expand_step_ref L e a (m, st) o) as [m1 st1]. cbn [snd]. apply IH.
Qed.
Lemma expandLatticeAtom_value L ops e a m : snd (expandLatticeAtom_ref L ops e a m) = expandLatticeAtom L ops e a.
Proof.
  unfold expandLatticeAtom_ref, expandLatticeAtom. rewrite <- (expand_fold L e a ops m).
  destruct (fold_left (expand_step_ref L e a) ops (m, mkEq [] [] [])) as [m1 st]. reflexivity.
Qed.
Lemma each_value {A B} (f : A -> mem -> mem * B) (g : A -> B) : (forall a m, snd (f a m) = g a) -> forall l m, snd (each f l m) = map g l.
Proof.
  intros H. induction l as [|a l IH]; intros m; cbn [each map]; [reflexivity|].
  specialize (H a m). destruct (f a m) as [m1 b]. cbn [snd] in H. subst b. specialize (IH m1). destruct (each f l m1) as [m2 r]. cbn [snd] in *. now rewrite IH.
Qed.
Lemma updateSymmetryPositions_value L ops e atoms m : snd (updateSymmetryPositions_ref L ops e atoms m) = map (expand_site L ops e) atoms.
Proof.
  unfold updateSymmetryPositions_ref.
  pose proof (each_value (toFractional_ref L) (toFractional L) (fun a m => toFractional_value L a m) atoms m) as H.
  destruct (each (toFractional_ref L) atoms m) as [m1 l]. cbn [snd] in H. subst l.
  rewrite (each_value _ (fun a => map (toCartesian L) (expandLatticeAtom L ops e a))).
  - rewrite map_map. reflexivity.
  - intros a m2. pose proof (expandLatticeAtom_value L ops e a m2) as H. destruct (expandLatticeAtom_ref L ops e a m2) as [m3 l]. cbn [snd] in H. subst l.
    apply each_value. intros. apply toCartesian_value.
Qed.
Lemma positions_uc_value L atoms m : snd (positions_uc_ref L atoms m) = map (fun a => ucvCartesian L (c_xyz a)) atoms.
Proof.
  unfold positions_uc_ref. apply each_value. intros a m1. cbv zeta. cbn [snd]. unfold ucvCartesian_ref.
  rewrite put_same, cartesian_val by discriminate. rewrite ucvFractional_val' by discriminate. rewrite fractional_val by discriminate. now rewrite put_same.
Qed.
