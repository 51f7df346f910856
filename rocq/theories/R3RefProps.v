(** C101: results returned by reference *)
From Verif Require Import Base RBase R3 Trig Sphere Lattice LatticeSpec LatticeProofs BondGen Crystal R3Ref R3RefSpec R3RefLU R3RefProofs R3RefMain.
From Coq Require Import Psatz.
Import ListNotations.
Open Scope R_scope.

Lemma based ops va vb vc M : Forall admissible ops -> good_base va vb vc -> setLatBase (lat_run ops) va vb vc = Ok M -> consistent M.
Proof.
  intros A G E. pose proof (lattice_consistent ops (SetBase va vb vc) A G) as K. unfold lat_run in K. rewrite fold_left_app in K.
  change (fold_left lat_step ops lattice0) with (lat_run ops) in K. unfold fold_left, lat_step in K. rewrite E in K. exact K.
Qed.
(** C101: the determinant of every matrix is the determinant, whichever pivots are chosen. *)
Theorem C101_determinant : forall A, determinant A = det A.
Proof. exact determinant_det. Qed.
Print Assumptions C101_determinant.

(** C101: the inverse of every matrix that has one is the inverse on both sides; only for a matrix with zero determinant the process is aborted. *)
Theorem C101_inverse : forall A m,
  (det (mats m A) <> 0 -> exists m', exec (CInverse A) m = Some m' /\
     mm (mats m A) (mats m' SInverse) = mid /\ mm (mats m' SInverse) (mats m A) = mid) /\
  (det (mats m A) = 0 -> exec (CInverse A) m = None).
Proof.
  intros A m. cbn [exec]. rewrite inverse_spec. split; intros H.
  - replace (Reqb (det (mats m A)) 0) with false by (symmetry; now apply Reqb_false).
    eexists. split; [reflexivity|]. rewrite mput_same. split; [now apply inv_r|now apply inv_l].
  - replace (Reqb (det (mats m A)) 0) with true by (symmetry; now apply Reqb_true). reflexivity.
Qed.
Print Assumptions C101_inverse.

(** C101: after every history of calls, a call whose argument is not the result of the last product of the same kind delivers the value
    that its arguments call for, and changes only the listed cells. The whole claim, without [nested], is refuted below. *)
Theorem C101_value_partial : forall h m0 m c, start m0 -> run h m0 = Some m -> ~ nested c -> defined c m ->
  exists m', exec c m = Some m' /\ content (answer c) m' = expected c m /\ forall r, ~ In r (spoils c) -> content r m' = content r m.
Proof. intros h m0 m c S R. apply call_value. apply (run_integral h m0); auto. now apply start_integral. Qed.
Print Assumptions C101_value_partial.

(** C101: a copy made of a result keeps its value through every later call except an assignment to the same variable. *)
Theorem C101_copy_keeps : forall n h m m', (forall v, ~ In (CCopy n v) h) -> run h m = Some m' -> vecs m' (Var n) = vecs m (Var n).
Proof.
  intros n h. induction h as [|c h IH]; cbn [run In]; intros m m' N E; [now injection E as <-|].
  destruct (exec c m) as [m1|] eqn:E1; [|discriminate].
  rewrite (IH m1 m') by (auto; intros v K; apply (N v); now right). clear IH E.
  assert (Nc : forall v, c <> CCopy n v) by (intros v ->; apply (N v); now left). clear N.
  destruct c as [v|M u|u M|L v|L v|L v|v|L v|L v|L v|v|A|L A|L A|k v|k A]; cbn [exec] in E1;
    [..|rewrite inverse_spec in E1; destruct (Reqb _ _); [discriminate|]| | | |]; injection E1 as <-.
  - apply floorv_other; discriminate.
  - apply mxvec_other; discriminate.
  - apply vecmx_other; discriminate.
  - apply cartesian_other; discriminate.
  - apply fractional_other; discriminate.
  - apply ucvCartesian_other. cbn [In]. intuition discriminate.
  - apply ucvFractional_other; discriminate.
  - rewrite cartesian_other, copied_other by discriminate. reflexivity.
  - rewrite fractional_other, copied_other by discriminate. reflexivity.
  - rewrite ucvCartesian_other, copied_other; [reflexivity|discriminate|]. cbn [In]. intuition discriminate.
  - rewrite ucvFractional_other, copied_other by discriminate. reflexivity.
  - reflexivity.
  - reflexivity.
  - reflexivity.
  - apply put_other. intros X. injection X as ->. now apply (Nc v).
  - reflexivity.
Qed.
Print Assumptions C101_copy_keeps.

(** C101: conversions nested in each other are right: the Cartesian coordinates of the fractional coordinates are the vector itself, and
    the inverse of the inverse is the matrix itself. *)
Theorem C101_round_trip : forall L, consistent L -> forall u m, u <> SVecMx ->
  exists m', run [CFractional L u; CCartesian L SFrac] m = Some m' /\ vecs m' SCart = vecs m u.
Proof.
  intros L K u m H. cbn [run exec]. eexists. split; [reflexivity|]. rewrite cartesian_val by discriminate. rewrite fractional_val by auto.
  apply (k_inv2 _ K).
Qed.
Print Assumptions C101_round_trip.
Theorem C101_inverse_twice : forall A m, det (mats m A) <> 0 ->
  exists m', run [CInverse A; CInverse SInverse] m = Some m' /\ mats m' SInverse = mats m A.
Proof.
  intros A m H. cbn [run exec]. rewrite inverse_spec.
  replace (Reqb (det (mats m A)) 0) with false by (symmetry; now apply Reqb_false). rewrite inverse_spec, mput_same.
  pose proof (det_mm (mats m A) (minv (mats m A))) as K. rewrite inv_r, det_id in K by auto.
  assert (H' : det (minv (mats m A)) <> 0) by (intros Z; rewrite Z in K; lra).
  replace (Reqb (det (minv (mats m A))) 0) with false by (symmetry; now apply Reqb_false).
  eexists. split; [reflexivity|]. rewrite mput_same.
  rewrite <- (mm_id_r (minv (minv (mats m A)))), <- (inv_l (mats m A) H), mm_assoc, (inv_l _ H'). apply mm_id_l.
Qed.
Print Assumptions C101_inverse_twice.

(** C101 refuted: a product of a product is wrong: the first component of the result overwrites the argument. *)
Theorem C101_nested_product_refuted : exists m m', start m /\
  run [CMxVec (MVar 0) (Var 0); CMxVec (MVar 1) SMxVec] m = Some m' /\
  vecs m' SMxVec <> mv (mats m (MVar 1)) (mv (mats m (MVar 0)) (vecs m (Var 0))).
Proof.
  exists (mkMem (fun c => match c with Var _ => V3 1 2 0 | _ => vzero end)
    (fun c => match c with MVar O => mid | MVar _ => M3 0 1 0 1 0 0 0 0 1 | _ => mid end)).
  eexists. split; [intros []; reflexivity|]. cbn [run exec]. split; [reflexivity|].
  rewrite mxvec_nested. cbv zeta. rewrite mxvec_val by discriminate.
  change (mats (mxvec ?a ?b ?c)) with (mats c). cbn [vecs mats]. unfold mv, mid. cbn [vx vy vz x00 x01 x02 x10 x11 x12 x20 x21 x22].
  intros H. injection H. intros. lra.
Qed.
Print Assumptions C101_nested_product_refuted.

(** C101 refuted: the Cartesian coordinates of a vector obtained as a product are wrong, in a consistent lattice. *)
Theorem C101_cartesian_of_product_refuted : exists L m m', consistent L /\ start m /\
  run [CVecMx (Var 0) (MVar 0); CCartesian L SVecMx] m = Some m' /\
  vecs m' SCart <> cartesian L (vm (vecs m (Var 0)) (mats m (MVar 0))).
Proof.
  assert (G : good_base (V3 0 1 0) (V3 0 0 1) (V3 1 0 0)).
  { unfold good_base, vcross, vdot. cbn [vx vy vz]. apply Rle_trans with (/ 1); [apply Rinv_le_contravar; lra|lra]. }
  destruct (setLatBase_base lattice0 _ _ _ G) as (L & E & _ & _ & _ & EB).
  exists L, (mkMem (fun c => match c with Var _ => V3 1 2 3 | _ => vzero end) (fun c => mid)). eexists. split.
  { exact (based [] _ _ _ L (Forall_nil _) G E). }
  split; [intros []; reflexivity|]. cbn [run exec]. split; [reflexivity|].
  unfold cartesian_ref. rewrite put_same. rewrite vecmx_nested. cbv zeta. rewrite vecmx_val by discriminate. unfold cartesian. rewrite EB.
  cbn [vecs mats]. unfold rows, vm, mid. cbn [vx vy vz x00 x01 x02 x10 x11 x12 x20 x21 x22].
  intros H. injection H. intros. lra.
Qed.
Print Assumptions C101_cartesian_of_product_refuted.

(** C101 refuted: two results held by reference are the same vector: the distance of the Cartesian coordinates of two points is always zero. *)
Theorem C101_two_results_refuted :
  (forall L u v m m', run [CCartesian L u; CCartesian L v] m = Some m' ->
    forall p q, answer (CCartesian L u) = inl p -> answer (CCartesian L v) = inl q -> vdist (vecs m' p) (vecs m' q) = 0) /\
  exists L u v m, consistent L /\ start m /\ vdist (cartesian L (vecs m u)) (cartesian L (vecs m v)) = 1.
Proof.
  split.
  - intros L u v m m' _ p q E1 E2. cbn [answer] in E1, E2. injection E1 as <-. injection E2 as <-.
    unfold vdist, vnorm. rewrite <- sqrt_0. f_equal. generalize (vecs m' SCart). intros [x y z]. unfold vdot, vsub. cbn [vx vy vz]. ring.
  - exists lattice0, (Var 0), (Var 1), (mkMem (fun c => match c with Var (S O) => V3 1 0 0 | _ => vzero end) (fun c => mid)).
    split; [exact lattice0_consistent|]. split; [intros [| | | | | | | | | | |[|[|n]]]; try reflexivity; exact I|].
    cbn [vecs]. rewrite (k_va _ lattice0_consistent).
    replace (cartesian lattice0 vzero) with vzero by (unfold cartesian, vm, vzero; cbn [vx vy vz]; f_equal; ring).
    unfold vdist. rewrite vnorm_opp, (k_a _ lattice0_consistent). reflexivity.
Qed.
Print Assumptions C101_two_results_refuted.

(** C101: setLatBase with references to members of the same lattice gives what the same vectors by value give, when no member is used after
    its assignment; the outcome is then the one of C20 and C23. *)
Theorem C101_setLatBase_partial : forall L xa xb xc, ~ overwritten xb xc ->
  setLatBase_ref L xa xb xc = setLatBase L (read (Lva L) (Lvb L) (Lvc L) xa) (read (Lva L) (Lvb L) (Lvc L) xb) (read (Lva L) (Lvb L) (Lvc L) xc).
Proof. exact setLatBase_value. Qed.
Print Assumptions C101_setLatBase_partial.

(** C101 refuted: in every other case the lattice is never left consistent, whatever the lattice and whatever the other arguments are: *)
Theorem C101_setLatBase_members_refuted : forall L xa xb xc L', overwritten xb xc -> setLatBase_ref L xa xb xc = Ok L' -> ~ consistent L'.
Proof. intros L xa xb xc L' H E K. exact (degenerate L' K (setLatBase_overwritten L xa xb xc L' H E)). Qed.
Print Assumptions C101_setLatBase_members_refuted.
(** for example when the axes of an orthorhombic lattice are exchanged in turn, which by value is a consistent lattice. *)
Theorem C101_setLatBase_cycle_refuted : exists L M, consistent L /\ consistent M /\ setLatBase L (Lvb L) (Lvc L) (Lva L) = Ok M /\
  setLatBase_ref L OwnB OwnC OwnA <> Ok M.
Proof.
  assert (G : good_base (V3 1 0 0) (V3 0 2 0) (V3 0 0 3)).
  { unfold good_base, vcross, vdot. cbn [vx vy vz]. apply Rle_trans with (/ 1); [apply Rinv_le_contravar; lra|lra]. }
  assert (G' : good_base (V3 0 2 0) (V3 0 0 3) (V3 1 0 0)).
  { unfold good_base, vcross, vdot. cbn [vx vy vz]. apply Rle_trans with (/ 1); [apply Rinv_le_contravar; lra|lra]. }
  destruct (setLatBase_base lattice0 _ _ _ G) as (L & E & EA & EB & EC & _).
  destruct (setLatBase_base L _ _ _ G') as (M & E' & _ & _ & _ & _).
  assert (KL : consistent L).
  { exact (based [] _ _ _ L (Forall_nil _) G E). }
  assert (KM : consistent M).
  { apply (based [SetBase (V3 1 0 0) (V3 0 2 0) (V3 0 0 3)] _ _ _ M (Forall_cons (SetBase (V3 1 0 0) (V3 0 2 0) (V3 0 0 3)) I (Forall_nil _)) G').
    unfold lat_run, lat_step, fold_left. rewrite E. exact E'. }
  exists L, M. split; [exact KL|]. split; [exact KM|]. rewrite EA, EB, EC. split; [exact E'|].
  intros X. apply (C101_setLatBase_members_refuted L OwnB OwnC OwnA M); auto. unfold overwritten. tauto.
Qed.
Print Assumptions C101_setLatBase_cycle_refuted.

(** C101: the uses of these results inside the library are all safe: from every state of the static variables, the equivalent atoms and
    the positions in the unit cell are the ones calculated by value. *)
Theorem C101_library : forall L ops symeps atoms m,
  snd (updateSymmetryPositions_ref L ops symeps atoms m) = map (expand_site L ops symeps) atoms /\
  snd (positions_uc_ref L atoms m) = map (fun a => ucvCartesian L (c_xyz a)) atoms.
Proof. intros. split; [apply updateSymmetryPositions_value|apply positions_uc_value]. Qed.
Print Assumptions C101_library.

(** the hypotheses are met: a history that ends in a call whose argument is the static result of another kind of product, and a matrix whose
    inverse needs two exchanges of rows *)
Definition first_state : mem := mkMem (fun c => match c with Var _ => V3 1 2 3 | _ => vzero end) (fun c => M3 0 1 0 0 0 2 4 0 0).
Example C101_nonvacuous : exists m m', start first_state /\
  run [CMxVec (MVar 0) (Var 0); CInverse (MVar 0); CFloor SMxVec] first_state = Some m /\
  ~ nested (CVecMx SMxVec SInverse) /\ defined (CVecMx SMxVec SInverse) m /\
  exec (CVecMx SMxVec SInverse) m = Some m' /\ vecs m' SVecMx = V3 6 2 (/ 2) /\ vecs m SMxVec = V3 2 6 4.
Proof.
  assert (S : start first_state) by (intros []; reflexivity).
  assert (D : det (M3 0 1 0 0 0 2 4 0 0) = 8) by (unfold det; cbn [x00 x01 x02 x10 x11 x12 x20 x21 x22]; ring).
  cbn [run exec]. rewrite inverse_spec. change (mats (mxvec (MVar 0) (Var 0) first_state) (MVar 0)) with (M3 0 1 0 0 0 2 4 0 0).
  rewrite D. replace (Reqb 8 0) with false by (symmetry; apply Reqb_false; lra).
  eexists. eexists. split; [exact S|]. split; [reflexivity|]. split; [discriminate|]. split; [exact I|]. split; [reflexivity|].
  assert (X : vecs (mxvec (MVar 0) (Var 0) first_state) SMxVec = V3 2 6 4).
  { rewrite mxvec_val by discriminate. unfold mv, first_state. cbn [vecs mats x00 x01 x02 x10 x11 x12 x20 x21 x22 vx vy vz]. f_equal; ring. }
  split.
  - rewrite vecmx_val by discriminate. rewrite floorv_other by discriminate. cbn [vecs mput]. rewrite X.
    change (mats (floorv ?a ?b)) with (mats b). rewrite mput_same.
    unfold minv. rewrite D. unfold vm, mscale, adj. cbn [x00 x01 x02 x10 x11 x12 x20 x21 x22 vx vy vz]. f_equal; field.
  - rewrite floorv_other by discriminate. cbn [vecs mput]. exact X.
Qed.
