(** Proofs: comparison of atoms, lattices and symmetry operations; sorting. *)
From Coq Require Import String Sorted.
From Verif Require Import RBase R3 Trig TrigProofs Sphere SphereSpec SphereProofs SphereGeom SphereMain Lattice LatticeSpec LatticeProofs Crystal StructDiff StructDiffSpec StructDiffProofs BondGenSpec BondGenProofs World WorldSpec.
Import ListNotations.
Open Scope R_scope.
Notation length := List.length.

Lemma Reqb_spec x y : Reqb x y = true <-> x = y.
Proof. apply Reqb_true. Qed.
Lemma leqb_spec l m : leqb l m = true <-> l = m.
Proof.
  revert m. induction l as [|x l IH]; intros [|y m]; cbn; split; try discriminate; auto.
  - rewrite andb_true_iff, Reqb_spec, IH. intros [-> ->]. reflexivity.
  - intros [= -> ->]. rewrite andb_true_iff, Reqb_spec, IH. auto.
Qed.
Lemma vlist_inj u v : vlist u = vlist v -> u = v.
Proof. destruct u, v. intros [= -> -> ->]. reflexivity. Qed.
Lemma mlist_inj u v : mlist u = mlist v -> u = v.
Proof. destruct u, v. intros [= -> -> -> -> -> -> -> -> ->]. reflexivity. Qed.
Lemma catom_eqb_spec a b : catom_eqb a b = true <-> a = b.
Proof.
  unfold catom_eqb. rewrite !andb_true_iff, String.eqb_eq, !leqb_spec, Reqb_spec, Bool.eqb_true_iff. destruct a, b. cbn. split.
  - intros ((((-> & H1) & ->) & ->) & H2). apply vlist_inj in H1. apply mlist_inj in H2. now subst.
  - intros [= -> -> -> -> ->]. auto.
Qed.
Lemma ops_eqb_spec l m : ops_eqb l m = true <-> l = m.
Proof.
  revert m. induction l as [|x l IH]; intros [|y m]; cbn [ops_eqb]; split; try discriminate; auto.
  - rewrite !andb_true_iff, !leqb_spec, IH. destruct x as [x1 x2], y as [y1 y2]. cbn [op_R op_t]. intros ((H1 & H2) & ->). apply mlist_inj in H1. apply vlist_inj in H2. now subst.
  - intros [= -> ->]. rewrite !andb_true_iff, !leqb_spec, IH. auto.
Qed.

Lemma compare_trans a : forall b c, String.compare a b = Lt -> String.compare b c = Lt -> String.compare a c = Lt.
Proof.
  induction a as [|x a IH]; intros [|y b] [|z c]; cbn; try discriminate; auto.
  destruct (Ascii.compare x y) eqn:E1; try discriminate; destruct (Ascii.compare y z) eqn:E2; try discriminate; intros H1 H2;
    unfold Ascii.compare in *; rewrite ?N.compare_eq_iff, ?N.compare_lt_iff in *.
  - rewrite E1, E2, N.compare_refl. eauto.
  - rewrite E1. apply N.compare_lt_iff in E2. now rewrite E2.
  - rewrite <- E2. apply N.compare_lt_iff in E1. now rewrite E1.
  - assert (E : (Ascii.N_of_ascii x < Ascii.N_of_ascii z)%N) by lia. apply N.compare_lt_iff in E. now rewrite E.
Qed.
Lemma string_total : strict_total String.ltb.
Proof.
  assert (LT : forall a b, String.ltb a b = true <-> String.compare a b = Lt) by (intros; unfold String.ltb; destruct (String.compare a b); split; congruence).
  split.
  - intros a. destruct (String.ltb a a) eqn:E; auto. apply LT in E. pose proof (String.compare_antisym a a) as H. rewrite E in H. discriminate.
  - intros a b c. rewrite !LT. apply compare_trans.
  - intros a b H1 H2. apply String.compare_eq_iff. destruct (String.compare a b) eqn:E; auto.
    + apply LT in E. congruence.
    + rewrite String.compare_antisym in E. destruct (String.compare b a) eqn:E'; cbn in E; try discriminate. apply LT in E'. congruence.
Qed.
Lemma Rltb_total : strict_total Rltb.
Proof.
  split; intros *; rewrite ?Rltb_true, ?Rltb_false; try lra.
Qed.
Lemma catom_total : strict_total catom_ltb.
Proof.
  pose proof (Atom_strict_total _ _ string_total Rltb_total) as [I T O].
  assert (SH : forall a, shapedb (enc a) = true) by reflexivity.
  assert (EL : forall a b, catom_ltb a b = atom_lt String.ltb Rltb (proj1_sig (exist _ (enc a) (SH a) : Atom string R)) (proj1_sig (exist _ (enc b) (SH b) : Atom string R))) by reflexivity.
  split.
  - intros a. rewrite EL. apply I.
  - intros a b c. rewrite !EL. apply T.
  - intros a b. rewrite !EL. intros H1 H2. pose proof (f_equal (@proj1_sig _ _) (O _ _ H1 H2)) as E. cbn [proj1_sig] in E.
    pose proof (f_equal atomtype E) as F1. pose proof (f_equal xyz_cartn E) as F2. pose proof (f_equal StructDiff.occupancy E) as F3.
    pose proof (f_equal anisotropy E) as F4. pose proof (f_equal uij_cartn E) as F5. apply vlist_inj in F2. apply mlist_inj in F5.
    unfold enc in F1, F3, F4. cbn [atomtype StructDiff.occupancy anisotropy] in F1, F3, F4. clear -F1 F2 F3 F4 F5. destruct a, b. cbn in *. congruence.
Qed.

(** ** lattices with equal base matrices are equal *)
Lemma made_recip L : lattice_made L -> alphar L = acosd (car (sc L)) /\ betar L = acosd (cbr (sc L)) /\ gammar L = acosd (cgr (sc L)).
Proof.
  intros [->|(ops & o & HF & HO & ->)]; [now split|].
  unfold lat_run. rewrite fold_left_app. cbn [fold_left]. set (L0 := fold_left lat_step ops lattice0).
  destruct o as [a b c al be ga|va vb vc]; cbn [lat_step]; [now split|].
  cbn in HO. unfold good_base in HO. unfold setLatBase.
  destruct (det_cross va vb vc) as (ED & _). rewrite <- ED in HO.
  destruct (Rltb (Rabs _) _) eqn:E1; [exfalso; apply Rltb_true in E1; rewrite Rabs_right in E1; lra|].
  destruct (Rltb _ 0) eqn:E2; [exfalso; apply Rltb_true in E2; lra|]. now split.
Qed.
Lemma built_metric L C : built L C ->
  c_a C = vnorm (row0 (base L)) /\ c_b C = vnorm (row1 (base L)) /\ c_c C = vnorm (row2 (base L)) /\
  c_b C * c_c C * c_ca C = vdot (row1 (base L)) (row2 (base L)) /\
  c_a C * c_c C * c_cb C = vdot (row0 (base L)) (row2 (base L)) /\
  c_a C * c_b C * c_cg C = vdot (row0 (base L)) (row1 (base L)).
Proof.
  intros B. pose proof (built_consistent _ _ B) as K.
  rewrite <- (b_va _ _ B), <- (b_vb _ _ B), <- (b_vc _ _ B), (k_a _ K), (k_b _ K), (k_c _ K), (b_sc _ _ B).
  assert (D : forall u v, ldot L u v = vdot (cartesian L u) (cartesian L v)) by apply (k_dot _ K).
  rewrite <- (k_va _ K), <- (k_vb _ K), <- (k_vc _ K), <- !D. unfold ldot. rewrite (b_met _ _ B).
  cbn. repeat split; ring.
Qed.
Lemma cell_unique C D : cell_ok C -> cell_ok D -> c_a C = c_a D -> c_b C = c_b D -> c_c C = c_c D ->
  c_ca C = c_ca D -> c_cb C = c_cb D -> c_cg C = c_cg D -> C = D.
Proof.
  intros HC HD E1 E2 E3 E4 E5 E6.
  pose proof (pyt_a _ HC). pose proof (pyt_b _ HC). pose proof (pyt_g _ HC). pose proof (pyt_a _ HD). pose proof (pyt_b _ HD). pose proof (pyt_g _ HD).
  pose proof (sin_a _ HC). pose proof (sin_b _ HC). pose proof (sin_g _ HC). pose proof (sin_a _ HD). pose proof (sin_b _ HD). pose proof (sin_g _ HD).
  rewrite E4 in *. rewrite E5 in *. rewrite E6 in *.
  assert (c_sa C = c_sa D) by (apply Rsqr_inj; unfold Rsqr; lra). assert (c_sb C = c_sb D) by (apply Rsqr_inj; unfold Rsqr; lra).
  assert (c_sg C = c_sg D) by (apply Rsqr_inj; unfold Rsqr; lra). destruct C, D. cbn in *. congruence.
Qed.
Lemma lattice_ext L M : sc L = sc M -> alpha L = alpha M -> beta L = beta M -> gamma L = gamma M -> alphar L = alphar M -> betar L = betar M ->
  gammar L = gammar M -> Lva L = Lva M -> Lvb L = Lvb M -> Lvc L = Lvc M -> Lvar L = Lvar M -> Lvbr L = Lvbr M -> Lvcr L = Lvcr M ->
  metrics L = metrics M -> base L = base M -> stdbase L = stdbase M -> baserot L = baserot M -> recbase L = recbase M -> normbase L = normbase M ->
  recnormbase L = recnormbase M -> L = M.
Proof. destruct L, M. cbn. intros -> -> -> -> -> -> -> -> -> -> -> -> -> -> -> -> -> -> -> ->. reflexivity. Qed.
Lemma base_unique L M : lattice_made L -> lattice_made M -> base L = base M -> L = M.
Proof.
  intros HL HM E. destruct (made_built _ HL) as [C B]. destruct (made_built _ HM) as [D B'].
  destruct (built_metric _ _ B) as (a1 & a2 & a3 & a4 & a5 & a6). destruct (built_metric _ _ B') as (b1 & b2 & b3 & b4 & b5 & b6).
  pose proof (b_ok _ _ B) as OK. pose proof (b_ok _ _ B') as OK'.
  pose proof (pos_a _ OK) as pa. pose proof (pos_b _ OK) as pb. pose proof (pos_c _ OK) as pc.
  rewrite E in *. rewrite <- b1 in a1. rewrite <- b2 in a2. rewrite <- b3 in a3. rewrite <- b4 in a4. rewrite <- b5 in a5. rewrite <- b6 in a6.
  assert (CD : C = D).
  { apply cell_unique; auto; rewrite <- a1, <- ?a2, <- ?a3 in *.
    - apply (Rmult_eq_reg_l (c_b C * c_c C)); [|nra]. exact a4.
    - apply (Rmult_eq_reg_l (c_a C * c_c C)); [|nra]. exact a5.
    - apply (Rmult_eq_reg_l (c_a C * c_b C)); [|nra]. exact a6. }
  subst D. destruct (made_recip _ HL) as (r1 & r2 & r3). destruct (made_recip _ HM) as (s1 & s2 & s3).
  assert (ES : sc L = sc M) by (rewrite (b_sc _ _ B), (b_sc _ _ B'); reflexivity).
  assert (ER : baserot L = baserot M).
  { assert (I : mm (minv (mk_stdbase (lp C))) (mk_stdbase (lp C)) = mid).
    { apply inv_l. intros Z. pose proof (k_vol_pos _ (built_consistent _ _ B)) as HV. rewrite (k_vol _ (built_consistent _ _ B)) in HV.
      assert (DB : det (base L) = 0) by (rewrite (b_base _ _ B), det_mm, Z; ring).
      rewrite (b_va _ _ B), (b_vb _ _ B), (b_vc _ _ B) in HV. replace (vdot (row0 (base L)) (vcross (row1 (base L)) (row2 (base L)))) with (det (base L)) in HV; [lra|].
      unfold det, vdot, vcross, row0, row1, row2. cbn [vx vy vz]. ring. }
    pose proof (b_base _ _ B) as E1. pose proof (b_base _ _ B') as E2.
    assert (X : forall Q, mm (minv (mk_stdbase (lp C))) (mm (mk_stdbase (lp C)) Q) = Q).
    { intros Q. rewrite mm_assoc, I. destruct Q. unfold mm, mid. cbn. f_equal; ring. }
    rewrite <- (X (baserot L)), <- (X (baserot M)), <- E1, <- E2, E. reflexivity. }
  assert (EI : recbase L = recbase M) by (rewrite (b_rec _ _ B), (b_rec _ _ B'); congruence).
  apply lattice_ext; auto; rewrite ?r1, ?r2, ?r3, ?s1, ?s2, ?s3, ?ES; auto.
  - rewrite <- (b_al _ _ B), <- (b_al _ _ B'). reflexivity.
  - rewrite <- (b_be _ _ B), <- (b_be _ _ B'). reflexivity.
  - rewrite <- (b_ga _ _ B), <- (b_ga _ _ B'). reflexivity.
  - rewrite (b_va _ _ B), (b_va _ _ B'), E. reflexivity.
  - rewrite (b_vb _ _ B), (b_vb _ _ B'), E. reflexivity.
  - rewrite (b_vc _ _ B), (b_vc _ _ B'), E. reflexivity.
  - rewrite (b_var _ _ B), (b_var _ _ B'), EI. reflexivity.
  - rewrite (b_vbr _ _ B), (b_vbr _ _ B'), EI. reflexivity.
  - rewrite (b_vcr _ _ B), (b_vcr _ _ B'), EI. reflexivity.
  - rewrite (b_met _ _ B), (b_met _ _ B'). reflexivity.
  - rewrite (b_std _ _ B), (b_std _ _ B'). reflexivity.
  - rewrite (b_nb _ _ B), (b_nb _ _ B'), E. reflexivity.
  - rewrite (b_rnb _ _ B), (b_rnb _ _ B'), EI. reflexivity.
Qed.
Lemma lat_eqb_spec L M : lattice_made L -> lattice_made M -> lat_eqb L M = true -> L = M.
Proof. intros HL HM H. unfold lat_eqb in H. apply leqb_spec, mlist_inj in H. now apply base_unique. Qed.

(** ** sorting *)
Fixpoint ins (x : catom * Z) (l : list (catom * Z)) : list (catom * Z) :=
  match l with [] => [x] | y :: r => if catom_ltb (fst y) (fst x) then y :: ins x r else x :: l end.
Definition isort (l : list (catom * Z)) : list (catom * Z) := fold_right ins [] l.
Lemma ins_perm x l : Permutation (x :: l) (ins x l).
Proof. induction l as [|y l IH]; cbn; auto. destruct (catom_ltb _ _); auto. rewrite perm_swap. now constructor. Qed.
Lemma ins_sorted x l : StronglySorted (fun a b => catom_ltb (fst b) (fst a) = false) l -> StronglySorted (fun a b => catom_ltb (fst b) (fst a) = false) (ins x l).
Proof.
  pose proof catom_total as [I T O].
  induction 1 as [|y l H IH F]; cbn; [repeat constructor|]. destruct (catom_ltb (fst y) (fst x)) eqn:E.
  - constructor; auto. rewrite <- ins_perm. constructor; auto. destruct (catom_ltb (fst x) (fst y)) eqn:E'; auto. pose proof (T _ _ _ E E') as X. rewrite (I (fst y)) in X. discriminate.
  - constructor; [now constructor|]. constructor; [exact E|]. revert F. apply Forall_impl. intros z Hz.
    destruct (catom_ltb (fst z) (fst x)) eqn:E'; auto. destruct (catom_ltb (fst x) (fst y)) eqn:E2.
    + rewrite (T _ _ _ E' E2) in Hz. discriminate.
    + rewrite (O _ _ E2 E) in E'. congruence.
Qed.
Lemma isort_sorts : sorts isort.
Proof.
  intros l. split.
  - induction l as [|x l IH]; cbn; auto. rewrite <- ins_perm. now constructor.
  - assert (H : StronglySorted (fun a b => catom_ltb (fst b) (fst a) = false) (isort l)) by (induction l; cbn; [constructor|now apply ins_sorted]).
    revert H. generalize (isort l). clear. intros r H. induction H as [|x r H IH F]; intros i j u v Hij Hi Hj.
    + destruct i; discriminate.
    + destruct j as [|j]; [lia|]. destruct i as [|i]; cbn in *.
      * injection Hi as <-. rewrite Forall_forall in F. apply F. eapply nth_error_In; eauto.
      * apply (IH i j); auto; lia.
Qed.
