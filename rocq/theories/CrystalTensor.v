(** Proofs about displacement tensors of equivalent atoms. *)
From Coq Require Import String.
From Verif Require Import RBase R3 Trig TrigProofs Sphere SphereSpec SphereProofs SphereGeom SphereRecip SphereMain PeakWidth PeakWidthSpec PeakWidthProofs
  Lattice LatticeSpec LatticeProofs BondGen BondGenSpec BondGenProofs
  Crystal CrystalSpec CrystalProofs CrystalMain CrystalSep CrystalCell CrystalExample CrystalCache.
Import ListNotations.
Open Scope R_scope.
Notation length := List.length.

Definition diag3 (a b c : R) : mat := M3 a 0 0 0 b 0 0 0 c.
Definition carried (L : lattice) (M : mat) : mat := mm (tr (normbase L)) (mm M (tr (recnormbase L))).
Lemma carried_tensor L M U : cartesianMatrix L (mm M (mm (fractionalMatrix L U) (tr M))) = mm (carried L M) (mm U (tr (carried L M))).
Proof. unfold cartesianMatrix, fractionalMatrix, carried. rewrite !tr_mm, !tr_tr. now rewrite !mm_assoc. Qed.

Section B.
  Context (L : lattice) (C : cell) (B : built L C).
  Let cons := built_consistent _ _ B.
  Lemma nb_diag : normbase L = mm (diag3 (ar (sc L)) (br (sc L)) (cr (sc L))) (base L).
  Proof. rewrite (b_nb _ _ B), (b_sc _ _ B). unfold mk_normbase. destruct (base L). unfold diag3. vring. Qed.
  Lemma rnb_diag : recnormbase L = mm (recbase L) (diag3 (/ ar (sc L)) (/ br (sc L)) (/ cr (sc L))).
  Proof. rewrite (b_rnb _ _ B), (b_sc _ _ B). unfold mk_recnormbase. destruct (recbase L). unfold diag3. vring. Qed.
  Lemma recip_pos : 0 < ar (sc L) /\ 0 < br (sc L) /\ 0 < cr (sc L).
  Proof. rewrite (b_sc _ _ B). pose proof (rec_ok C (b_ok _ _ B)) as O. exact (conj (pos_a _ O) (conj (pos_b _ O) (pos_c _ O))). Qed.
  Lemma mv_ext M N : (forall u, mv M u = mv N u) -> M = N.
  Proof.
    intros H. pose proof (H (V3 1 0 0)) as H1. pose proof (H (V3 0 1 0)) as H2. pose proof (H (V3 0 0 1)) as H3.
    destruct M as [a1 a2 a3 a4 a5 a6 a7 a8 a9], N as [b1 b2 b3 b4 b5 b6 b7 b8 b9]. unfold mv in *. cbn in *. injection H1 as ? ? ?. injection H2 as ? ? ?. injection H3 as ? ? ?. f_equal; lra.
  Qed.
  Lemma carried_op M Q : (forall u, cartesian L (mv M u) = mv Q (cartesian L u)) ->
    mm (diag3 (ar (sc L)) (br (sc L)) (cr (sc L))) M = mm M (diag3 (ar (sc L)) (br (sc L)) (cr (sc L))) -> carried L M = Q.
  Proof.
    intros HQ HD. unfold carried. rewrite nb_diag, rnb_diag, !tr_mm.
    set (D := diag3 _ _ _) in *. set (E := diag3 (/ _) _ _).
    assert (TD : tr D = D) by (unfold D, diag3; vring). assert (TE : tr E = E) by (unfold E, diag3; vring).
    assert (DE : mm D E = mid).
    { destruct recip_pos as (P1 & P2 & P3). unfold D, E, diag3, mm, mid. cbn [x00 x01 x02 x10 x11 x12 x20 x21 x22]. f_equal; field; lra. }
    rewrite TD, TE. transitivity (mm (tr (base L)) (mm M (tr (recbase L)))).
    - rewrite <- (mm_assoc (tr (base L))). f_equal. rewrite !mm_assoc. rewrite HD. rewrite <- (mm_assoc M D E), DE, mm_id_r. reflexivity.
    - apply mv_ext. intros u. rewrite <- (k_inv2 _ cons u). rewrite <- HQ. set (w := fractional L u).
      assert (X : mv (tr (recbase L)) (cartesian L w) = w).
      { rewrite <- (k_inv1 _ cons w) at 2. unfold fractional. destruct (cartesian L w), (recbase L). vring. }
      assert (Y : forall a b v, mv (mm a b) v = mv a (mv b v)) by (intros [] [] []; vring).
      rewrite !Y, X. unfold cartesian. destruct (mv M w), (base L). vring.
  Qed.
End B.

Lemma axes_comm L M : consistent L -> axes_match L M ->
  mm (diag3 (ar (sc L)) (br (sc L)) (cr (sc L))) M = mm M (diag3 (ar (sc L)) (br (sc L)) (cr (sc L))).
Proof.
  intros C (H1 & H2 & H3). rewrite (k_ar _ C), (k_br _ C) in H1. rewrite (k_ar _ C), (k_cr _ C) in H2. rewrite (k_br _ C), (k_cr _ C) in H3.
  destruct M as [a1 a2 a3 a4 a5 a6 a7 a8 a9]. unfold diag3, mm. cbn [x00 x01 x02 x10 x11 x12 x20 x21 x22] in *.
  destruct H1 as [H1|[-> ->]], H2 as [H2|[-> ->]], H3 as [H3|[-> ->]]; f_equal; try ring; try (rewrite ?H1, ?H2, ?H3; ring); try (rewrite <- ?H1, <- ?H2, <- ?H3; ring).
Qed.

Lemma expand_tensor L ops eps a : lattice_made L -> fine L eps -> ops <> [] -> forall b, In b (expand_site L ops eps a) ->
  exists o, In o ops /\ (exists P, c_uij b = mm P (mm (c_uij a) (tr P)) /\ P = carried L (op_R o)) /\
    forall Q, cart_part L (op_R o) Q -> axes_match L (op_R o) -> c_uij b = mm Q (mm (c_uij a) (tr Q)).
Proof.
  intros LM F NE b Hb. destruct (made_built _ LM) as [C B]. pose proof (built_consistent _ _ B) as CO.
  unfold expand_site in Hb. apply in_map_iff in Hb. destruct Hb as (b' & <- & Hb). apply In_nth_error in Hb. destruct Hb as (k & Hk).
  destruct (expand_groups L eps (toFractional L a) ops CO F NE) as (g & _ & _ & G). cbv zeta in G.
  destruct (G k) as (f & o & _ & Ho & E); [apply nth_error_Some; congruence|]. rewrite Hk in E. injection E as ->.
  assert (X : c_uij (toCartesian L (group_atom (toFractional L a) o (members g k (images ops (c_xyz (toFractional L a)))))) = mm (carried L (op_R o)) (mm (c_uij a) (tr (carried L (op_R o))))).
  { unfold toCartesian, group_atom. cbn [c_uij toFractional]. apply carried_tensor. }
  exists o. split; [eapply nth_error_In; eauto|]. split; [eexists; split; [exact X|reflexivity]|].
  intros Q HQ HA. etransitivity; [exact X|]. rewrite (carried_op L C B (op_R o) Q); auto. now apply axes_comm.
Qed.
Lemma expand_tensor_sep L ops eps a : lattice_made L -> fine L eps -> ops <> [] ->
  separated L eps (images ops (fractional L (c_xyz a))) -> forall b, In b (expand_site L ops eps a) ->
  exists o, In o ops /\ c_xyz b = cartesian L (ucvFractional (vadd (mv (op_R o) (fractional L (c_xyz a))) (op_t o))) /\
    forall Q, cart_part L (op_R o) Q -> axes_match L (op_R o) -> c_uij b = mm Q (mm (c_uij a) (tr Q)).
Proof.
  intros LM F NE SEP b Hb. destruct (made_built _ LM) as [C B]. pose proof (built_consistent _ _ B) as CO.
  unfold expand_site in Hb. apply in_map_iff in Hb. destruct Hb as (b' & <- & Hb). apply In_nth_error in Hb. destruct Hb as (k & Hk).
  destruct (sep_spec L eps (toFractional L a) ops CO F NE SEP) as (g & _ & _ & G).
  destruct (G k) as (f & o & u & _ & Ho & _ & Eu & E); [apply nth_error_Some; congruence|]. rewrite Hk in E. injection E as ->.
  exists o. split; [eapply nth_error_In; eauto|]. split; [subst u; reflexivity|].
  intros Q HQ HA. cbn [toCartesian c_uij toFractional]. rewrite carried_tensor, (carried_op L C B (op_R o) Q); auto. now apply axes_comm.
Qed.

(** ** a cell whose mirror plane mixes axes of different length *)
Definition skew : lattice := lat_run [SetBase (V3 1 0 0) (V3 0 1 0) (V3 (-1 / 2) 0 (2 / 3))].
Definition mirror : mat := M3 (-1) 0 1 0 1 0 0 0 1.
Lemma skew_good : good_base (V3 1 0 0) (V3 0 1 0) (V3 (-1 / 2) 0 (2 / 3)).
Proof. unfold good_base, vdot, vcross. cbn [vx vy vz]. lra. Qed.
Lemma skew_made : lattice_made skew.
Proof. right. exists [], (SetBase (V3 1 0 0) (V3 0 1 0) (V3 (-1 / 2) 0 (2 / 3))). repeat split; auto. apply skew_good. Qed.
Definition skewL : lattice := match setLatBase lattice0 (V3 1 0 0) (V3 0 1 0) (V3 (-1 / 2) 0 (2 / 3)) with Ok L => L | Throw _ L => L | UB => lattice0 end.
Lemma skew_eq : skew = skewL. Proof. reflexivity. Qed.
Lemma skew_bases : base skew = M3 1 0 0 0 1 0 (-1 / 2) 0 (2 / 3) /\ recbase skew = M3 1 0 0 0 1 0 (3 / 4) 0 (3 / 2) /\
  Lvar skew = col0 (recbase skew) /\ Lvbr skew = col1 (recbase skew) /\ Lvcr skew = col2 (recbase skew).
Proof.
  rewrite skew_eq. unfold skewL, setLatBase.
  assert (D : det (rows (V3 1 0 0) (V3 0 1 0) (V3 (-1 / 2) 0 (2 / 3))) = 2 / 3) by (unfold det, rows; cbn; field).
  rewrite D. rewrite (proj2 (Rltb_false _ _)) by (rewrite Rabs_right; lra). rewrite (proj2 (Rltb_false _ _)) by lra.
  cbn [base recbase Lvar Lvbr Lvcr]. split; [reflexivity|]. split; [|auto].
  unfold minv, mscale. rewrite D. unfold adj, rows. cbn [x00 x01 x02 x10 x11 x12 x20 x21 x22 vx vy vz]. f_equal; field.
Qed.
Lemma skew_recip : ar (sc skew) = 5 / 4 /\ br (sc skew) = 1 /\ cr (sc skew) = 3 / 2.
Proof.
  destruct (made_built _ skew_made) as [C B]. pose proof (built_consistent _ _ B) as CO.
  rewrite <- (k_ar _ CO), <- (k_br _ CO), <- (k_cr _ CO). destruct skew_bases as (_ & E & -> & -> & ->). rewrite E.
  unfold vnorm, col0, col1, col2, vdot. cbn [x00 x01 x02 x10 x11 x12 x20 x21 x22 vx vy vz]. repeat split.
  - replace (1 * 1 + 0 * 0 + 3 / 4 * (3 / 4)) with (5 / 4 * (5 / 4)) by field. apply sqrt_square. lra.
  - replace (0 * 0 + 1 * 1 + 0 * 0) with (1 * 1) by ring. apply sqrt_square. lra.
  - replace (0 * 0 + 0 * 0 + 3 / 2 * (3 / 2)) with (3 / 2 * (3 / 2)) by ring. apply sqrt_square. lra.
Qed.
Lemma skew_mirror : cart_part skew mirror (M3 (-1) 0 0 0 1 0 0 0 1).
Proof.
  intros [u v w]. unfold cartesian. rewrite (proj1 skew_bases). unfold mirror, mv, vm. cbn [x00 x01 x02 x10 x11 x12 x20 x21 x22 vx vy vz]. f_equal; field.
Qed.
Lemma skew_carried : carried skew mirror = M3 (-1) 0 (-1 / 4) 0 1 0 0 0 1.
Proof.
  destruct (made_built _ skew_made) as [C B]. unfold carried. rewrite (nb_diag _ _ B), (rnb_diag _ _ B). destruct skew_bases as (-> & -> & _). destruct skew_recip as (-> & -> & ->).
  unfold diag3, mirror, mm, tr. cbn [x00 x01 x02 x10 x11 x12 x20 x21 x22]. f_equal; field.
Qed.

(** ** the first equivalent atom *)
Lemma expand_step_head L eps a0 o a l s d : exists l', eqsites (expand_step L eps a0 (mkEq (a :: l) s d) o) = a :: l'.
Proof. unfold expand_step. destruct (findEqualPosition _ _ _ _); cbn; eauto. Qed.
Lemma expand_fold_head L eps a0 a ops : forall l s d, exists l', eqsites (fold_left (expand_step L eps a0) ops (mkEq (a :: l) s d)) = a :: l'.
Proof.
  induction ops as [|o ops IH]; intros l s d; cbn [fold_left]; [cbn; eauto|]. destruct (expand_step_head L eps a0 o a l s d) as [l' E].
  destruct (expand_step L eps a0 (mkEq (a :: l) s d) o) as [l1 s1 d1]. cbn in E. subst l1. apply IH.
Qed.
Lemma expand_head L eps a o ops : consistent L -> fine L eps ->
  exists x r, expandLatticeAtom L (o :: ops) eps a = mkCA x (mm (op_R o) (mm (c_uij a) (tr (op_R o)))) (c_type a) (c_occ a) (c_anis a) :: r.
Proof.
  intros C F. destruct (expand_inv L eps a (o :: ops) C F) as (g & I). destruct I as [_ I2 I3 _ _]. unfold expandLatticeAtom.
  assert (E : expand_step L eps a (mkEq [] [] []) o = mkEq [mkCA (op_image o (c_xyz a)) (mm (op_R o) (mm (c_uij a) (tr (op_R o)))) (c_type a) (c_occ a) (c_anis a)]
    [vadd vzero (ucvFractional (op_image o (c_xyz a)))] [1%nat]) by reflexivity.
  cbn [fold_left] in *. rewrite E in *.
  match goal with |- context [fold_left ?f ops ?i] => destruct (expand_fold_head L eps a (mkCA (op_image o (c_xyz a)) (mm (op_R o) (mm (c_uij a) (tr (op_R o)))) (c_type a) (c_occ a) (c_anis a)) ops [] (eqsumpos i) (eqduplicity i)) as [l' EH]; cbn [eqsumpos eqduplicity] in EH; set (st := fold_left f ops i) in * end.
  destruct st as [es ss ds]. cbn in EH. subst es. cbn [eqsites eqsumpos eqduplicity] in *.
  destruct ss as [|v ss]; [discriminate I2|]. destruct ds as [|n ds]; [discriminate I3|]. cbn. eauto.
Qed.
(** siteCartesianUij(site0) and the tensor at the position that is drawn for the anchor *)
Lemma anchor_tensor c i a o ops : lattice_made (x_lat c) -> fine (x_lat c) (x_prec c) -> x_ops c = o :: ops -> nth_error (x_atoms c) i = Some a ->
  nth i (suij (stru_of c)) mid = c_uij a /\ snd (nth 0 (equivalents (stru_of c) i) (vzero, mid)) = mm (carried (x_lat c) (op_R o)) (mm (c_uij a) (tr (carried (x_lat c) (op_R o)))).
Proof.
  intros LM F EO EA. destruct (made_built _ LM) as [C B]. pose proof (built_consistent _ _ B) as CO. unfold equivalents, stru_of. cbn [suij ssym updateSymmetryPositions x_atoms x_sym]. rewrite EO. split.
  - apply nth_error_nth. rewrite nth_error_map, EA. reflexivity.
  - rewrite map_map. rewrite (nth_error_nth (map _ (x_atoms c)) i [] (x := map (fun b => (c_xyz b, c_uij b)) (expand_site (x_lat c) (o :: ops) (x_prec c) a))) by (rewrite nth_error_map, EA; reflexivity).
    unfold expand_site. destruct (expand_head (x_lat c) (x_prec c) (toFractional (x_lat c) a) o ops CO F) as (x & r & ->). cbn [map nth snd toCartesian c_uij toFractional]. apply carried_tensor.
Qed.
