(** Means of merged images; the expansion lies in the unit cell; what a bond generator gets. *)
From Coq Require Import String.
From Verif Require Import RBase R3 Trig Sphere Lattice LatticeSpec LatticeProofs BondGen BondGenSpec BondGenProofs Crystal CrystalSpec CrystalProofs CrystalMain CrystalSep.
Import ListNotations.
Open Scope R_scope.
Notation length := List.length.

Lemma snap_frac x : x - IZR (Rfloor x) < 1 - / 67108864 -> snap x = x - IZR (Rfloor x).
Proof.
  intros Hx. unfold snap. destruct (eps_eq _ _ _) eqn:E; auto. unfold eps_eq, SQRT_DOUBLE_EPS in E. apply Rleb_true in E.
  destruct (Rfloor_spec x). rewrite Rabs_left in E by lra. lra.
Qed.
Lemma floor_near d u v T : d <= v - IZR (Rfloor v) < 1 - d -> Rabs (u - v - IZR T) <= d -> Rfloor u = (Rfloor v + T)%Z.
Proof.
  intros H1 H2. assert (- d <= u - v - IZR T <= d) by (revert H2; unfold Rabs; destruct (Rcase_abs _); lra).
  apply Z.le_antisymm.
  - apply Z.lt_succ_r. apply Rfloor_lt. unfold Z.succ. rewrite !plus_IZR. lra.
  - apply Rfloor_le. rewrite plus_IZR. lra.
Qed.
Lemma snap_near d u v T : interior1 d v -> interior1 d u -> Rabs (u - v - IZR T) <= d -> snap u - snap v = u - v - IZR T.
Proof.
  intros [H1 H2] [H3 H4] H5. rewrite !snap_frac by auto. rewrite (floor_near _ _ _ _ H1 H5), plus_IZR. ring.
Qed.
Lemma ucv_close L eps u v : consistent L -> fine L eps -> interior L eps u -> interior L eps v -> near L eps u v ->
  vdist (cartesian L (ucvFractional u)) (cartesian L (ucvFractional v)) <= eps.
Proof.
  intros C F (U1 & U2 & U3) (V1 & V2 & V3) (m & n & o & H). unfold vdist in *. rewrite cart_sub in *.
  set (w := vsub u (vadd v (iv m n o))) in *. destruct (comp_bound L w C) as (A & B & D).
  pose proof (vnorm_nonneg (Lvar L)). pose proof (vnorm_nonneg (Lvbr L)). pose proof (vnorm_nonneg (Lvcr L)).
  assert (A' : Rabs (vx w) <= eps * vnorm (Lvar L)) by (eapply Rle_trans; [exact A|]; apply Rmult_le_compat_r; auto).
  assert (B' : Rabs (vy w) <= eps * vnorm (Lvbr L)) by (eapply Rle_trans; [exact B|]; apply Rmult_le_compat_r; auto).
  assert (D' : Rabs (vz w) <= eps * vnorm (Lvcr L)) by (eapply Rle_trans; [exact D|]; apply Rmult_le_compat_r; auto).
  replace (vsub (ucvFractional u) (ucvFractional v)) with w; auto.
  subst w. destruct u as [u1 u2 u3], v as [v1 v2 v3]. unfold ucvFractional, vsub, vadd, iv in *. cbn [vx vy vz] in *.
  f_equal.
  - rewrite (snap_near _ u1 v1 m V1 U1); [ring|]. now replace (u1 - v1 - IZR m) with (u1 - (v1 + IZR m)) by ring.
  - rewrite (snap_near _ u2 v2 n V2 U2); [ring|]. now replace (u2 - v2 - IZR n) with (u2 - (v2 + IZR n)) by ring.
  - rewrite (snap_near _ u3 v3 o V3 U3); [ring|]. now replace (u3 - v3 - IZR o) with (u3 - (v3 + IZR o)) by ring.
Qed.
Lemma vnorm_scale c v : vnorm (vscale c v) = Rabs c * vnorm v.
Proof.
  unfold vnorm. replace (vdot (vscale c v) (vscale c v)) with (c * c * vdot v v) by (destruct v; vring).
  rewrite sqrt_mult; [|nra|apply vdot_nonneg]. f_equal. rewrite <- (sqrt_Rsqr_abs c). reflexivity.
Qed.
Lemma vsum_close L eps p l : (forall q, In q l -> vdist (cartesian L q) (cartesian L p) <= eps) ->
  vnorm (cartesian L (vsub (vsum l) (vscale (INR (length l)) p))) <= INR (length l) * eps.
Proof.
  induction l as [|q l IH] using rev_ind; intros H.
  - cbn [length INR]. replace (vsub (vsum []) (vscale 0 p)) with vzero by (unfold vsum; cbn; destruct p; vring).
    replace (cartesian L vzero) with vzero by (unfold cartesian; generalize (base L); intros; vring). rewrite vnorm_0. lra.
  - rewrite vsum_snoc, app_length. cbn [length]. rewrite plus_INR. cbn [INR].
    replace (vsub (vadd (vsum l) q) (vscale (INR (length l) + 1) p)) with (vadd (vsub (vsum l) (vscale (INR (length l)) p)) (vsub q p)) by (destruct (vsum l), q, p; vring).
    unfold cartesian in *. rewrite vm_vadd. eapply Rle_trans; [apply norm_triangle|].
    assert (X : vdist (vm q (base L)) (vm p (base L)) <= eps) by (apply H, in_or_app; right; now left).
    unfold vdist in X. rewrite <- vm_vsub in X.
    assert (Y : vnorm (vm (vsub (vsum l) (vscale (INR (length l)) p)) (base L)) <= INR (length l) * eps) by (apply IH; intros; apply H, in_or_app; now left). lra.
Qed.
Lemma mean_close L eps p l : l <> [] -> (forall q, In q l -> vdist (cartesian L q) (cartesian L p) <= eps) ->
  vdist (cartesian L (mean l)) (cartesian L p) <= eps.
Proof.
  intros NE H. pose proof (vsum_close L eps p l H) as V.
  assert (P : 0 < INR (length l)) by (apply lt_0_INR; destruct l; [congruence|cbn; lia]).
  unfold vdist. rewrite cart_sub.
  replace (vsub (mean l) p) with (vscale (/ INR (length l)) (vsub (vsum l) (vscale (INR (length l)) p))).
  - replace (cartesian L (vscale _ _)) with (vscale (/ INR (length l)) (cartesian L (vsub (vsum l) (vscale (INR (length l)) p)))) by
      (unfold cartesian; generalize (base L) (vsub (vsum l) (vscale (INR (length l)) p)); intros; vring).
    rewrite vnorm_scale, Rabs_right by (left; now apply Rinv_0_lt_compat).
    apply (Rmult_le_reg_l (INR (length l))); auto. rewrite <- Rmult_assoc, Rinv_r, Rmult_1_l by lra. exact V.
  - unfold mean. destruct (vsum l) as [s1 s2 s3], p as [p1 p2 p3]. unfold vsub, vscale. cbn [vx vy vz]. f_equal; field; lra.
Qed.
Lemma ucv_interior_same L eps u : interior L eps u -> same_site (ucvFractional u) u.
Proof.
  intros ((_ & H1) & (_ & H2) & (_ & H3)). exists (- Rfloor (vx u))%Z, (- Rfloor (vy u))%Z, (- Rfloor (vz u))%Z.
  unfold ucvFractional, iv, vadd. cbn [vx vy vz]. rewrite !opp_IZR, !snap_frac by auto. f_equal; ring.
Qed.

Theorem interior_cover L eps a0 ops : consistent L -> fine L eps -> ops <> [] ->
  (forall u, In u (images ops (c_xyz a0)) -> interior L eps u) ->
  let out := expandLatticeAtom L ops eps a0 in
  (forall u, In u (images ops (c_xyz a0)) -> exists p, In p (map c_xyz out) /\ near L (2 * eps) u p) /\
  (forall p, In p (map c_xyz out) -> exists u, In u (images ops (c_xyz a0)) /\ near L eps p u).
Proof.
  intros C F NE INT out. destruct (expand_groups L eps a0 ops C F NE) as (g & G1 & G2 & G3). cbv zeta in G1, G2, G3.
  set (imgs := images ops (c_xyz a0)) in *. fold out in G2, G3.
  assert (K : forall k, (k < length out)%nat -> exists f v p, leader g k f /\ nth_error imgs f = Some v /\ nth_error (map c_xyz out) k = Some p /\ near L eps p v).
  { intros k B. destruct (G3 k B) as (f & o & P1 & P2 & P3). pose proof (images_nth ops (c_xyz a0) f o P2) as P4. fold imgs in P4.
    exists f, (op_image o (c_xyz a0)), (mean (map ucvFractional (members g k imgs))).
    split; [auto|]. split; [auto|]. split; [rewrite nth_error_map, P3; reflexivity|].
    assert (LV : interior L eps (op_image o (c_xyz a0))) by (apply INT; eapply nth_error_In; eauto).
    assert (D : vdist (cartesian L (mean (map ucvFractional (members g k imgs)))) (cartesian L (ucvFractional (op_image o (c_xyz a0)))) <= eps).
    { apply mean_close.
      - assert (In (op_image o (c_xyz a0)) (members g k imgs)) by (apply members_In; exists f; split; [apply P1|exact P4]).
        destruct (members g k imgs); [contradiction|discriminate].
      - intros q Hq. apply in_map_iff in Hq. destruct Hq as (u & <- & Hu). apply members_In in Hu. destruct Hu as (i & U1 & U2).
        apply ucv_close; auto; [apply INT; eapply nth_error_In; eauto|]. destruct G1 as (_ & GN & _).
        destruct (GN _ _ _ U2 U1) as (f' & v & Q1 & Q2 & Q3). rewrite (leader_fun _ _ _ _ Q1 P1) in Q2. congruence. }
    destruct (ucv_interior_same L eps _ LV) as (m & n & o' & E). exists m, n, o'. rewrite <- E. exact D. }
  split.
  - intros u Hu. apply In_nth_error in Hu. destruct Hu as (i & Hi).
    assert (exists k, nth_error g i = Some k) as (k & Hk).
    { assert (B : (i < length g)%nat) by (rewrite (proj1 G1); apply nth_error_Some; congruence). apply nth_error_Some in B. destruct (nth_error g i); [eauto|congruence]. }
    assert (B : (k < length out)%nat) by (apply G2; eapply nth_error_In; eauto).
    destruct (K k B) as (f & v & p & P1 & P2 & P3 & P4). exists p. split; [eapply nth_error_In; eauto|].
    destruct G1 as (_ & GN & _). destruct (GN _ _ _ Hi Hk) as (f' & v' & Q1 & Q2 & Q3). rewrite (leader_fun _ _ _ _ Q1 P1) in Q2.
    assert (v' = v) by congruence. subst v'. replace (2 * eps) with (eps + eps) by ring. eapply near_triangle; [exact Q3|]. now apply near_sym.
  - intros p Hp. apply In_nth_error in Hp. destruct Hp as (k & Hk).
    assert (B : (k < length out)%nat) by (apply nth_error_Some; rewrite nth_error_map in Hk; destruct (nth_error out k); discriminate || congruence).
    destruct (K k B) as (f & v & p' & P1 & P2 & P3 & P4). rewrite P3 in Hk. injection Hk as <-. exists v. split; auto. eapply nth_error_In; eauto.
Qed.

(** ** the unit cell *)
Lemma vsum_cell l : l <> [] -> (forall q, In q l -> in_cell q) ->
  (0 <= vx (vsum l) < INR (length l)) /\ (0 <= vy (vsum l) < INR (length l)) /\ (0 <= vz (vsum l) < INR (length l)).
Proof.
  induction l as [|q l IH] using rev_ind; [congruence|]. intros _ H. rewrite vsum_snoc, app_length. cbn [length]. rewrite plus_INR. cbn [INR].
  destruct (H q) as (Q1 & Q2 & Q3); [apply in_or_app; right; now left|].
  destruct l as [|q' l]; [cbn; repeat split; lra|].
  destruct IH as (A & B & D); [discriminate|intros; apply H, in_or_app; now left|]. cbn [vadd vx vy vz]. repeat split; lra.
Qed.
Lemma mean_cell l : l <> [] -> (forall q, In q l -> in_cell q) -> in_cell (mean l).
Proof.
  intros NE H. destruct (vsum_cell l NE H) as (A & B & D).
  assert (P : 0 < INR (length l)) by (apply lt_0_INR; destruct l; [congruence|cbn; lia]).
  assert (X : forall x, 0 <= x < INR (length l) -> 0 <= / INR (length l) * x < 1).
  { intros x [X1 X2]. pose proof (Rinv_0_lt_compat _ P). split; [nra|]. apply (Rmult_lt_reg_l (INR (length l))); auto. rewrite <- Rmult_assoc, Rinv_r by lra. lra. }
  unfold mean, in_cell, vscale. cbn [vx vy vz]. auto.
Qed.
Theorem expand_cell L eps a0 ops : consistent L -> fine L eps -> ops <> [] ->
  expandLatticeAtom L ops eps a0 <> [] /\ (length (expandLatticeAtom L ops eps a0) <= length ops)%nat /\
  forall a, In a (expandLatticeAtom L ops eps a0) -> in_cell (c_xyz a).
Proof.
  intros C F NE. destruct (expand_groups L eps a0 ops C F NE) as (g & G1 & G2 & G3). cbv zeta in *.
  set (out := expandLatticeAtom L ops eps a0) in *. assert (GL : length g = length ops) by (rewrite (proj1 G1); apply images_len).
  split; [|split].
  - destruct g as [|k g]; [destruct ops; [congruence|discriminate]|]. assert (B : (k < length out)%nat) by (apply G2; now left). destruct out; [cbn in B; lia|discriminate].
  - rewrite <- GL, <- (seq_length (length out) 0). apply NoDup_incl_length; [apply seq_NoDup|]. intros k Hk. apply in_seq in Hk. apply G2. lia.
  - intros a Ha. apply In_nth_error in Ha. destruct Ha as (k & Ha). assert (B : (k < length out)%nat) by (apply nth_error_Some; congruence).
    destruct (G3 k B) as (f & o & P1 & P2 & P3). rewrite P3 in Ha. injection Ha as <-. unfold group_atom. cbn [c_xyz]. apply mean_cell.
    + assert (In (op_image o (c_xyz a0)) (members g k (images ops (c_xyz a0)))) by (apply members_In; exists f; split; [apply P1|now apply images_nth]).
      destruct (members g k _); [contradiction|discriminate].
    + intros q Hq. apply in_map_iff in Hq. destruct Hq as (u & <- & _). apply ucv_spec.
Qed.

Theorem crystal_stru_ok c : lattice_made (x_lat c) -> fine (x_lat c) (x_prec c) -> x_ops c <> [] -> stru_ok GCrystal (stru_of c).
Proof.
  intros LM F NE. assert (C : consistent (x_lat c)).
  { destruct LM as [->|(ops & o & A & G & ->)]; [apply lattice0_consistent|now apply lattice_consistent]. }
  unfold stru_ok, stru_of. cbn [slat spos ssym]. cbn [updateSymmetryPositions x_lat x_atoms x_sym]. split; [auto|]. rewrite !map_length. split; [auto|].
  intros i B. unfold equivalents. cbn [ssym].
  destruct (nth_error (x_atoms c) i) as [a|] eqn:E; [|apply nth_error_None in E; lia].
  assert (N : nth i (map (map (fun a => (c_xyz a, c_uij a))) (map (expand_site (x_lat c) (x_ops c) (x_prec c)) (x_atoms c))) [] =
     map (fun a => (c_xyz a, c_uij a)) (expand_site (x_lat c) (x_ops c) (x_prec c) a)).
  { apply nth_error_nth. now rewrite !nth_error_map, E. }
  rewrite N. destruct (expand_cell (x_lat c) (x_prec c) (toFractional (x_lat c) a) (x_ops c) C F NE) as (D1 & _ & D3).
  unfold expand_site. split.
  - destruct (expandLatticeAtom _ _ _ _); [congruence|discriminate].
  - intros p u H. cbv zeta. rewrite map_map in H. apply in_map_iff in H. destruct H as (b & E1 & E2). injection E1 as <- <-.
    cbn [toCartesian c_xyz]. rewrite (k_inv1 _ C). apply D3. exact E2.
Qed.
