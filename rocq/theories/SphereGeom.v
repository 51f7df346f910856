(** Geometry of the points visited by PointsInSphere. *)
From Verif Require Import RBase Sphere SphereSpec SphereProofs.
From Coq Require Import Sorting.Sorted.
Open Scope R_scope.

(** the LatticeParameters object built from a cell *)
Definition lp (C : cell) : latpar :=
  mklatpar (c_a C) (c_b C) (c_c C) (c_ca C) (c_cb C) (c_cg C) (c_sa C) (c_sb C) (c_sg C).

Section Geom.
  Context (C : cell) (OK : cell_ok C).
  Let pa := pos_a _ OK. Let pb := pos_b _ OK. Let pc := pos_c _ OK.
  Let qa := sin_a _ OK. Let qb := sin_b _ OK. Let qg := sin_g _ OK.
  Notation V := (sqrt (gram C)).
  Lemma V_pos : 0 < V. Proof. apply sqrt_lt_R0, (pos_V _ OK). Qed.
  Lemma V_sq : V * V = gram C. Proof. apply sqrt_sqrt. pose proof (pos_V _ OK). lra. Qed.
  Lemma Vu : Vunit (c_ca C) (c_cb C) (c_cg C) = V. Proof. reflexivity. Qed.

  Lemma ar_pos : 0 < ar (lp C).
  Proof. cbn. rewrite Vu. apply Rdiv_lt_0_compat; auto. apply Rmult_lt_0_compat; auto. apply V_pos. Qed.
  Lemma b2r_pos : 0 < b2r (lp C).
  Proof. unfold b2r; cbn. apply Rdiv_lt_0_compat; [lra|]. apply Rmult_lt_0_compat; auto. Qed.
  Lemma c1r_pos : 0 < c1r (lp C).
  Proof. unfold c1r; cbn. apply Rdiv_lt_0_compat; [lra|auto]. Qed.

  Lemma saq : c_sa C * c_sa C = 1 - c_ca C * c_ca C.
  Proof. pose proof (pyt_a _ OK). lra. Qed.

  Lemma inv_m (mm : Z) : (IZR mm / ar (lp C)) ^ 2 * (c_sa C * c_sa C) = (IZR mm * c_a C) ^ 2 * gram C.
  Proof.
    pose proof V_pos as HV. cbn [ar lp mklatpar]. rewrite Vu.
    replace ((IZR mm / (c_sa C / (c_a C * V))) ^ 2 * (c_sa C * c_sa C)) with ((IZR mm * c_a C) ^ 2 * (V * V)) by (field; repeat split; lra).
    now rewrite V_sq.
  Qed.
  Lemma inv_n (mm nn : Z) :
    (IZR nn - n0 (lp C) mm) / b2r (lp C) * c_sa C =
    IZR nn * c_b C * (c_sa C * c_sa C) + (c_cg C - c_ca C * c_cb C) * (IZR mm * c_a C).
  Proof.
    pose proof V_pos as HV. unfold n0, dn0dm, b2r. cbn [ar br cgr lb sa lp mklatpar]. rewrite Vu.
    field. repeat split; lra.
  Qed.
  Lemma inv_o (mm nn oo : Z) :
    (IZR oo - o0l (lp C) mm nn) / c1r (lp C) = IZR oo * c_c C + c_ca C * (IZR nn * c_b C) + c_cb C * (IZR mm * c_a C).
  Proof.
    pose proof V_pos as HV. unfold o0l, o0p, n0, dn0dm, do0dm, do0dn, ca2r, c2r, b2r, c1r.
    cbn [ar br cr cgr cbr lb lc sa ca lp mklatpar]. rewrite Vu.
    transitivity (IZR oo * c_c C + c_ca C * (IZR nn * c_b C)
      - (c_ca C * c_cg C - c_cb C + c_ca C * (c_ca C * c_cb C - c_cg C)) / (c_sa C * c_sa C) * (IZR mm * c_a C)).
    - field. repeat split; lra.
    - replace (c_ca C * c_cg C - c_cb C + c_ca C * (c_ca C * c_cb C - c_cg C)) with (- c_cb C * (1 - c_ca C * c_ca C)) by ring.
      rewrite <- saq. field. lra.
  Qed.

  Theorem norm2_split mm nn oo :
    norm2 C (mm, nn, oo) = (IZR mm / ar (lp C)) ^ 2 + ((IZR nn - n0 (lp C) mm) / b2r (lp C)) ^ 2
                           + ((IZR oo - o0l (lp C) mm nn) / c1r (lp C)) ^ 2.
  Proof.
    assert (HS : c_sa C * c_sa C <> 0) by nra.
    apply (Rmult_eq_reg_r (c_sa C * c_sa C)); auto.
    rewrite !Rmult_plus_distr_r, inv_m.
    replace (((IZR nn - n0 (lp C) mm) / b2r (lp C)) ^ 2 * (c_sa C * c_sa C)) with (((IZR nn - n0 (lp C) mm) / b2r (lp C) * c_sa C) ^ 2) by ring.
    rewrite inv_n, inv_o. unfold norm2, gram. rewrite saq. ring.
  Qed.

  (** sqrt R * k strictly bounds x iff (x/k)^2 < R *)
  Lemma half_iff (Rq k x : R) : 0 < k ->
    (- (if Rltb 0 Rq then sqrt Rq * k else 0) < x < (if Rltb 0 Rq then sqrt Rq * k else 0)) <-> (x / k) ^ 2 < Rq.
  Proof.
    intros Hk. destruct (Rltb 0 Rq) eqn:E.
    - apply Rltb_true in E. pose proof (sqrt_lt_R0 _ E) as Hs. pose proof (sqrt_sqrt Rq (Rlt_le _ _ E)) as Hq.
      set (y := x / k). assert (Hx : x = y * k) by (unfold y; field; lra). rewrite Hx.
      split.
      + intros [H1 H2]. assert (- sqrt Rq < y) by nra. assert (y < sqrt Rq) by nra. nra.
      + intros H. assert (- sqrt Rq < y) by nra. assert (y < sqrt Rq) by nra. nra.
    - apply Rltb_false in E. split; [lra|]. pose proof (pow2_ge_0 (x / k)). lra.
  Qed.
  Lemma between (x h : R) (z : Z) : (Rfloor (x - h) + 1 <= z < Rceil (x + h))%Z <-> - h < IZR z - x < h.
  Proof.
    rewrite Rceil_gt. split.
    - intros [H1 H2]. assert (H3 : (Rfloor (x - h) < z)%Z) by lia. apply Rfloor_lt in H3. lra.
    - intros H. split; [|lra]. assert ((Rfloor (x - h) < z)%Z) by (apply Rfloor_lt; lra). lia.
  Qed.

  Context (Rmin Rmax : R).
  Notation nh := (nhalf Rmax (lp C)).
  Notation oh := (ohalf Rmax (lp C)).
  Notation ex := (excl Rmin Rmax (lp C)).

  Lemma nlist_In mm nn : In nn (nlist Rmax (lp C) mm) <-> ((IZR nn - n0 (lp C) mm) / b2r (lp C)) ^ 2 < Rp Rmax (lp C) mm.
  Proof. unfold nlist. rewrite zrange_In, between. apply half_iff, b2r_pos. Qed.
  Lemma mrange_In mm : In mm (zrange (- mhi Rmax (lp C) + 1) (mhi Rmax (lp C))) <-> 0 < Rmax /\ (IZR mm / ar (lp C)) ^ 2 < Rmax * Rmax.
  Proof.
    rewrite zrange_In. unfold mhi. pose proof ar_pos as Ha.
    set (y := IZR mm / ar (lp C)). assert (Hx : IZR mm = y * ar (lp C)) by (unfold y; field; lra).
    assert (HH : (- Rceil (Rmax * ar (lp C)) + 1 <= mm < Rceil (Rmax * ar (lp C)))%Z <-> - Rmax < y < Rmax).
    { rewrite Rceil_gt. split.
      - intros [H1 H2]. assert (H3 : (- mm < Rceil (Rmax * ar (lp C)))%Z) by lia. apply Rceil_gt in H3.
        rewrite opp_IZR in H3. rewrite Hx in *. split; nra.
      - intros [H1 H2]. rewrite Hx. split; [|nra].
        assert (H3 : (- mm < Rceil (Rmax * ar (lp C)))%Z) by (apply Rceil_gt; rewrite opp_IZR, Hx; nra). lia. }
    rewrite HH. split; [intros [H1 H2]; split; nra|intros [H1 H2]; split; nra].
  Qed.

  (** the outer bound of a line *)
  Lemma outer_In mm nn oo :
    In oo (zrange (Rfloor (o0l (lp C) mm nn - oh mm nn) + 1) (outside Rmax (lp C) mm nn)) <->
    ((IZR oo - o0l (lp C) mm nn) / c1r (lp C)) ^ 2 < Rl Rmax (lp C) mm nn.
  Proof. unfold outside. rewrite zrange_In, between. apply half_iff, c1r_pos. Qed.

  Lemma oh_nonneg mm nn : 0 <= oh mm nn.
  Proof.
    unfold ohalf. destruct (Rltb _ _); [|lra]. pose proof (sqrt_pos (Rl Rmax (lp C) mm nn)). pose proof c1r_pos. nra.
  Qed.
  Lemma ex_nonneg mm nn : 0 <= ex mm nn.
  Proof.
    unfold excl. destruct (Rltb _ _); [|lra]. pose proof (sqrt_pos (Rx Rmin Rmax (lp C) mm nn)). pose proof c1r_pos. nra.
  Qed.

  (** what the exclusion hole removes *)
  Definition removed (mm nn oo : Z) : Prop :=
    let x := o0l (lp C) mm nn in let e := ex mm nn in
    x - e <= IZR oo < x + e /\ IZR (Rceil (x - e)) <> x - e.

  Lemma olist_In mm nn oo : In oo (olist Rmin Rmax (lp C) mm nn) <->
    ((IZR oo - o0l (lp C) mm nn) / c1r (lp C)) ^ 2 < Rl Rmax (lp C) mm nn /\ ~ removed mm nn oo.
  Proof.
    rewrite <- outer_In. unfold olist, removed.
    pose proof (oh_nonneg mm nn) as Ho. pose proof (ex_nonneg mm nn) as He.
    set (x := o0l (lp C) mm nn). set (e := ex mm nn) in *. set (h := oh mm nn) in *.
    pose proof (Rceil_spec (x - e)) as Hh.
    destruct (Z.eqb_spec (hi Rmin Rmax (lp C) mm nn) (outside Rmax (lp C) mm nn)) as [E|E].
    - split; [|tauto]. intros H. split; auto. intros [[Ha Hb] Hc].
      unfold hi in E. fold e x in E. unfold hole in E. fold e x in E.
      destruct (Reqb e 0) eqn:E0; [apply Reqb_true in E0; lra|].
      apply zrange_In in H. destruct H as [_ H].
      destruct (Rltb _ e) eqn:E1.
      + rewrite <- E in H. apply Rceil_gt in H. lra.
      + apply Rltb_false in E1. unfold Rabs in E1.
        destruct (Rcase_abs (IZR (Rceil (x - e)) - x)) as [Hn|Hn]; [lra|].
        assert (Hoo : (Rceil (x - e) <= oo)%Z) by (apply Rceil_le; lra). apply IZR_le in Hoo. lra.
    - unfold hi in E |- *. fold e x in E |- *. unfold hole in E |- *. fold e x in E |- *.
      destruct (Reqb e 0) eqn:E0; [congruence|]. apply Reqb_false in E0.
      destruct (Rltb _ e) eqn:E1; [|congruence]. apply Rltb_true in E1. apply Rabs_def2 in E1.
      rewrite in_app_iff, !zrange_In. unfold outside in E |- *. fold x h in E |- *.
      assert (Hho : (Rceil (x - e) <= Rceil (x + h))%Z).
      { apply Rceil_le. pose proof (Rceil_spec (x + h)). lra. }
      assert (Hex : (Rfloor (x - h) + 1 <= Rceil (x + e))%Z).
      { assert (HH : (Rfloor (x - h) < Rceil (x + e))%Z); [|lia]. apply Rceil_gt. pose proof (Rfloor_spec (x - h)). lra. }
      assert (HA : x - e <= IZR oo <-> (Rceil (x - e) <= oo)%Z) by (symmetry; apply Rceil_le).
      assert (HB : IZR oo < x + e <-> (oo < Rceil (x + e))%Z) by (symmetry; apply Rceil_gt).
      assert (HN : IZR (Rceil (x - e)) <> x - e) by lra.
      rewrite HA, HB.
      split.
      + intros [H|H]; (split; [lia|]); intros [H1 H2]; lia.
      + intros [H1 H2]. destruct (Z_lt_ge_dec oo (Rceil (x - e))) as [D1|D1]; [left; lia|].
        destruct (Z_lt_ge_dec oo (Rceil (x + e))) as [D2|D2]; [exfalso; apply H2; split; auto; lia|right; lia].
  Qed.

  Lemma all_In mm nn oo : In (mm, nn, oo) (all_points Rmin Rmax (lp C)) <->
    0 < Rmax /\ norm2 C (mm, nn, oo) < Rmax * Rmax /\ ~ removed mm nn oo.
  Proof.
    unfold all_points. rewrite in_flat_map. unfold plane. rewrite norm2_split.
    split.
    - intros (m' & H1 & H). apply in_flat_map in H. destruct H as (n' & H2 & H). apply in_map_iff in H.
      destruct H as (o' & E & H3). injection E as -> -> ->. apply mrange_In in H1. apply nlist_In in H2.
      apply olist_In in H3. destruct H1 as [HR _]. split; auto. destruct H3 as [H3 H4]. split; auto.
      unfold Rl, Rp, RmaxSquare in H3. destruct (Rltb Rmax 0) eqn:E; [apply Rltb_true in E; lra|]. lra.
    - intros (HR & Hn & Hr).
      assert (ER : RmaxSquare Rmax = Rmax * Rmax).
      { unfold RmaxSquare. destruct (Rltb Rmax 0) eqn:E; auto. apply Rltb_true in E. lra. }
      pose proof (pow2_ge_0 ((IZR nn - n0 (lp C) mm) / b2r (lp C))) as P2.
      pose proof (pow2_ge_0 ((IZR oo - o0l (lp C) mm nn) / c1r (lp C))) as P3.
      exists mm. split; [apply mrange_In; split; auto; lra|].
      apply in_flat_map. exists nn. split; [apply nlist_In; unfold Rp; rewrite ER; lra|].
      apply in_map_iff. exists oo. split; auto. apply olist_In. split; auto.
      unfold Rl, Rp. rewrite ER. lra.
  Qed.

  Lemma Rx_norm mm nn oo : RmaxSquare Rmax = Rmax * Rmax ->
    Rx Rmin Rmax (lp C) mm nn = RminSquare Rmin - norm2 C (mm, nn, oo) + ((IZR oo - o0l (lp C) mm nn) / c1r (lp C)) ^ 2.
  Proof. intros E. unfold Rx, Rl, Rp. rewrite norm2_split, E. ring. Qed.

  Lemma inside_excl mm nn oo :
    let x := o0l (lp C) mm nn in
    x - ex mm nn < IZR oo < x + ex mm nn <-> norm2 C (mm, nn, oo) < RminSquare Rmin.
  Proof.
    intros x. pose proof (half_iff (Rx Rmin Rmax (lp C) mm nn) (c1r (lp C)) (IZR oo - x) c1r_pos) as HH.
    fold (ex mm nn) in HH. transitivity (- ex mm nn < IZR oo - x < ex mm nn); [split; lra|]. rewrite HH.
    unfold Rx, Rl, Rp, x. rewrite norm2_split. split; lra.
  Qed.
  Lemma on_excl mm nn oo : 0 < Rx Rmin Rmax (lp C) mm nn ->
    let x := o0l (lp C) mm nn in
    (IZR oo = x - ex mm nn \/ IZR oo = x + ex mm nn) <-> norm2 C (mm, nn, oo) = RminSquare Rmin.
  Proof.
    intros HX x. unfold excl. pose proof HX as HX'. apply Rltb_true in HX'. rewrite HX'. pose proof c1r_pos as Hc.
    pose proof (sqrt_lt_R0 _ HX) as Hs. pose proof (sqrt_sqrt _ (Rlt_le _ _ HX)) as Hq.
    set (s := sqrt (Rx Rmin Rmax (lp C) mm nn)) in *. set (k := c1r (lp C)) in *.
    set (y := (IZR oo - x) / k). assert (Hx : IZR oo = x + y * k) by (unfold y; field; lra).
    assert (HN : norm2 C (mm, nn, oo) = RminSquare Rmin - s * s + y ^ 2).
    { rewrite Hq. unfold Rx, Rl, Rp, y, x, k. rewrite norm2_split. ring. }
    rewrite HN, Hx. split.
    - intros [H|H]; assert (y * k = s * k \/ y * k = - s * k) by lra; assert (y = s \/ y = - s) by (destruct H0; [left|right]; nra); nra.
    - intros H. assert (HP : (y - s) * (y + s) = 0) by nra. apply Rmult_integral in HP. destruct HP; [right|left]; nra.
  Qed.

  (** C18: no inner bound *)
  Lemma all_In_noexcl p : Rmin <= 0 -> In p (all_points Rmin Rmax (lp C)) <-> 0 < Rmax /\ norm2 C p < Rmax * Rmax.
  Proof.
    intros HR. destruct p as [[mm nn] oo]. rewrite all_In. split; [tauto|]. intros [H1 H2]. repeat split; auto.
    intros [[Ha Hb] Hc].
    assert (HS : RminSquare Rmin <= 0) by (unfold RminSquare; destruct (Rltb Rmin 0) eqn:E; [nra|apply Rltb_false in E; nra]).
    assert (HX : Rx Rmin Rmax (lp C) mm nn <= 0).
    { unfold Rx, Rl, Rp. pose proof (pow2_ge_0 ((IZR nn - n0 (lp C) mm) / b2r (lp C))). pose proof (pow2_ge_0 (IZR mm / ar (lp C))). lra. }
    apply Rltb_false in HX. unfold excl in *. rewrite HX in *. lra.
  Qed.

  (** C19: the exact set visited with an inner bound *)
  Lemma all_In_excl mm nn oo : 0 < Rmin -> In (mm, nn, oo) (all_points Rmin Rmax (lp C)) <->
    0 < Rmax /\ norm2 C (mm, nn, oo) < Rmax * Rmax /\
    (Rmin * Rmin <= norm2 C (mm, nn, oo) \/ exists o', (o' < oo)%Z /\ norm2 C (mm, nn, o') = Rmin * Rmin).
  Proof.
    intros HR. rewrite all_In.
    assert (ES : RminSquare Rmin = Rmin * Rmin) by (unfold RminSquare; destruct (Rltb Rmin 0) eqn:E; auto; apply Rltb_true in E; lra).
    rewrite <- ES. enough (HE : ~ removed mm nn oo <-> RminSquare Rmin <= norm2 C (mm, nn, oo) \/ (exists o', (o' < oo)%Z /\ norm2 C (mm, nn, o') = RminSquare Rmin)) by (rewrite HE; tauto).
    pose proof (inside_excl mm nn oo) as HI. cbn zeta in HI. unfold removed.
    set (x := o0l (lp C) mm nn) in *. set (e := ex mm nn) in *.
    split.
    - intros Hnr. destruct (Rle_or_lt (RminSquare Rmin) (norm2 C (mm, nn, oo))) as [H|H]; auto. right.
      apply HI in H. assert (Hz : IZR (Rceil (x - e)) = x - e).
      { destruct (Req_dec (IZR (Rceil (x - e))) (x - e)); auto. exfalso. apply Hnr. split; auto. lra. }
      exists (Rceil (x - e)). split; [apply lt_IZR; lra|].
      apply (on_excl mm nn (Rceil (x - e))); [|auto].
      destruct (Rltb 0 (Rx Rmin Rmax (lp C) mm nn)) eqn:E; [now apply Rltb_true|].
      assert (He0 : e = 0) by (unfold e, excl; rewrite E; auto). lra.
    - intros HD [[Ha Hb] Hc].
      assert (He : 0 < e) by lra.
      assert (HX : 0 < Rx Rmin Rmax (lp C) mm nn).
      { apply Rltb_true. destruct (Rltb 0 (Rx Rmin Rmax (lp C) mm nn)) eqn:E; auto. unfold e, excl in He. rewrite E in He. lra. }
      assert (Hlow : forall o', IZR o' = x - e -> False).
      { intros o' Ho'. apply Hc. rewrite <- Ho' at 1. rewrite <- Ho'. f_equal.
        pose proof (Rceil_spec (IZR o')) as [S1 S2]. apply Z.le_antisymm.
        - assert ((Rceil (IZR o') < o' + 1)%Z) by (apply lt_IZR; rewrite plus_IZR; lra). lia.
        - apply le_IZR; auto. }
      destruct HD as [HD|(o' & Hlt & HD)].
      + assert (HNI : ~ (x - e < IZR oo < x + e)) by (rewrite HI; lra). apply (Hlow oo). lra.
      + apply (on_excl mm nn o' HX) in HD. fold x e in HD. apply IZR_lt in Hlt. destruct HD as [HD|HD]; [eapply Hlow; eauto|lra].
  Qed.
End Geom.

(** *** order *)
Lemma zrange_sorted a b : StronglySorted Z.lt (zrange a b).
Proof.
  remember (Z.to_nat (b - a)) as k eqn:Ek. revert a Ek. induction k as [|k IH]; intros a Ek.
  - rewrite zrange_nil by lia. constructor.
  - rewrite zrange_cons by lia. constructor; [apply IH; lia|]. apply Forall_forall. intros z Hz. apply zrange_In in Hz. lia.
Qed.
Lemma SSorted_app {A} (R : A -> A -> Prop) l1 l2 : StronglySorted R l1 -> StronglySorted R l2 ->
  (forall x y, In x l1 -> In y l2 -> R x y) -> StronglySorted R (l1 ++ l2).
Proof.
  intros H1 H2 H. induction H1 as [|x l Hs IH Hf]; cbn; auto. constructor.
  - apply IH. intros; apply H; cbn; auto.
  - apply Forall_app. split; auto. apply Forall_forall. intros y Hy. apply H; cbn; auto.
Qed.
Lemma SSorted_flat_map {A B} (RA : A -> A -> Prop) (RB : B -> B -> Prop) (g : A -> list B) l :
  StronglySorted RA l -> (forall x, StronglySorted RB (g x)) ->
  (forall x y u v, RA x y -> In u (g x) -> In v (g y) -> RB u v) -> StronglySorted RB (flat_map g l).
Proof.
  intros H Hg Hr. induction H as [|x l Hs IH Hf]; cbn; [constructor|]. apply SSorted_app; auto.
  intros u v Hu Hv. apply in_flat_map in Hv. destruct Hv as (y & Hy & Hv). rewrite Forall_forall in Hf. eauto.
Qed.
Lemma SSorted_map {A B} (RA : A -> A -> Prop) (RB : B -> B -> Prop) (g : A -> B) l :
  StronglySorted RA l -> (forall x y, RA x y -> RB (g x) (g y)) -> StronglySorted RB (map g l).
Proof.
  intros H Hr. induction H as [|x l Hs IH Hf]; cbn; constructor; auto.
  apply Forall_map. eapply Forall_impl; [|exact Hf]. auto.
Qed.
Lemma olist_sorted Rmin Rmax C mm nn : cell_ok C -> StronglySorted Z.lt (olist Rmin Rmax (lp C) mm nn).
Proof.
  intros OK. unfold olist. destruct (Z.eqb_spec (hi Rmin Rmax (lp C) mm nn) (outside Rmax (lp C) mm nn)); [apply zrange_sorted|].
  apply SSorted_app; try apply zrange_sorted. intros x y Hx Hy. apply zrange_In in Hx, Hy.
  unfold hi in *. destruct (Reqb _ _); [congruence|]. destruct (Rltb _ _); [|congruence].
  unfold hole in *. pose proof (ex_nonneg C OK Rmin Rmax mm nn).
  assert (Rceil (o0l (lp C) mm nn - excl Rmin Rmax (lp C) mm nn) <= Rceil (o0l (lp C) mm nn + excl Rmin Rmax (lp C) mm nn))%Z; [|lia].
  apply Rceil_le. pose proof (Rceil_spec (o0l (lp C) mm nn + excl Rmin Rmax (lp C) mm nn)). lra.
Qed.
Lemma all_sorted Rmin Rmax C : cell_ok C -> StronglySorted lex (all_points Rmin Rmax (lp C)).
Proof.
  intros OK. unfold all_points. eapply SSorted_flat_map; [apply zrange_sorted| |].
  - intros mm. unfold plane. eapply SSorted_flat_map; [apply zrange_sorted| |].
    + intros nn. eapply SSorted_map; [apply olist_sorted; auto|]. intros x y H; cbn; auto.
    + intros nn nn' u v H Hu Hv. apply in_map_iff in Hu, Hv. destruct Hu as (? & <- & _), Hv as (? & <- & _). cbn. auto.
  - intros mm mm' u v H Hu Hv. unfold plane in *. apply in_flat_map in Hu, Hv.
    destruct Hu as (? & _ & Hu), Hv as (? & _ & Hv).
    apply in_map_iff in Hu, Hv. destruct Hu as (? & <- & _), Hv as (? & <- & _). cbn. auto.
Qed.
