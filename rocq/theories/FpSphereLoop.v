(** Proofs for FpSphere.v: the loops visit the points of the intervals they compute. *)
From Flocq Require Import Core.
From Verif Require Import RBase Fp FpSphere.
From Coq Require Import Lia Lra.
Import ListNotations.
Open Scope R_scope.

Section Loop.
  Context (Rmin Rmax : R) (L : fp_par).
  Notation next_n := (next_n Rmin Rmax L).
  Notation next_o := (next_o Rmin Rmax L).
  Notation collect := (collect Rmin Rmax L).
  Notation start_line := (start_line Rmin Rmax L).
  Notation next_m := (next_m Rmax L).

  Lemma next_n_mono f : forall s s', next_n f s = Some s' -> forall g, (f <= g)%nat -> next_n g s = Some s'.
  Proof.
    induction f as [|f IH]; intros s s' H g Hg; [discriminate|]. destruct g as [|g]; [lia|].
    cbn in *. destruct (n s + 1 <? hi_n s)%Z; auto. destruct (finished (next_m _)); auto. apply (IH _ _ H). lia.
  Qed.
  Lemma next_o_mono f : forall s s', next_o f s = Some s' -> forall g, (f <= g)%nat -> next_o g s = Some s'.
  Proof.
    induction f as [|f IH]; intros s s' H g Hg; [discriminate|]. destruct g as [|g]; [lia|].
    cbn [FpSphere.next_o] in *. destruct (o s + 1 <? hi_o s)%Z; auto.
    destruct (negb (hi_o s =? outside_o s)%Z).
    - destruct (finished _); auto. apply (IH _ _ H). lia.
    - destruct (next_n (S f) _) as [s1|] eqn:E; [|discriminate].
      rewrite (next_n_mono _ _ _ E (S g)) by lia. destruct (finished s1); auto. apply (IH _ _ H). lia.
  Qed.
  Lemma collect_mono f : forall s l, collect f s = Some l -> forall g, (f <= g)%nat -> collect g s = Some l.
  Proof.
    induction f as [|f IH]; intros s l H g Hg; [discriminate|]. destruct g as [|g]; [lia|].
    cbn [FpSphere.collect] in *. destruct (finished s); auto.
    destruct (next_o (S f) s) as [s1|] eqn:E; [|discriminate]. rewrite (next_o_mono _ _ _ E (S g)) by lia.
    destruct (collect f s1) as [l1|] eqn:E1; [|discriminate]. rewrite (IH _ _ E1 g) by lia. exact H.
  Qed.

  (** [l] is what is visited after a call of next_o / next_n in state [s] *)
  Definition Rem (s : sph) (l : list (Z * Z * Z)) : Prop :=
    exists f s', next_o f s = Some s' /\ collect f s' = Some l.
  Definition NRem (s : sph) (l : list (Z * Z * Z)) : Prop :=
    exists f s', next_n f s = Some s' /\ ((finished s' = true /\ l = []) \/ (finished s' = false /\ Rem s' l)).

  Lemma Rem_more s l : Rem s l -> exists f0, forall f, (f0 <= f)%nat -> exists s', next_o f s = Some s' /\ collect f s' = Some l.
  Proof.
    intros (f & s' & H1 & H2). exists f. intros g Hg. exists s'. split.
    - eapply next_o_mono; eauto.
    - eapply collect_mono; eauto.
  Qed.

  Lemma Rem_step s l : finished s = false -> (o s + 1 < hi_o s)%Z ->
    Rem (set_o s (o s + 1) (hi_o s)) l -> Rem s ((m s, n s, o s + 1)%Z :: l).
  Proof.
    intros Hf Ho (f & s' & H1 & H2). exists (S f), (set_o s (o s + 1) (hi_o s)). split.
    - cbn. apply Z.ltb_lt in Ho. now rewrite Ho.
    - cbn [FpSphere.collect]. replace (finished (set_o s (o s + 1) (hi_o s))) with false by (symmetry; exact Hf).
      rewrite (next_o_mono _ _ _ H1 (S f)) by lia. rewrite H2. reflexivity.
  Qed.
  Lemma Rem_hole s l : finished s = false -> (hi_o s <= o s + 1)%Z -> hi_o s <> outside_o s ->
    Rem (set_o s (Rceil (rnd (o0line s + oExclHalfSpan s)) - 1) (outside_o s)) l -> Rem s l.
  Proof.
    intros Hf Ho Hne (f & s' & H1 & H2). exists (S f), s'. split.
    - cbn [FpSphere.next_o]. replace (o s + 1 <? hi_o s)%Z with false by (symmetry; apply Z.ltb_ge; lia).
      replace (hi_o s =? outside_o s)%Z with false by (symmetry; now apply Z.eqb_neq). cbn [negb].
      match goal with |- context [finished ?x] => replace (finished x) with false by (symmetry; exact Hf) end. exact H1.
    - apply (collect_mono _ _ _ H2). lia.
  Qed.
  Lemma Rem_next s l : (hi_o s <= o s + 1)%Z -> hi_o s = outside_o s ->
    NRem (set_o s (o s + 1) (hi_o s)) l -> Rem s l.
  Proof.
    intros Ho He (f & s' & H1 & HD).
    assert (HN : forall g, (f <= S g)%nat -> next_o (S g) s = if finished s' then Some s' else next_o g s').
    { intros g Hg. cbn [FpSphere.next_o]. replace (o s + 1 <? hi_o s)%Z with false by (symmetry; apply Z.ltb_ge; lia).
      replace (hi_o s =? outside_o s)%Z with true by (symmetry; now apply Z.eqb_eq). cbn [negb].
      rewrite (next_n_mono _ _ _ H1) by lia. reflexivity. }
    destruct HD as [[Hf ->]|[Hf HR]].
    - exists (S f), s'. rewrite HN, Hf by lia. split; auto. cbn. now rewrite Hf.
    - destruct (Rem_more _ _ HR) as [f1 H2]. destruct (H2 (f + f1)%nat ltac:(lia)) as (s2 & A & B).
      exists (S (f + f1)), s2. rewrite HN, Hf by lia. split; auto. apply (collect_mono _ _ _ B). lia.
  Qed.
  Lemma NRem_line s l : (n s + 1 < hi_n s)%Z -> finished s = false -> Rem (start_line s (n s + 1)) l -> NRem s l.
  Proof.
    intros Hn Hf HR. exists 1%nat, (start_line s (n s + 1)). split.
    - cbn. apply Z.ltb_lt in Hn. now rewrite Hn.
    - right. split; auto.
  Qed.
  Lemma NRem_plane s l : (hi_n s <= n s + 1)%Z ->
    (if finished (next_m (set_n s (n s + 1))) then l = [] else NRem (next_m (set_n s (n s + 1))) l) -> NRem s l.
  Proof.
    intros Hn H. destruct (finished (next_m (set_n s (n s + 1)))) eqn:Ef.
    - exists 1%nat, (next_m (set_n s (n s + 1))). split; [|auto]. cbn [FpSphere.next_n].
      replace (n s + 1 <? hi_n s)%Z with false by (symmetry; apply Z.ltb_ge; lia). now rewrite Ef.
    - destruct H as (f & s' & H1 & H2). exists (S f), s'. split; auto. cbn [FpSphere.next_n].
      replace (n s + 1 <? hi_n s)%Z with false by (symmetry; apply Z.ltb_ge; lia). now rewrite Ef.
  Qed.

  (** the rest of a line without a hole *)
  Lemma line_plain k : forall s l, k = Z.to_nat (hi_o s - (o s + 1)) -> finished s = false -> hi_o s = outside_o s ->
    (forall o', NRem (set_o s o' (hi_o s)) l) ->
    Rem s (map (fun o => (m s, n s, o)) (zrange (o s + 1) (hi_o s)) ++ l).
  Proof.
    induction k as [|k IH]; intros s l Hk Hf He H.
    - rewrite zrange_nil by lia. cbn. apply Rem_next; auto. lia.
    - rewrite zrange_cons by lia. cbn [map app]. apply Rem_step; auto; [lia|].
      apply (IH (set_o s (o s + 1) (hi_o s))); auto. cbn. lia.
  Qed.
  Lemma line_hole k : forall s l, k = Z.to_nat (hi_o s - (o s + 1)) -> finished s = false -> hi_o s <> outside_o s ->
    (forall o', NRem (set_o s o' (outside_o s)) l) ->
    Rem s (map (fun o => (m s, n s, o)) (zrange (o s + 1) (hi_o s) ++ zrange (Rceil (rnd (o0line s + oExclHalfSpan s))) (outside_o s)) ++ l).
  Proof.
    induction k as [|k IH]; intros s l Hk Hf He H.
    - rewrite zrange_nil by lia. cbn [app]. apply Rem_hole; auto; [lia|].
      pose proof (line_plain _ (set_o s (Rceil (rnd (o0line s + oExclHalfSpan s)) - 1) (outside_o s)) l eq_refl Hf eq_refl H) as HP.
      cbn [m n o hi_o set_o] in HP. replace (Rceil (rnd (o0line s + oExclHalfSpan s)) - 1 + 1)%Z with (Rceil (rnd (o0line s + oExclHalfSpan s))) in HP by lia.
      exact HP.
    - rewrite zrange_cons by lia. cbn [map app]. apply Rem_step; auto; [lia|].
      apply (IH (set_o s (o s + 1) (hi_o s))); auto. cbn. lia.
  Qed.

  (** *** plane and line data as functions of the indices *)
  Notation RS := (RmaxSquare Rmax).
  Notation QS := (RminSquare Rmin).
  Definition n0 (mm : Z) : R := rnd (IZR mm * dn0dm L).
  Definition o0p (mm : Z) : R := rnd (IZR mm * do0dm L).
  Definition Rp (mm : Z) : R := rnd (RS - fp_sq (rnd (IZR mm / ar L))).
  Definition nhalf (mm : Z) : R := fp_half (Rp mm) (b2r L).
  Definition o0l (mm nn : Z) : R := rnd (o0p mm + rnd (rnd (IZR nn - n0 mm) * do0dn L)).
  Definition Rl (mm nn : Z) : R := rnd (Rp mm - fp_sq (rnd (rnd (IZR nn - n0 mm) / b2r L))).
  Definition ohalf (mm nn : Z) : R := fp_half (Rl mm nn) (c1r L).
  Definition Rx (mm nn : Z) : R := rnd (rnd (Rl mm nn - RS) + QS).
  Definition excl (mm nn : Z) : R := fp_half (Rx mm nn) (c1r L).
  Definition hole (mm nn : Z) : Z := Rceil (rnd (o0l mm nn - excl mm nn)).
  Definition outside (mm nn : Z) : Z := Rceil (rnd (o0l mm nn + ohalf mm nn)).
  Definition hi (mm nn : Z) : Z :=
    if Reqb (excl mm nn) 0 then outside mm nn
    else if Rltb (Rabs (rnd (IZR (hole mm nn) - o0l mm nn))) (excl mm nn) then hole mm nn else outside mm nn.
  Definition olist (mm nn : Z) : list Z :=
    if (hi mm nn =? outside mm nn)%Z then zrange (Rfloor (rnd (o0l mm nn - ohalf mm nn)) + 1) (outside mm nn)
    else zrange (Rfloor (rnd (o0l mm nn - ohalf mm nn)) + 1) (hi mm nn) ++ zrange (Rceil (rnd (o0l mm nn + excl mm nn))) (outside mm nn).
  Definition nlist (mm : Z) : list Z := zrange (Rfloor (rnd (n0 mm - nhalf mm)) + 1) (Rceil (rnd (n0 mm + nhalf mm))).
  Definition mhi : Z := Rceil (rnd (Rmax * ar L)).
  Definition plane (mm : Z) : list (Z * Z * Z) :=
    flat_map (fun nn => map (fun oo => (mm, nn, oo)) (olist mm nn)) (nlist mm).
  Definition all_points : list (Z * Z * Z) := flat_map plane (zrange (- mhi + 1) mhi).

  Record PlaneSt (s : sph) (mm nn : Z) : Prop := {
    p_m : m s = mm; p_hm : hi_m s = mhi; p_n : n s = nn; p_n0 : n0plane s = n0 mm; p_o0 : o0plane s = o0p mm;
    p_R : RplaneSquare s = Rp mm; p_hn : hi_n s = Rceil (rnd (n0 mm + nhalf mm)) }.

  Lemma start_line_data s mm nn nn' : PlaneSt s mm nn ->
    PlaneSt (start_line s nn') mm nn' /\ o (start_line s nn') = Rfloor (rnd (o0l mm nn' - ohalf mm nn')) /\
    hi_o (start_line s nn') = hi mm nn' /\ outside_o (start_line s nn') = outside mm nn' /\
    o0line (start_line s nn') = o0l mm nn' /\ oExclHalfSpan (start_line s nn') = excl mm nn'.
  Proof.
    intros [H1 H2 H3 H4 H5 H6 H7]. cbn. rewrite H4, H5, H6.
    split; [split; cbn; auto|]. repeat split.
  Qed.

  Lemma set_o_plane s mm nn o' h' : PlaneSt s mm nn -> PlaneSt (set_o s o' h') mm nn.
  Proof. intros [H1 H2 H3 H4 H5 H6 H7]. split; auto. Qed.

  Lemma in_plane mm l : (mm < mhi)%Z ->
    (forall s nn, PlaneSt s mm nn -> (Rceil (rnd (n0 mm + nhalf mm)) <= nn + 1)%Z -> NRem s l) ->
    forall k nn s, k = Z.to_nat (Rceil (rnd (n0 mm + nhalf mm)) - (nn + 1)) -> PlaneSt s mm nn ->
    NRem s (flat_map (fun nn => map (fun oo => (mm, nn, oo)) (olist mm nn)) (zrange (nn + 1) (Rceil (rnd (n0 mm + nhalf mm)))) ++ l).
  Proof.
    intros Hm Hend. induction k as [|k IH]; intros nn s Hk HP.
    - rewrite zrange_nil by lia. cbn. apply (Hend s nn HP). lia.
    - rewrite zrange_cons by lia. cbn [flat_map]. rewrite <- app_assoc.
      destruct (start_line_data s mm nn (nn + 1) HP) as (P1 & E1 & E2 & E3 & E4 & E5).
      assert (Hf : finished s = false).
      { unfold finished. rewrite (p_m _ _ _ HP), (p_hm _ _ _ HP). apply negb_false_iff, Z.ltb_lt. lia. }
      apply NRem_line; auto.
      { rewrite (p_n _ _ _ HP), (p_hn _ _ _ HP). lia. }
      rewrite (p_n _ _ _ HP).
      set (rest := flat_map _ _ ++ l).
      set (s1 := start_line s (nn + 1)) in *.
      assert (HN : forall o' h', NRem (set_o s1 o' h') rest).
      { intros o' h'. apply IH; [lia|]. now apply set_o_plane. }
      assert (Hf1 : finished s1 = false) by exact Hf.
      unfold olist. rewrite <- E1, <- E2, <- E3, <- E4, <- E5.
      destruct (Z.eqb_spec (hi_o s1) (outside_o s1)) as [Eh|Eh].
      + pose proof (line_plain _ s1 rest eq_refl Hf1 Eh (fun o' => HN o' _)) as HL.
        rewrite (p_m _ _ _ P1), (p_n _ _ _ P1), Eh in HL. exact HL.
      + pose proof (line_hole _ s1 rest eq_refl Hf1 Eh (fun o' => HN o' _)) as HL.
        rewrite (p_m _ _ _ P1), (p_n _ _ _ P1) in HL. exact HL.
  Qed.

  Lemma planes k : forall mm s, k = Z.to_nat (mhi - (mm + 1)) -> m s = mm -> hi_m s = mhi -> (hi_n s <= n s + 1)%Z ->
    NRem s (flat_map plane (zrange (mm + 1) mhi)).
  Proof.
    induction k as [|k IH]; intros mm s Hk Hm Hh Hn.
    - rewrite zrange_nil by lia. apply NRem_plane; auto.
      assert (Ef : finished (next_m (set_n s (n s + 1))) = true).
      { unfold FpSphere.next_m. cbn [m set_n hi_m].
        assert (E : (m s + 1 <? hi_m s)%Z = false) by (apply Z.ltb_ge; lia).
        rewrite E. cbn [negb]. unfold finished. cbn [m hi_m]. rewrite E. reflexivity. }
      rewrite Ef. reflexivity.
    - apply NRem_plane; auto.
      assert (HS : PlaneSt (next_m (set_n s (n s + 1))) (mm + 1) (Rfloor (rnd (n0 (mm + 1) - nhalf (mm + 1))))).
      { unfold FpSphere.next_m. cbn [m set_n hi_m]. replace (m s + 1 <? hi_m s)%Z with true by (symmetry; apply Z.ltb_lt; lia).
        cbn [negb]. rewrite Hm. split; cbn; auto. }
      replace (finished (next_m (set_n s (n s + 1)))) with false.
      2:{ symmetry. unfold finished. rewrite (p_m _ _ _ HS), (p_hm _ _ _ HS). apply negb_false_iff, Z.ltb_lt. lia. }
      rewrite (zrange_cons (mm + 1)) by lia. cbn [flat_map]. unfold plane at 1, nlist.
      apply (in_plane (mm + 1) (flat_map plane (zrange (mm + 1 + 1) mhi)) ltac:(lia)) with (k := Z.to_nat (Rceil (rnd (n0 (mm + 1) + nhalf (mm + 1))) - (Rfloor (rnd (n0 (mm + 1) - nhalf (mm + 1))) + 1))); auto.
      intros s2 nn2 HP Hn2. apply IH; [lia| | |].
      + apply (p_m _ _ _ HP).
      + apply (p_hm _ _ _ HP).
      + rewrite (p_hn _ _ _ HP), (p_n _ _ _ HP). lia.
  Qed.

  Theorem points_all : exists f0, forall f, (f0 <= f)%nat -> points Rmin Rmax L f = Some all_points.
  Proof.
    set (s0 := {| m := - mhi; n := 0; o := 0; hi_m := mhi; hi_n := 0; hi_o := 0; outside_o := 0;
                   n0plane := 0; o0plane := 0; o0line := 0; RplaneSquare := 0; oExclHalfSpan := 0 |}).
    assert (HR : Rem s0 all_points).
    { apply Rem_next; cbn; [lia|auto|]. apply (planes _ (- mhi)%Z _ eq_refl); cbn; auto. lia. }
    destruct (Rem_more _ _ HR) as [f0 H]. exists f0. intros f Hf. destruct (H f Hf) as (s' & A & B).
    unfold points, rewind. fold mhi s0. rewrite A. exact B.
  Qed.
End Loop.
