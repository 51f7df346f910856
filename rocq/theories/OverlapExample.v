(** Concrete structures: an overlapping pair with a third atom; defects of the overlap calculator. *)
From Coq Require Import String Relations Sorting.Sorted.
From Verif Require Import RBase R3 Trig Sphere Lattice LatticeSpec BondGen BondGenSpec Overlap OverlapSpec OverlapProofs OverlapFlip OverlapNbh OverlapGrad OverlapGen.
Open Scope R_scope.

(** sites 0 and 2 are of type A (radius 1), site 1 is B (radius 2); all have occupancy q *)
Definition abc (q : R) : ostru :=
  {| o_n := 3; o_occ := fun _ => q; o_mult := fun _ => 1%nat; o_type := fun i => if (i =? 1)%nat then "B"%string else "A"%string |}.
Definition rad (s : string) : R := if string_dec s "B" then 2 else 1.
Definition xbond (a b : nat) (x : R) : bond :=
  {| b_site0 := a; b_site1 := b; b_r0 := vzero; b_r1 := V3 x 0 0; b_r01 := V3 x 0 0; b_distance := Rabs x; b_u1 := mid |}.
(** site 2 at distance 3/2 from site 0 *)
Definition two : list bond := [xbond 0 2 (3/2); xbond 2 0 (- (3/2))].
Definition new_calc : ocalc := {| mvalue := []; mnbids := []; mcached := false; mradii := []; mmaxsep := 0 |}.
Lemma two_ok q : Forall (bond_ok (abc q)) two.
Proof. repeat constructor. Qed.
Lemma two_reversible : Permutation (map arrow two) (map flipped two).
Proof.
  unfold two, arrow, flipped, xbond. cbn [map b_site0 b_site1 b_distance b_r01]. unfold vscale. cbn [vx vy vz].
  rewrite Rabs_Ropp. replace (-1 * - (3 / 2)) with (3 / 2) by lra. replace (-1 * (3 / 2)) with (- (3 / 2)) by lra. replace (-1 * 0) with 0 by lra.
  apply perm_swap.
Qed.
Lemma two_balanced q : balanced (abc q) two.
Proof. apply reversible_balanced; [reflexivity|apply two_reversible]. Qed.
Lemma two_dist b : In b two -> b_distance b = vnorm (b_r01 b) /\ 0 < b_distance b.
Proof.
  assert (G : forall x, x <> 0 -> Rabs x = vnorm (V3 x 0 0) /\ 0 < Rabs x).
  { intros x Hx. split; [|now apply Rabs_pos_lt]. unfold vnorm, vdot. cbn [vx vy vz]. replace (x * x + 0 * 0 + 0 * 0) with (Rsqr x) by (unfold Rsqr; ring). now rewrite sqrt_Rsqr_abs. }
  intros [<-|[<-|[]]]; apply G; lra.
Qed.
Lemma abs1 : Rabs (3 / 2) = 3 / 2. Proof. apply Rabs_pos_eq. lra. Qed.
Lemma abs2 : Rabs (- (3 / 2)) = 3 / 2. Proof. rewrite Rabs_Ropp. apply abs1. Qed.
Lemma rad_A : rad "A" = 1. Proof. reflexivity. Qed.
Lemma rad_B : rad "B" = 2. Proof. reflexivity. Qed.
Lemma total_two : total_square (abc 1) (radius_of (abc 1) rad) two = 1 / 4.
Proof.
  unfold total_square, two. rewrite !sumf_cons, sumf_nil. unfold overlap, xbond, radius_of, abc. cbn [b_site0 b_site1 b_distance o_occ o_mult o_type Nat.eqb INR].
  rewrite rad_A, abs1, abs2, Rmax_right by lra. unfold Rsqr. field.
Qed.
Lemma total_two_swapped : total_square (abc 1) (swap (radius_of (abc 1) rad) 0 1) two = 9 / 4.
Proof.
  unfold total_square, two. rewrite !sumf_cons, sumf_nil. unfold overlap, xbond, swap, radius_of, abc. cbn [b_site0 b_site1 b_distance o_occ o_mult o_type Nat.eqb INR].
  rewrite rad_A, rad_B, abs1, abs2, !Rmax_right by lra. unfold Rsqr. field.
Qed.
(** bonds merged after a query are not seen by later queries *)
Lemma late_merge_blind S lk c bs i : snd (getNeighborIds (orun S lk (resetValue S lk c) [CQuery; CMerge bs]) i) = [].
Proof. reflexivity. Qed.
Theorem late_merge_flip : exists S lk bs i j, Forall (bond_ok S) bs /\ balanced S bs /\ (i < o_n S)%nat /\ (j < o_n S)%nat /\
  total_square S (swap (radius_of S lk) i j) bs - total_square S (radius_of S lk) bs <> 0 /\
  forall c, let c' := orun S lk (resetValue S lk c) [CQuery; CMerge bs] in
    totalSquareOverlap S c' = total_square S (radius_of S lk) bs /\
    exists c2, flipDiffTotal S c' (Z.of_nat i) (Z.of_nat j) = Ok (c2, 0).
Proof.
  exists (abc 1), rad, two, 0%nat, 1%nat. split; [apply two_ok|]. split; [apply two_balanced|]. split; [cbn; lia|]. split; [cbn; lia|].
  split; [rewrite total_two, total_two_swapped; lra|]. intros c c'. split.
  - apply (totals_main (abc 1) rad c [CQuery; CMerge two]). constructor; [exact I|]. constructor; [apply two_ok|constructor].
  - unfold flipDiffTotal. cbn [Z.of_nat o_n abc Pos.of_succ_nat]. change (Z.to_nat (Z.of_nat 0)) with 0%nat. cbn [Z.ltb Z.leb Z.compare Pos.compare Pos.compare_cont orb Pos.succ Z.to_nat Pos.to_nat Pos.iter_op Nat.eqb].
    destruct (Reqb (siteradius c' 0) (siteradius c' _)); eexists; reflexivity.
Qed.
(** a calculator saved after a query and loaded counts every neighbour twice *)
Theorem reload_doubles S lk c bs i : Forall (bond_ok S) bs ->
  let c' := orun S lk (resetValue S lk c) [CMerge bs; CQuery; CReload] in
  snd (getNeighborIds c' i) = ids bs i ++ ids bs i.
Proof.
  intros HB c'. unfold getNeighborIds. cbn [snd]. fold (nbget i (mnbids (fillNeighborIds c'))).
  assert (HV : mvalue c' = flat_map chunk bs).
  { apply (run_state S lk c [CMerge bs; CQuery; CReload]). constructor; [exact HB|]. repeat constructor. }
  rewrite (fill_view c' bs i HV eq_refl). f_equal.
  unfold c'. set (c1 := orun S lk (resetValue S lk c) [CMerge bs]). change (mnbids (orun _ _ _ _)) with (mnbids (fillNeighborIds c1)).
  rewrite (fill_view c1 bs i); [reflexivity| |reflexivity]. apply (run_state S lk c [CMerge bs]). constructor; [exact HB|]. constructor.
Qed.
Theorem reload_coordination : exists S lk bs i tp, Forall (bond_ok S) bs /\ coordination_by S (radius_of S lk) bs i tp = 1 /\
  forall c, let c' := orun S lk (resetValue S lk c) [CMerge bs; CQuery; CReload] in
    nth i (coordinations S c') 0 = 1 /\ tpget tp (snd (coordinationByTypes S c' i)) = Some 2.
Proof.
  exists (abc 1), rad, two, 0%nat, "A"%string. split; [apply two_ok|].
  assert (OV : overlap (radius_of (abc 1) rad) (xbond 0 2 (3/2)) = 1 / 2).
  { unfold overlap, xbond, radius_of, abc. cbn [b_site0 b_site1 b_distance o_type Nat.eqb]. rewrite rad_A, abs1, Rmax_right; lra. }
  assert (OB : overlapping (radius_of (abc 1) rad) (xbond 0 2 (3/2)) = true) by (unfold overlapping; rewrite OV; apply Rltb_true; lra).
  assert (CO : coordination (abc 1) (radius_of (abc 1) rad) two 0 = 1).
  { unfold coordination, two. cbn [filter]. rewrite OB. cbn [xbond b_site0 Nat.eqb andb]. unfold sumf. cbn. ring. }
  split.
  { unfold coordination_by, two. cbn [filter]. rewrite OB. cbn [xbond b_site0 b_site1 Nat.eqb andb abc o_type].
    destruct (string_dec "A" "A") as [_|N]; [|congruence]. unfold sumf. cbn. ring. }
  intros c c'.
  assert (HC : Forall (call_ok (abc 1)) [CMerge two; CQuery; CReload]) by (constructor; [apply two_ok|]; repeat constructor).
  split.
  - rewrite (proj2 (coordination_main (abc 1) rad c _ HC)). exact CO.
  - unfold coordinationByTypes. destruct (getNeighborIds c' 0) as [c2 l] eqn:E.
    assert (El : l = [0%nat; 0%nat]).
    { pose proof (reload_doubles (abc 1) rad c two 0 (two_ok 1)) as Q. cbv zeta in Q. fold c' in Q. rewrite E in Q. exact Q. }
    assert (Ec : c2 = fillNeighborIds c') by (unfold getNeighborIds in E; congruence).
    destruct (run_state (abc 1) rad c _ HC) as (HV & _ & HR & _). fold c' in HV, HR. cbn [counted fold_left app] in HV.
    destruct (fill_same c') as [HV2 HR2]. rewrite <- Ec in HV2, HR2. rewrite HV in HV2. rewrite HR in HR2.
    cbn [snd]. rewrite El. cbn [fold_left].
    assert (S0 : suboverlap c2 0 0 0 = 1 / 2).
    { rewrite (overlap_view0 c2 two HV2 0 (xbond 0 2 (3/2)) eq_refl), (overlap_radius (abc 1) rad c2 _ HR2); [exact OV|]. pose proof (two_ok 1) as T. now inversion T. }
    rewrite S0. replace (Rleb (1 / 2) 0) with false by (symmetry; apply Rleb_false; lra).
    cbv zeta. rewrite (site0_view c2 two HV2 0 (xbond 0 2 (3/2)) eq_refl), (site1_view c2 two HV2 0 (xbond 0 2 (3/2)) eq_refl).
    cbn [xbond b_site0 b_site1 Nat.eqb abc o_type o_occ tpadd].
    destruct (string_dec "A" "A") as [_|N]; [|congruence]. cbn [tpget]. destruct (string_dec "A" "A") as [_|N]; [|congruence]. f_equal. ring.
Qed.
Lemma half_gradient : let S := abc (1/2) in let r := radius_of S rad in
  forall c, let c' := orun S rad (resetValue S rad c) [CMerge two] in
  ~ derivable_pt_lim (fun t => moved_total S r two 2 (vscale t (V3 1 0 0))) 0 (vdot (nth 2 (gradients S c') vzero) (V3 1 0 0)).
Proof.
  intros S r c c' H.
  assert (HC : Forall (call_ok S) [CMerge two]) by (constructor; [apply two_ok|constructor]).
  destruct (gradient_main S rad c [CMerge two] (1/2) HC) as [_ G]; [intros; split; reflexivity|apply two_dist|apply two_reversible|].
  specialize (G 2%nat (V3 1 0 0) ltac:(cbn; lia)). pose proof (uniqueness_limite _ _ _ _ H G) as E. clear H G. fold c' in E.
  destruct (run_state S rad c _ HC) as (HV & _ & HR & _). fold c' in HV, HR. cbn [counted fold_left app] in HV.
  assert (OV : forall x y z, overlap (siteradius c') (xbond x y z) = overlap r (xbond x y z) \/ ~ bond_ok S (xbond x y z)).
  { intros x y z. destruct (lt_dec x 3) as [L|L]; [|right; intros [Q _]; cbn in Q; lia]. destruct (lt_dec y 3) as [L'|L']; [|right; intros [_ Q]; cbn in Q; lia].
    left. apply (overlap_radius S rad c' _ HR). split; cbn; lia. }
  assert (EG : gradients S c' = addtov (addtov (repeat vzero 3) 2 (vscale (-2 * (1/2) / (3/2)) (V3 (3/2) 0 0))) 0 (vscale (-2 * (1/2) / (3/2)) (V3 (- (3/2)) 0 0))).
  { unfold gradients. rewrite (count_view c' two HV). cbn [two length seq fold_left].
    assert (O1 : overlap r (xbond 0 2 (3/2)) = 1/2).
    { unfold overlap, xbond, r, radius_of, S, abc. cbn [b_site0 b_site1 b_distance o_type Nat.eqb]. rewrite rad_A, abs1, Rmax_right; lra. }
    assert (O2 : overlap r (xbond 2 0 (- (3/2))) = 1/2).
    { unfold overlap, xbond, r, radius_of, S, abc. cbn [b_site0 b_site1 b_distance o_type Nat.eqb]. rewrite rad_A, abs2, Rmax_right; lra. }
    rewrite (overlap_view0 c' two HV 0 (xbond 0 2 (3/2)) eq_refl), (overlap_view0 c' two HV 1 (xbond 2 0 (- (3/2))) eq_refl).
    rewrite !(overlap_radius S rad c' _ HR) by (split; cbn; lia). fold r. rewrite O1, O2.
    replace (Rleb (1 / 2) 0) with false by (symmetry; apply Rleb_false; lra).
    rewrite (dist_view c' two HV 0 (xbond 0 2 (3/2)) eq_refl), (dist_view c' two HV 1 (xbond 2 0 (- (3/2))) eq_refl),
      (site1_view c' two HV 0 (xbond 0 2 (3/2)) eq_refl), (site1_view c' two HV 1 (xbond 2 0 (- (3/2))) eq_refl),
      (dir_view c' two HV 0 (xbond 0 2 (3/2)) eq_refl), (dir_view c' two HV 1 (xbond 2 0 (- (3/2))) eq_refl).
    cbn [xbond b_distance b_site1 b_r01 S abc o_n]. rewrite abs1, abs2. reflexivity. }
  rewrite EG in E. unfold addtov in E. cbn [repeat upd nth] in E. unfold vdot, vadd, vscale, vzero in E. cbn [vx vy vz] in E.
  replace (-2 * (1 / 2) / (3 / 2)) with (- (2/3)) in E by field. lra.
Qed.
