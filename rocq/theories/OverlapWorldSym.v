(** Proofs: gradients() in crystals with symmetry operations. *)
From Coq Require Import String Relations.
From Verif Require Import RBase R3 Trig Sums Lattice LatticeSpec LatticeProofs Crystal CrystalSpec CrystalProofs CrystalExample StructDiff StructDiffSpec Evaluator EvaluatorSpec BondGen BondGenSpec BondGenMain
  World WorldSpec WorldProofs WorldMain OrbitSpec OrbitGroup OrbitSum OrbitWorld OrbitExample Visited VisitedSpec VisitedProofs VisitedMain VisitedCalc Shares SiteSums
  BvsMain Overlap OverlapSpec OverlapProofs OverlapFlip OverlapGrad OverlapGen OverlapWorld OverlapWorldSpec OverlapWorldProofs OverlapWorldGrad.
Import ListNotations.
Open Scope R_scope.
Notation length := List.length.

(** * The value of gradients() for any history *)
Lemma gradients_dot S lk c ops : Forall (call_ok S) ops ->
  let c' := orun S lk (resetValue S lk c) ops in
  let r := radius_of S lk in
  (forall b, In b (counted ops) -> 0 < b_distance b) ->
  length (gradients S c') = o_n S /\
  forall k u, vdot (nth k (gradients S c') vzero) u =
    sumf (fun b => if (b_site1 b =? k)%nat then -2 * (Rmax 0 (r (b_site0 b) + r (b_site1 b) - b_distance b) / b_distance b) * vdot (b_r01 b) u else 0) (counted ops).
Proof.
  intros HO c' r HD. set (bs := counted ops) in *. destruct (run_state S lk c ops HO) as (HV & HB & HR & _). fold c' bs in HV, HB. fold c' in HR.
  assert (OV : forall b, In b bs -> overlap (siteradius c') b = overlap r b).
  { intros b Hb. apply overlap_radius; auto. rewrite Forall_forall in HB. auto. }
  assert (EG : gradients S c' = fold_left (fun rv b => if overlapping (siteradius c') b then addtov rv (b_site1 b)
     (vscale (-2 * overlap (siteradius c') b / b_distance b) (b_r01 b)) else rv) bs (repeat vzero (o_n S))).
  { unfold gradients. rewrite (count_view c' bs HV). apply fold_seq. intros k b rv Hk. cbv zeta.
    rewrite (overlap_view0 c' bs HV k b), leb_overlap, (dist_view c' bs HV k b), (site1_view c' bs HV k b), (dir_view c' bs HV k b) by auto.
    destruct (overlapping (siteradius c') b); reflexivity. }
  assert (S1 : Forall (fun b => (b_site1 b < o_n S)%nat) bs) by (eapply Forall_impl; [|exact HB]; intros b [_ Q]; exact Q).
  split.
  { rewrite EG. apply (accumv _ _ _ _ vzero bs S1). apply repeat_length. }
  intros k u. rewrite EG.
  destruct (accumv (overlapping (siteradius c')) b_site1 (fun b => vscale (-2 * overlap (siteradius c') b / b_distance b) (b_r01 b)) (o_n S) u bs S1 (repeat vzero (o_n S)) (repeat_length _ _)) as [_ HG].
  rewrite HG, nth_repeat0. clear HG EG. replace (vdot vzero u) with 0 by (destruct u; unfold vdot, vzero; cbn; ring). rewrite Rplus_0_l, sumf_filter.
  apply sumf_ext. intros b Hb. unfold overlapping. rewrite OV by auto. destruct (b_site1 b =? k)%nat; cbn [andb]; [|reflexivity]. fold (overlap r b).
  change (Rmax 0 (r (b_site0 b) + r (b_site1 b) - b_distance b)) with (overlap r b).
  destruct (Rltb 0 (overlap r b)) eqn:E; [rewrite vdot_scale; field; specialize (HD b Hb); lra|].
  replace (overlap r b) with 0 by (symmetry; apply not_overlapping; exact E). field. specialize (HD b Hb). lra.
Qed.

(** * On structures *)
Section One.
  Context (outer : nat -> nat -> bool) (lk : string -> R) (rmin rmax : R) (masked : bool) (mask : nat -> nat -> bool) (x : adp) (c : ocalc) (ws : nat -> ocalc).
  Context (N : nat) (order : list nat) (q : bool).
  Context (GE : good_env (env_of x)) (HM : masked = false -> forall i j, mask i j = true) (H1 : (1 <= N)%nat) (HO : Permutation order (seq 0 N)).
  Context (P : nat -> nat -> list image) (HN : neighbours_in rmin rmax x P).
  Notation n := (length (atoms_of x)).
  Notation SX := (overlap_view x).
  Notation used := (Overlap.getRmaxUsed (resetValue SX lk c) rmax).
  Notation ops := (OverlapWorldProofs.ops outer lk rmin rmax masked mask x c N order q).
  Notation PU := (OverlapWorldProofs.PU lk rmax x c P).
  Notation r := (table_radius lk x).
  Lemma counted_far b : In b (counted ops) -> 0 < b_distance b.
  Proof.
    intros Hb. apply (in_counted outer lk rmin rmax masked mask x c N order q GE HM H1 HO P HN) in Hb as (i & j & y & Hi & Hj & _ & Hy & ->).
    pose proof (PU_neighbours lk rmin rmax x c P HN) as Q. unfold neighbours_in in Q. pose proof (the_dist x i j y) as D.
    destruct (createBondGenerator x) as [cls M]. cbn [fst snd] in D. destruct (proj1 (proj2 (Q i j Hi Hj) y) Hy) as [_ [_ HR]]. rewrite D in HR. lra.
  Qed.
  Lemma gradient_sum k u : (k < n)%nat ->
    vdot (nth k (gradients SX (asked q (overlap_merged outer lk rmin rmax masked mask x c ws N order))) vzero) u =
    sumf (fun i => if mask i k then sumf (fun y => -2 * (Rmax 0 (r i + r k - b_distance (the_bond x i k y)) / b_distance (the_bond x i k y)) * vdot (b_r01 (the_bond x i k y)) u) (P i k) else 0) (seq 0 n).
  Proof.
    intros Hk. rewrite (merged_run outer lk rmin rmax masked mask x c ws N order q).
    destruct (gradients_dot SX lk c ops (ops_ok outer lk rmin rmax masked mask x c N order q GE H1 HO) counted_far) as [_ G]. rewrite G. clear G.
    rewrite (sumf_perm _ _ _ (counted_perm outer lk rmin rmax masked mask x c N order q H1 HO)), sumf_map.
    change (radius_of SX lk) with r.
    rewrite (trace_sum x GE rmin used masked mask HM PU true (fun e => if (b_site1 (fst e) =? k)%nat then -2 * (Rmax 0 (r (b_site0 (fst e)) + r (b_site1 (fst e)) - b_distance (fst e)) / b_distance (fst e)) * vdot (b_r01 (fst e)) u else 0) (PU_neighbours lk rmin rmax x c P HN)).
    apply sumf_ext. intros i Hi. apply in_seq in Hi.
    rewrite (sumf_ext _ (fun j => if (j =? k)%nat then (if mask i k then sumf (fun y => -2 * (Rmax 0 (r i + r k - b_distance (the_bond x i k y)) / b_distance (the_bond x i k y)) * vdot (b_r01 (the_bond x i k y)) u) (P i k) else 0) else 0)).
    { exact (BvsMain.sumf_pick' (fun _ => if mask i k then sumf (fun y => -2 * (Rmax 0 (r i + r k - b_distance (the_bond x i k y)) / b_distance (the_bond x i k y)) * vdot (b_r01 (the_bond x i k y)) u) (P i k) else 0) k n Hk). }
    intros j Hj. apply in_seq in Hj. destruct (mask i j) eqn:EM.
    - unfold OverlapWorldProofs.PU. rewrite sumf_filter'. destruct (Nat.eqb_spec j k) as [->|NE].
      + rewrite EM. apply sumf_ext. intros y Hy. destruct (in_P rmin rmax x P HN i k y ltac:(lia) ltac:(lia) Hy) as (F0 & F1 & F2). cbn [fst]. rewrite F0, F1, Nat.eqb_refl.
        destruct (Rleb (b_distance (the_bond x i k y)) used) eqn:EL; [reflexivity|]. apply Rleb_false in EL.
        pose proof (beyond lk rmax x c r i k _ (radii_small lk x c) ltac:(lia) ltac:(lia) (conj EL F2)) as HB. rewrite Rmax_left by lra. unfold Rdiv. ring.
      + apply sumf_zero. intros y Hy. destruct (in_P rmin rmax x P HN i j y ltac:(lia) ltac:(lia) Hy) as (F0 & F1 & F2). cbn [fst]. rewrite F1. apply Nat.eqb_neq in NE. rewrite NE. now destruct (Rleb _ _).
    - destruct (Nat.eqb_spec j k) as [->|NE]; [now rewrite EM|reflexivity].
  Qed.
  Lemma gradient_length : length (gradients SX (asked q (overlap_merged outer lk rmin rmax masked mask x c ws N order))) = n.
  Proof.
    rewrite (merged_run outer lk rmin rmax masked mask x c ws N order q).
    exact (proj1 (gradients_dot SX lk c ops (ops_ok outer lk rmin rmax masked mask x c N order q GE H1 HO) counted_far)).
  Qed.
End One.

(** * A cation at the origin and an anion beside it, in a crystal with inversion *)
Definition minus : mat := M3 (-1) 0 0 0 (-1) 0 0 0 (-1).
Definition inversion : list symop := [mkOp mid vzero; mkOp minus vzero].
Definition anion_at (a : R) : catom := mkCA (V3 a 0 0) (M3 0 0 0 0 0 0 0 0 0) "Cl-"%string 1 false.
Definition cation0 : catom := mkCA vzero (M3 0 0 0 0 0 0 0 0 0) "Na+"%string 1 false.
Definition ionic (a : R) : adp := Adp 0 (StructDiff.Crystal lattice0 prec0 inversion [cation0; anion_at a]).
Definition ion_radii (t : string) : R := if string_dec t "Na+" then 1 / 4 else 1 / 8.
Ltac ops2 H := destruct H as [<-|[<-|[]]].
Ltac calc2 := unfold op_image, mv, vadd, minus, mid, vzero in *; cbn [op_R op_t vx vy vz x00 x01 x02 x10 x11 x12 x20 x21 x22] in *.
Lemma inversion_group : space_group lattice0 inversion.
Proof.
  split.
  - intros o Ho u. rewrite !cart0. unfold vnorm. f_equal. destruct u as [a b c]. ops2 Ho; unfold vdot; calc2; ring.
  - intros o Ho i j k. ops2 Ho; unfold iv; calc2.
    + exists i, j, k. f_equal; ring.
    + exists (- i)%Z, (- j)%Z, (- k)%Z. rewrite !opp_IZR. f_equal; ring.
  - assert (P : forall o o' q, In q inversion -> (forall u, op_image o (op_image o' u) = op_image q u) -> exists q, In q inversion /\ forall u, same_site (op_image o (op_image o' u)) (op_image q u)).
    { intros o o' q Hq H. exists q. split; auto. intros u. now apply eq_same. }
    intros o o' Ho Ho'. ops2 Ho; ops2 Ho';
      first [apply (P _ _ (mkOp mid vzero)); [cbn; tauto|intros [a b c]; calc2; f_equal; ring] | apply (P _ _ (mkOp minus vzero)); [cbn; tauto|intros [a b c]; calc2; f_equal; ring]].
  - intros o Ho. ops2 Ho; [exists (mkOp mid vzero)|exists (mkOp minus vzero)]; (split; [cbn; tauto|split; intros [a b c]; apply eq_same; calc2; f_equal; ring]).
Qed.
Lemma ionic_good a : good_env (env_of (ionic a)).
Proof. cbn [env_of good_env ionic]. split; [now left|split; [apply fine0; unfold prec0; lra|discriminate]]. Qed.
(** positions +a and -a on the first axis *)
Lemma image_line o a : In o inversion -> exists s, (s = 1 \/ s = -1) /\ op_image o (V3 a 0 0) = V3 (s * a) 0 0.
Proof. intros H. ops2 H; [exists 1|exists (-1)]; (split; [auto|]); calc2; f_equal; ring. Qed.
Lemma int0 (k : Z) y : IZR k = y -> -1 < y < 1 -> k = 0%Z.
Proof. intros <- H. assert (-1 < k < 1)%Z by (split; apply lt_IZR; lra). lia. Qed.
Lemma snap0 : no_snap 0.
Proof. unfold no_snap. destruct (Rfloor_spec 0) as [A B]. rewrite (int0 (Rfloor 0) _ eq_refl) by lra. lra. Qed.
Lemma line_exact a u : c_xyz u = V3 a 0 0 -> a = 0 \/ 3 / 16 < a < 5 / 16 -> exact_site lattice0 prec0 inversion u.
Proof.
  intros EX HA. unfold exact_site. rewrite frac0, EX.
  assert (X : forall u, In u (images inversion (V3 a 0 0)) -> exists s, (s = 1 \/ s = -1) /\ u = V3 (s * a) 0 0).
  { intros w Hw. unfold images in Hw. apply in_map_iff in Hw as (o & <- & Ho). now apply image_line. }
  split.
  - intros w1 w2 Hu Hv. destruct (X w1 Hu) as (s & Hs & ->). destruct (X w2 Hv) as (s' & Hs' & ->).
    destruct (Req_dec (s * a) (s' * a)) as [->|NE]; [left; apply same_refl|right].
    intros (m & n & o & H). unfold vdist in H. rewrite cart_sub in H.
    destruct (comp_bound lattice0 (vsub (V3 (s * a) 0 0) (vadd (V3 (s' * a) 0 0) (iv m n o))) lattice0_consistent) as (A & _ & _).
    destruct recip0 as (e1 & _). rewrite e1, Rmult_1_r in A. unfold vsub, vadd, iv in A. cbn [vx vy vz] in A.
    assert (B : - (1 / 4) < s * a - (s' * a + IZR m) < 1 / 4) by (unfold prec0, vsub, vadd, iv in *; cbn [vx vy vz] in *; revert A H; unfold Rabs; destruct (Rcase_abs _); lra). clear A H.
    destruct HA as [->|HA]; [lra|].
    assert (m = 0%Z \/ m = 1%Z \/ m = (-1)%Z) as HM; [|destruct HM as [HM|[HM|HM]]; rewrite HM in B; destruct Hs as [->| ->], Hs' as [->| ->]; lra].
    assert (-2 < m < 2)%Z by (split; apply lt_IZR; destruct Hs as [->| ->], Hs' as [->| ->]; lra). lia.
  - intros w Hw. destruct (X w Hw) as (s & Hs & ->). cbn [vx vy vz]. split; [|split; apply snap0].
    destruct HA as [->|HA]; [rewrite Rmult_0_r; apply snap0|].
    unfold no_snap. destruct (Rfloor_spec (s * a)) as [A B]. set (k := Rfloor (s * a)) in *. destruct Hs as [->| ->].
    + rewrite (int0 k _ eq_refl) by lra. lra.
    + assert (E : (k = -1)%Z) by (assert (-2 < k < 0)%Z by (split; apply lt_IZR; lra); lia). rewrite E. lra.
Qed.
Lemma ionic_orderly a : 3 / 16 < a < 5 / 16 -> orderly false (ionic a).
Proof.
  intros HA. unfold orderly. cbn [env_of atoms_of ionic]. split; [exact inversion_group|]. intros u [<-|[<-|[]]]; (split; [|discriminate]); [apply (line_exact 0)|apply (line_exact a)]; auto.
Qed.
Notation fp := (fpos lattice0 prec0 inversion).
Section Ion.
  Context (a : R) (HA : 3 / 16 < a < 5 / 16).
  Notation X := (ionic a).
  Notation l2 := [cation0; anion_at a].
  Lemma orbit_c : orbit inversion vzero (fp cation0).
  Proof. rewrite <- (frac0 vzero). exact (crystal_orbit lattice0 prec0 inversion (ionic_good a) cation0 (line_exact 0 cation0 eq_refl (or_introl eq_refl))). Qed.
  Lemma orbit_a : orbit inversion (V3 a 0 0) (fp (anion_at a)).
  Proof. rewrite <- (frac0 (V3 a 0 0)). exact (crystal_orbit lattice0 prec0 inversion (ionic_good a) (anion_at a) (line_exact a (anion_at a) eq_refl (or_intror HA))). Qed.
  Lemma pos_c s : (s < length (fp cation0))%nat -> exists T, OrbitSum.pos (fp cation0) s = ivec3 T.
  Proof.
    intros H. destruct orbit_c as (O1 & _ & _). destruct (O1 _ (pos_in _ s H)) as (o & Ho & (i & j & k & E)). exists (i, j, k). rewrite E.
    destruct (image_line o 0 Ho) as (g & _ & Eg). change (V3 0 0 0) with vzero in Eg. rewrite Eg. unfold ivec3, iv, vadd. cbn [vx vy vz]. f_equal; ring.
  Qed.
  Lemma pos_a s : (s < length (fp (anion_at a)))%nat -> exists g T, (g = 1 \/ g = -1) /\ OrbitSum.pos (fp (anion_at a)) s = vadd (V3 (g * a) 0 0) (ivec3 T).
  Proof.
    intros H. destruct orbit_a as (O1 & _ & _). destruct (O1 _ (pos_in _ s H)) as (o & Ho & (i & j & k & E)).
    destruct (image_line o a Ho) as (g & Hg & Eg). exists g, (i, j, k). split; [exact Hg|]. rewrite E, Eg. reflexivity.
  Qed.
  Lemma c_one : length (fp cation0) = 1%nat.
  Proof.
    pose proof (first_pos lattice0 prec0 inversion (ionic_good a) cation0) as H0. destruct orbit_c as (_ & _ & O3).
    destruct (fp cation0) as [|p [|p' r]] eqn:E; [cbn in H0; lia|reflexivity|]. exfalso.
    pose proof (pos_c 0) as A. pose proof (pos_c 1) as B. rewrite E in A, B. cbn [length] in A, B. destruct (A ltac:(lia)) as [[[i j] k] EA]. destruct (B ltac:(lia)) as [[[i' j'] k'] EB].
    cbn [OrbitSum.pos nth] in EA, EB. unfold OrbitSum.pos in *. cbn [nth] in *. subst p p'.
    pose proof (O3 0%nat 1%nat _ _ eq_refl eq_refl) as Q. enough (0%nat = 1%nat) by discriminate. apply Q. exists (i - i')%Z, (j - j')%Z, (k - k')%Z.
    unfold ivec3, iv, vadd. cbn [vx vy vz]. rewrite !minus_IZR. f_equal; ring.
  Qed.
  Context (P : nat -> nat -> list image) (HN : neighbours_in (1 / 16) (3 / 8) X P).
  Lemma HN' : forall i j, (i < 2)%nat -> (j < 2)%nat -> NoDup (P i j) /\
    forall y, In y (P i j) <-> image_ok (fst (createBondGenerator X)) (snd (createBondGenerator X)) [j] y /\ in_range (1 / 16) (3 / 8) (b_distance (the_bond X i j y)).
  Proof.
    intros i j Hi Hj. pose proof HN as H. unfold neighbours_in in H. pose proof (fun y => the_dist X i j y) as D. destruct (createBondGenerator X) as [cls M]. cbn [fst snd] in *.
    destruct (H i j Hi Hj) as [ND HI]. split; [exact ND|]. intros y. rewrite HI, D. reflexivity.
  Qed.
  Lemma vec_of i j u w s T : nth_error l2 i = Some u -> nth_error l2 j = Some w -> (s < length (fp w))%nat ->
    b_r01 (the_bond X i j (O, s, T)) = step3 (fp w) (OrbitSum.pos (fp u) 0) (s, T).
  Proof.
    intros Hu Hw Hs. pose proof (bond_pos lattice0 prec0 inversion (ionic_good a) l2 i j u w s T Hu Hw Hs) as [E _]. unfold the_bond. rewrite create_view.
    change (env_of X) with (Symmetric lattice0 prec0 inversion : envt). change (atoms_of X) with l2. rewrite E. apply cart0.
  Qed.
  Lemma image_shape j w y : nth_error l2 j = Some w -> image_ok (fst (createBondGenerator X)) (snd (createBondGenerator X)) [j] y <-> exists s T, y = (O, s, T) /\ (s < length (fp w))%nat.
  Proof.
    intros Hw. destruct y as [[k s] T]. rewrite create_view. change (env_of X) with (Symmetric lattice0 prec0 inversion : envt). change (atoms_of X) with l2. cbn [image_ok length].
    pose proof (eqv lattice0 prec0 inversion l2 j w Hw) as EQ. unfold fpos. rewrite map_length.
    split.
    - intros [Hk Hs]. assert (k = O) as -> by lia. cbn [nth] in Hs. rewrite EQ, map_length in Hs. eauto.
    - intros (s' & T' & E & Hs). injection E as -> -> ->. split; [lia|]. cbn [nth]. rewrite EQ, map_length. exact Hs.
  Qed.
  Lemma comps v d : vnorm v <= d -> Rabs (vx v) <= d /\ Rabs (vy v) <= d /\ Rabs (vz v) <= d.
  Proof.
    intros H. destruct (comp_bound lattice0 v lattice0_consistent) as (A & B & C). rewrite cart0 in *. destruct recip0 as (e1 & e2 & e3). rewrite e1, Rmult_1_r in A. rewrite e2, Rmult_1_r in B. rewrite e3, Rmult_1_r in C. lra.
  Qed.
  Lemma abs_in v d : Rabs v <= d -> - d <= v <= d. Proof. unfold Rabs. destruct (Rcase_abs v); lra. Qed.
  Lemma norm_comp v d : vnorm v <= d -> (- d <= vx v <= d) /\ (- d <= vy v <= d) /\ (- d <= vz v <= d).
  Proof. intros H. destruct (comps v d H) as (A & B & C). repeat split; apply abs_in in A, B, C; lra. Qed.
  Lemma norm0 : vnorm vzero = 0.
  Proof. unfold vnorm, vdot, vzero. cbn [vx vy vz]. rewrite Rmult_0_l, !Rplus_0_r. apply sqrt_0. Qed.
  Lemma norm_line g : g = 1 \/ g = -1 -> vnorm (V3 (g * a) 0 0) = a.
  Proof using HA. intros H. unfold vnorm, vdot. cbn [vx vy vz]. rewrite Rmult_0_l, !Rplus_0_r. replace (g * a * (g * a)) with (a * a) by (destruct H as [->| ->]; ring). apply sqrt_square. lra. Qed.
  Lemma none_cc : P 0%nat 0%nat = [].
  Proof.
    destruct (P 0%nat 0%nat) as [|y l] eqn:E; [reflexivity|exfalso]. destruct (HN' 0 0) as [_ H]; [lia|lia|]. destruct (proj1 (H y)) as [HI [HR _]]; [rewrite E; now left|]. clear E H.
    apply (image_shape 0 cation0 y eq_refl) in HI as (s & T & -> & Hs). rewrite (bond_norm _ _ _ _ _ : b_distance (the_bond X 0 0 (O, s, T)) = _) in HR.
    change (bond_at _ _ _ _ _) with (the_bond X 0 0 (O, s, T)) in HR. rewrite (vec_of 0 0 cation0 cation0 s T eq_refl eq_refl Hs) in HR.
    destruct (pos_c s Hs) as [[[i j] k] E1]. destruct (pos_c 0 (first_pos lattice0 prec0 inversion (ionic_good a) cation0)) as [[[i' j'] k'] E2]. destruct T as [[m n] o].
    assert (EV : step3 (fp cation0) (OrbitSum.pos (fp cation0) 0) (s, (m, n, o)) = iv (i + m - i') (j + n - j') (k + o - k')).
    { unfold step3. cbn [fst snd]. rewrite E1, E2. unfold ivec3, iv, vadd, vsub. cbn [vx vy vz]. rewrite !minus_IZR, !plus_IZR. reflexivity. }
    rewrite EV in HR. destruct (norm_comp _ _ (proj2 HR)) as (A & B & C). unfold iv in A, B, C. cbn [vx vy vz] in A, B, C.
    rewrite (int0 (i + m - i') _ eq_refl), (int0 (j + n - j') _ eq_refl), (int0 (k + o - k') _ eq_refl) in HR by lra. change (iv 0 0 0) with vzero in HR. rewrite norm0 in HR. lra.
  Qed.
  Lemma none_aa : P 1%nat 1%nat = [].
  Proof.
    destruct (P 1%nat 1%nat) as [|y l] eqn:E; [reflexivity|exfalso]. destruct (HN' 1 1) as [_ H]; [lia|lia|]. destruct (proj1 (H y)) as [HI [HR _]]; [rewrite E; now left|]. clear E H.
    apply (image_shape 1 (anion_at a) y eq_refl) in HI as (s & T & -> & Hs). rewrite (bond_norm _ _ _ _ _ : b_distance (the_bond X 1 1 (O, s, T)) = _) in HR.
    change (bond_at _ _ _ _ _) with (the_bond X 1 1 (O, s, T)) in HR. rewrite (vec_of 1 1 (anion_at a) (anion_at a) s T eq_refl eq_refl Hs) in HR.
    destruct (pos_a s Hs) as (g & [[i j] k] & Hg & E1). destruct (pos_a 0 (first_pos lattice0 prec0 inversion (ionic_good a) (anion_at a))) as (g' & [[i' j'] k'] & Hg' & E2). destruct T as [[m n] o].
    assert (EV : step3 (fp (anion_at a)) (OrbitSum.pos (fp (anion_at a)) 0) (s, (m, n, o)) = vadd (V3 (g * a - g' * a) 0 0) (iv (i + m - i') (j + n - j') (k + o - k'))).
    { unfold step3. cbn [fst snd]. rewrite E1, E2. unfold ivec3, iv, vadd, vsub. cbn [vx vy vz]. rewrite !minus_IZR, !plus_IZR. f_equal; ring. }
    rewrite EV in HR. clear EV. set (mx := (i + m - i')%Z) in *. destruct (norm_comp _ _ (proj2 HR)) as (A & B & C). unfold iv, vadd in A, B, C. cbn [vx vy vz] in A, B, C.
    assert (BX : -1 < IZR (j + n - j') < 1) by lra. assert (CX : -1 < IZR (k + o - k') < 1) by lra. rewrite (int0 _ _ eq_refl BX), (int0 _ _ eq_refl CX) in HR.
    assert (M3x : mx = 0%Z \/ mx = 1%Z \/ mx = (-1)%Z). { assert (-2 < mx < 2)%Z by (split; apply lt_IZR; destruct Hg as [->| ->], Hg' as [->| ->]; lra). lia. }
    destruct Hg as [->| ->], Hg' as [->| ->]; destruct M3x as [M|[M|M]]; rewrite M in A, HR; try lra.
    - unfold vadd, iv in HR. cbn [vx vy vz] in HR. replace (V3 _ _ _) with vzero in HR by (unfold vzero; f_equal; ring). rewrite norm0 in HR. lra.
    - unfold vadd, iv in HR. cbn [vx vy vz] in HR. replace (V3 _ _ _) with vzero in HR by (unfold vzero; f_equal; ring). rewrite norm0 in HR. lra.
  Qed.
  Lemma site_of g : g = 1 \/ g = -1 -> exists s T, (s < length (fp (anion_at a)))%nat /\ step3 (fp (anion_at a)) (OrbitSum.pos (fp cation0) 0) (s, T) = V3 (g * a) 0 0.
  Proof.
    intros Hg. destruct orbit_a as (_ & O2 & _).
    assert (HO : exists o, In o inversion /\ op_image o (V3 a 0 0) = V3 (g * a) 0 0).
    { destruct Hg as [->| ->]; [exists (mkOp mid vzero)|exists (mkOp minus vzero)]; (split; [cbn; tauto|]); calc2; f_equal; ring. }
    destruct HO as (o & Ho & Eo). destruct (O2 o Ho) as (p & Hp & (i & j & k & Ep)). rewrite Eo in Ep. apply In_nth_error in Hp as [s Hs]. destruct (nth_pos _ _ _ Hs) as [Ls Es].
    destruct (pos_c 0 (first_pos lattice0 prec0 inversion (ionic_good a) cation0)) as [[[i' j'] k'] E2].
    exists s, (i' - i, j' - j, k' - k)%Z. split; [exact Ls|]. unfold step3. cbn [fst snd]. rewrite Es, Ep, E2. unfold ivec3, iv, vadd, vsub. cbn [vx vy vz]. rewrite !minus_IZR. f_equal; ring.
  Qed.
  Lemma two_ca : exists y0 y1, Permutation (P 0%nat 1%nat) [y0; y1] /\ b_r01 (the_bond X 0 1 y0) = V3 a 0 0 /\ b_r01 (the_bond X 0 1 y1) = V3 (- a) 0 0.
  Proof.
    destruct (site_of 1 (or_introl eq_refl)) as (s0 & T0 & L0 & E0). destruct (site_of (-1) (or_intror eq_refl)) as (s1 & T1 & L1 & E1).
    assert (V0 : b_r01 (the_bond X 0 1 (O, s0, T0)) = V3 (1 * a) 0 0) by (rewrite (vec_of 0 1 cation0 (anion_at a) s0 T0 eq_refl eq_refl L0); exact E0).
    assert (V1 : b_r01 (the_bond X 0 1 (O, s1, T1)) = V3 (-1 * a) 0 0) by (rewrite (vec_of 0 1 cation0 (anion_at a) s1 T1 eq_refl eq_refl L1); exact E1).
    exists (O, s0, T0), (O, s1, T1). destruct (HN' 0 1) as [ND HI]; [lia|lia|].
    assert (UN : forall g s T s' T', (g = 1 \/ g = -1) -> (s < length (fp (anion_at a)))%nat -> (s' < length (fp (anion_at a)))%nat ->
      step3 (fp (anion_at a)) (OrbitSum.pos (fp cation0) 0) (s, T) = V3 (g * a) 0 0 -> step3 (fp (anion_at a)) (OrbitSum.pos (fp cation0) 0) (s', T') = V3 (g * a) 0 0 -> s = s' /\ T = T').
    { intros g s T s' T' _ Ls Ls' Q Q'. destruct orbit_a as (_ & _ & O3). rewrite <- Q' in Q. clear Q'. unfold step3 in Q. cbn [fst snd] in Q.
      pose proof (O3 s s' _ _ (pos_nth _ _ Ls) (pos_nth _ _ Ls')) as Q3. destruct T as [[m n] o], T' as [[m' n'] o'].
      destruct (OrbitSum.pos (fp (anion_at a)) s) as [p1 p2 p3] eqn:EP. destruct (OrbitSum.pos (fp (anion_at a)) s') as [q1 q2 q3] eqn:EQ. destruct (OrbitSum.pos (fp cation0) 0) as [z1 z2 z3].
      unfold ivec3, iv, vadd, vsub in Q. cbn [vx vy vz] in Q. injection Q as A B C.
      assert (s = s').
      { apply Q3. exists (m' - m)%Z, (n' - n)%Z, (o' - o)%Z. unfold vadd, iv. cbn [vx vy vz]. rewrite !minus_IZR. f_equal; lra. }
      subst s'. split; [reflexivity|]. rewrite EP in EQ. injection EQ as -> -> ->. f_equal; [f_equal|]; apply eq_IZR; lra. }
    split; [|split; [rewrite V0; f_equal; ring|rewrite V1; f_equal; ring]].
    apply NoDup_Permutation; [exact ND| |].
    - constructor; [|constructor; [intros []|constructor]]. intros [E|[]]. rewrite <- E, V1 in V0. injection V0. lra.
    - intros y. rewrite HI. cbn [In]. split.
      + intros [H [HR _]]. apply (image_shape 1 (anion_at a) y eq_refl) in H as (s & T & -> & Hs).
        rewrite (bond_norm _ _ _ _ _ : b_distance (the_bond X 0 1 (O, s, T)) = _) in HR. change (bond_at _ _ _ _ _) with (the_bond X 0 1 (O, s, T)) in HR. rewrite (vec_of 0 1 cation0 (anion_at a) s T eq_refl eq_refl Hs) in HR.
        destruct (pos_a s Hs) as (g & [[i j] k] & Hg & EA). destruct (pos_c 0 (first_pos lattice0 prec0 inversion (ionic_good a) cation0)) as [[[i' j'] k'] E2].
        assert (EV : step3 (fp (anion_at a)) (OrbitSum.pos (fp cation0) 0) (s, T) = V3 (g * a) 0 0).
        { destruct T as [[m n] o].
          assert (EV : step3 (fp (anion_at a)) (OrbitSum.pos (fp cation0) 0) (s, (m, n, o)) = vadd (V3 (g * a) 0 0) (iv (i + m - i') (j + n - j') (k + o - k'))).
          { unfold step3. cbn [fst snd]. rewrite EA, E2. unfold ivec3, iv, vadd, vsub. cbn [vx vy vz]. rewrite !minus_IZR, !plus_IZR. f_equal; ring. }
          rewrite EV in HR |- *. destruct (norm_comp _ _ (proj2 HR)) as (A & B & C). unfold iv, vadd in A, B, C. cbn [vx vy vz] in A, B, C.
          assert (AX : -1 < IZR (i + m - i') < 1) by (destruct Hg as [->| ->]; lra). assert (BX : -1 < IZR (j + n - j') < 1) by lra. assert (CX : -1 < IZR (k + o - k') < 1) by lra.
          rewrite (int0 _ _ eq_refl AX), (int0 _ _ eq_refl BX), (int0 _ _ eq_refl CX). unfold vadd, iv. cbn [vx vy vz]. f_equal; ring. }
        destruct Hg as [->| ->].
        * destruct (UN 1 s T s0 T0 (or_introl eq_refl) Hs L0 EV E0) as [-> ->]. now left.
        * destruct (UN (-1) s T s1 T1 (or_intror eq_refl) Hs L1 EV E1) as [-> ->]. right. now left.
      + assert (RA : in_range (1 / 16) (3 / 8) a) by (unfold in_range; lra).
        intros [<-|[<-|[]]].
        * split; [apply (image_shape 1 (anion_at a) _ eq_refl); eauto|]. rewrite (bond_norm _ _ _ _ _ : b_distance (the_bond X 0 1 (O, s0, T0)) = _). change (bond_at _ _ _ _ _) with (the_bond X 0 1 (O, s0, T0)).
          rewrite V0, norm_line; auto.
        * split; [apply (image_shape 1 (anion_at a) _ eq_refl); eauto|]. rewrite (bond_norm _ _ _ _ _ : b_distance (the_bond X 0 1 (O, s1, T1)) = _). change (bond_at _ _ _ _ _) with (the_bond X 0 1 (O, s1, T1)).
          rewrite V1, norm_line; auto.
  Qed.
End Ion.
(** the total of the cell: both anions overlap with the cation *)
Lemma ionic_total a : 3 / 16 < a < 5 / 16 -> forall P, neighbours_in (1 / 16) (3 / 8) (ionic a) P ->
  square_cell (ionic a) (table_radius ion_radii (ionic a)) (fun _ _ => true) P = 2 * (3 / 8 - a)².
Proof.
  intros HA P HN. set (r := table_radius ion_radii (ionic a)). unfold square_cell, square_at. change (length (atoms_of (ionic a))) with 2%nat. cbn [seq]. rewrite !sumf_cons, !sumf_nil, !over_dist.
  rewrite (none_cc a P HN), (none_aa a HA P HN), !sumf_nil. change (c_occ (atom_at (ionic a) 0)) with 1. change (c_occ (atom_at (ionic a) 1)) with 1.
  pose proof (both_ways (ionic a) (ionic_good a) (ionic_orderly a HA) (1 / 16) (3 / 8) P HN (depth2 r 0 1) 0 1 ltac:(cbn; lia) ltac:(cbn; lia)) as BW.
  rewrite (sumf_ext (fun y => depth2 r 1 0 (b_distance (the_bond (ionic a) 1 0 y))) (fun y => depth2 r 0 1 (b_distance (the_bond (ionic a) 1 0 y)))) by (intros; unfold depth2; now rewrite (Rplus_comm (r 1%nat))).
  assert (M0 : multiplicity (env_of (ionic a)) (atom_at (ionic a) 0) = 1%nat).
  { change (multiplicity (Symmetric lattice0 prec0 inversion) cation0 = 1%nat). rewrite mult_fpos. apply (c_one a). }
  rewrite M0 in *. change (INR 1) with 1 in *.
  set (S01 := sumf (fun y => depth2 r 0 1 (b_distance (the_bond (ionic a) 0 1 y))) (P 0%nat 1%nat)) in *. set (S10 := sumf (fun y => depth2 r 0 1 (b_distance (the_bond (ionic a) 1 0 y))) (P 1%nat 0%nat)) in *.
  assert (E : S01 = 2 * (3 / 8 - a)²).
  { destruct (two_ca a HA P HN) as (y0 & y1 & HP & V0 & V1). unfold S01. rewrite (sumf_perm _ _ _ HP), !sumf_cons, sumf_nil.
    rewrite (bond_norm _ _ _ _ _ : b_distance (the_bond (ionic a) 0 1 y0) = _), (bond_norm _ _ _ _ _ : b_distance (the_bond (ionic a) 0 1 y1) = _).
    change (bond_at _ _ _ _ y0) with (the_bond (ionic a) 0 1 y0). change (bond_at _ _ _ _ y1) with (the_bond (ionic a) 0 1 y1). rewrite V0, V1.
    replace a with (1 * a) at 1 by ring. replace (- a) with (-1 * a) by ring. rewrite !norm_line by auto. unfold depth2. change (r 0%nat) with (1 / 4). change (r 1%nat) with (1 / 8). rewrite Rmax_right by lra.
    unfold Rsqr. field. }
  rewrite <- E. lra.
Qed.
Lemma ionic_gradient a outer c ws N order q : 3 / 16 < a < 5 / 16 -> (1 <= N)%nat -> Permutation order (seq 0 N) -> forall P, neighbours_in (1 / 16) (3 / 8) (ionic a) P ->
  nth 1 (gradients (overlap_view (ionic a)) (asked q (overlap_merged outer ion_radii (1 / 16) (3 / 8) false (fun _ _ => true) (ionic a) c ws N order))) vzero = vzero.
Proof.
  intros HA H1 HO P HN.
  pose proof (fun u => gradient_sum outer ion_radii (1 / 16) (3 / 8) false (fun _ _ => true) (ionic a) c ws N order q (ionic_good a) ltac:(reflexivity) H1 HO P HN 1 u ltac:(cbn; lia)) as G.
  set (v := nth 1 _ vzero) in *. clearbody v. change (length (atoms_of (ionic a))) with 2%nat in G. cbn [seq] in G.
  destruct (two_ca a HA P HN) as (y0 & y1 & HP & V0 & V1).
  assert (Z : forall u, vdot v u = 0).
  { intros u. rewrite G, !sumf_cons, sumf_nil, (none_aa a HA P HN), sumf_nil, (sumf_perm _ _ _ HP), !sumf_cons, sumf_nil.
    rewrite (bond_norm _ _ _ _ _ : b_distance (the_bond (ionic a) 0 1 y0) = _), (bond_norm _ _ _ _ _ : b_distance (the_bond (ionic a) 0 1 y1) = _).
    change (bond_at _ _ _ _ y0) with (the_bond (ionic a) 0 1 y0). change (bond_at _ _ _ _ y1) with (the_bond (ionic a) 0 1 y1). rewrite V0, V1.
    pose proof (norm_line a HA 1 (or_introl eq_refl)) as N0. pose proof (norm_line a HA (-1) (or_intror eq_refl)) as N1. rewrite Rmult_1_l in N0. replace (-1 * a) with (- a) in N1 by ring. rewrite N0, N1.
    destruct u as [u1 u2 u3]. unfold vdot. cbn [vx vy vz]. ring. }
  pose proof (Z (V3 1 0 0)) as A. pose proof (Z (V3 0 1 0)) as B. pose proof (Z (V3 0 0 1)) as C. destruct v as [v1 v2 v3]. unfold vdot in A, B, C. cbn [vx vy vz] in A, B, C. unfold vzero. f_equal; lra.
Qed.
Lemma deriv_near (f g : R -> R) x l d : 0 < d -> (forall y, x - d < y < x + d -> f y = g y) -> derivable_pt_lim g x l -> derivable_pt_lim f x l.
Proof.
  intros Hd E H e He. destruct (H e He) as (del & Hdel). assert (HM : 0 < Rmin del d) by (apply Rmin_pos; [apply cond_pos|exact Hd]).
  exists (mkposreal _ HM). cbn [pos]. intros h Hh Hl. rewrite !E by (pose proof (Rmin_r del d); revert Hl; unfold Rabs; destruct (Rcase_abs h); cbn; lra).
  apply Hdel; [exact Hh|]. eapply Rlt_le_trans; [exact Hl|]. cbn. apply Rmin_l.
Qed.
