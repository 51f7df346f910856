(** Proofs: OverlapCalculator on structures. *)
From Coq Require Import String Relations.
From Verif Require Import RBase R3 Trig Sums Lattice Crystal StructDiff StructDiffSpec Evaluator EvaluatorSpec BondGen BondGenSpec
  World WorldSpec WorldProofs WorldMain OrbitSpec OrbitWorld Visited VisitedSpec VisitedProofs VisitedMain VisitedCalc Shares SiteSums
  Overlap OverlapSpec OverlapProofs OverlapFlip OverlapNbh OverlapWorld OverlapWorldSpec.
Import ListNotations.
Open Scope R_scope.
Notation length := List.length.

Lemma flat_map_fst {A B} (l : list (A * B)) : flat_map (fun e => [fst e]) l = map fst l.
Proof. induction l as [|a l IH]; [reflexivity|]. cbn. now rewrite IH. Qed.
Lemma map_flat {A B C} (f : B -> C) (g : A -> list B) l : map f (flat_map g l) = flat_map (fun a => map f (g a)) l.
Proof. induction l as [|a l IH]; [reflexivity|]. cbn [flat_map]. now rewrite map_app, IH. Qed.
Lemma fold_add {A} l : forall c : ocalc, fold_left (fun c e => addPairContribution c (fst e)) l c = with_value c (mvalue c ++ flat_map chunk (map (@fst bond A) l)).
Proof.
  induction l as [|e l IH]; intros c; [cbn; rewrite app_nil_r; now destruct c|]. cbn [fold_left map flat_map]. rewrite IH. unfold addPairContribution, with_value.
  cbn [mvalue mnbids mcached mradii mmaxsep]. now rewrite app_assoc.
Qed.
Lemma sumf_filter' {A} (p : A -> bool) (f : A -> R) l : sumf f (filter p l) = sumf (fun a => if p a then f a else 0) l.
Proof. induction l as [|a l IH]; [reflexivity|]. cbn [filter]. rewrite (sumf_cons _ a l). destruct (p a); rewrite ?sumf_cons, IH; ring. Qed.
Lemma length_sumf {A} (p : A -> bool) l : INR (length (filter p l)) = sumf (fun a => if p a then 1 else 0) l.
Proof. induction l as [|a l IH]; [reflexivity|]. cbn [filter]. rewrite (sumf_cons _ a l). destruct (p a); cbn [length]; rewrite ?S_INR, IH; ring. Qed.

Lemma cut_range lo hi h d : h <= hi -> in_range lo h d <-> in_range lo hi d /\ d <= h.
Proof. intros H. unfold in_range. split; intros; repeat split; lra. Qed.
Lemma lt1 k : (k < 1)%nat -> k = O. Proof. lia. Qed.
Section One.
  Context (outer : nat -> nat -> bool) (lk : string -> R) (rmin rmax : R) (masked : bool) (mask : nat -> nat -> bool) (x : adp) (c : ocalc) (ws : nat -> ocalc).
  Context (N : nat) (order : list nat) (q : bool).
  Notation n := (length (atoms_of x)).
  Notation SX := (overlap_view x).
  Notation used := (Overlap.getRmaxUsed (resetValue SX lk c) rmax).
  Definition part (k : nat) : list bond := map fst (share outer rmin used masked mask true x k N).
  Definition ops : list ocall := map (fun k => CMerge (part k)) order ++ (if q then [CQuery] else []).
  Lemma reset_same c' : resetValue SX lk c' = resetValue SX lk c. Proof. reflexivity. Qed.
  Lemma on_value w k : mvalue (overlap_on outer lk rmin rmax masked mask x w k N) = flat_map chunk (part k).
  Proof. unfold overlap_on, part. rewrite (reset_same w), fold_add. reflexivity. Qed.
  Lemma merged_run : asked q (overlap_merged outer lk rmin rmax masked mask x c ws N order) = orun SX lk (resetValue SX lk c) ops.
  Proof.
    unfold ops, orun. rewrite fold_left_app. unfold overlap_merged.
    assert (E : forall l c0, fold_left (fun c k => Overlap.executeParallelMerge c (mvalue (overlap_on outer lk rmin rmax masked mask x (ws k) k N))) l c0 = fold_left (ostep SX lk) (map (fun k => CMerge (part k)) l) c0).
    { induction l as [|k l IH]; intros c0; [reflexivity|]. cbn [fold_left map]. rewrite on_value, IH. reflexivity. }
    rewrite E. unfold asked. destruct q; reflexivity.
  Qed.
  Lemma counted_ops : counted ops = flat_map part order.
  Proof.
    unfold ops, counted. rewrite fold_left_app.
    assert (E : forall l b, fold_left (fun l o => match o with CReset => [] | CAdd b => l ++ [b] | CMerge bs => l ++ bs | CQuery | CReload => l end) (map (fun k => CMerge (part k)) l) b = b ++ flat_map part l).
    { induction l as [|k l IH]; intros b; [cbn; now rewrite app_nil_r|]. cbn [fold_left map flat_map]. now rewrite IH, app_assoc. }
    rewrite E. destruct q; reflexivity.
  Qed.
  Lemma no_late : no_late_bonds false ops /\ no_late_save false ops.
  Proof.
    unfold ops. induction order as [|k l [IH1 IH2]]; [destruct q; cbn; auto|]. cbn [map app no_late_bonds no_late_save]. auto.
  Qed.

  Context (GE : good_env (env_of x)) (HM : masked = false -> forall i j, mask i j = true) (H1 : (1 <= N)%nat) (HO : Permutation order (seq 0 N)).
  Context (P : nat -> nat -> list image) (HN : neighbours_in rmin rmax x P).
  Notation T := (basic_trace (loop_calc rmin used masked mask) tt x true 0 1).
  Lemma counted_perm : Permutation (counted ops) (map fst T).
  Proof.
    rewrite counted_ops. unfold part. rewrite <- map_flat. apply Permutation_map, shares_perm; assumption.
  Qed.
  Lemma counted_ok : Forall (bond_ok SX) (counted ops).
  Proof.
    apply Forall_forall. intros b Hb. apply (Permutation_in b counted_perm) in Hb. apply in_map_iff in Hb as ([b' z] & <- & Hb).
    destruct (in_trace _ _ _ _ _ _ _ _ GE Hb) as (A & B & _). cbn [fst]. split; [exact A|exact B].
  Qed.
  Lemma ops_ok : Forall (call_ok SX) ops.
  Proof.
    pose proof counted_ok as H. rewrite counted_ops in H. unfold ops. apply Forall_app. split; [|destruct q; repeat constructor].
    apply Forall_forall. intros o Ho. apply in_map_iff in Ho as (k & <- & Hk). cbn [call_ok]. rewrite Forall_forall in *. intros b Hb. apply H. apply in_flat_map. eauto.
  Qed.
  (** the neighbours up to rmaxused *)
  Definition PU (i j : nat) : list image := filter (fun y => Rleb (b_distance (the_bond x i j y)) used) (P i j).
  Lemma the_dist i j y : image_distance (fst (createBondGenerator x)) (snd (createBondGenerator x)) i [j] y = b_distance (the_bond x i j y).
  Proof. unfold the_bond. destruct y as [[k t] T']. reflexivity. Qed.
  Lemma used_le : used <= rmax. Proof. apply Rmin_l. Qed.
  Lemma PU_neighbours : neighbours_in rmin used x PU.
  Proof using HN.
    pose proof HN as HN'. unfold neighbours_in in *. unfold PU. pose proof the_dist as D. destruct (createBondGenerator x) as [cls M]. cbn [fst snd] in D. intros i j Hi Hj. destruct (HN' i j Hi Hj) as [A B].
    split; [now apply NoDup_filter|]. intros y. rewrite filter_In, B, Rleb_true, <- D. rewrite (cut_range rmin rmax used _ used_le). apply and_assoc.
  Qed.
  Lemma in_P i j y : (i < n)%nat -> (j < n)%nat -> In y (P i j) -> b_site0 (the_bond x i j y) = i /\ b_site1 (the_bond x i j y) = j /\ b_distance (the_bond x i j y) <= rmax.
  Proof using HN.
    intros Hi Hj Hy. pose proof (the_dist i j y) as D. pose proof HN as HN'. unfold neighbours_in in HN'. unfold the_bond in *. destruct (createBondGenerator x) as [cls M]. cbn [fst snd] in *. destruct (proj1 (proj2 (HN' i j Hi Hj) y) Hy) as [HI HR].
    destruct y as [[k t] T']. destruct HI as [HK _]. cbn in HK. apply lt1 in HK as ->. rewrite D in HR. cbn [bond_at b_site0 b_site1 nth] in *. repeat split; apply HR.
  Qed.
  Lemma over_dist f i j : over_images x P f i j = sumf (fun y => f (b_distance (the_bond x i j y))) (P i j).
  Proof. unfold over_images. pose proof (the_dist i j) as D. destruct (createBondGenerator x) as [cls M]. cbn [fst snd] in D. apply sumf_ext. intros y _. now rewrite D. Qed.
  (** sums over the counted bonds *)
  Lemma counted_sum (g : nat -> nat -> R -> R) : (forall i j d, (i < n)%nat -> (j < n)%nat -> used < d <= rmax -> g i j d = 0) ->
    sumf (fun b => g (b_site0 b) (b_site1 b) (b_distance b)) (counted ops) =
    sumf (fun i => sumf (fun j => if mask i j then over_images x P (g i j) i j else 0) (seq 0 n)) (seq 0 n).
  Proof.
    intros HG. rewrite (sumf_perm _ _ _ counted_perm), sumf_map, (trace_sum x GE rmin used masked mask HM PU true (fun e => g (b_site0 (fst e)) (b_site1 (fst e)) (b_distance (fst e))) PU_neighbours).
    apply sumf_ext. intros i Hi. apply in_seq in Hi. apply sumf_ext. intros j Hj. apply in_seq in Hj. destruct (mask i j); [|reflexivity]. rewrite over_dist.
    unfold PU. rewrite sumf_filter'. apply sumf_ext. intros y Hy. destruct (in_P i j y ltac:(lia) ltac:(lia) Hy) as (E0 & E1 & E2). cbn [fst]. rewrite E0, E1.
    destruct (Rleb (b_distance (the_bond x i j y)) used) eqn:E; [reflexivity|]. apply Rleb_false in E. symmetry. apply HG; [lia|lia|lra].
  Qed.
  Lemma in_counted b : In b (counted ops) <-> exists i j y, (i < n)%nat /\ (j < n)%nat /\ mask i j = true /\ In y (PU i j) /\ b = the_bond x i j y.
  Proof.
    assert (E : In b (counted ops) <-> In b (map fst (pair_trace x mask true PU))).
    { pose proof (Permutation_map fst (trace_perm x GE rmin used masked mask HM PU true PU_neighbours)) as Q. pose proof counted_perm as Q'.
      split; intros H; [apply (Permutation_in b Q), (Permutation_in b Q'), H|]. apply (Permutation_in b (Permutation_sym Q')), (Permutation_in b (Permutation_sym Q)), H. }
    rewrite E. unfold pair_trace. rewrite in_map_iff. split.
    - intros (e & <- & He). apply in_flat_map in He as (i & Hi & He). apply in_flat_map in He as (j & Hj & He). apply in_seq in Hi, Hj. unfold pair_bonds in He.
      destruct (mask i j) eqn:Em; [|destruct He]. apply in_map_iff in He as (y & <- & Hy). exists i, j, y. cbn [fst]. repeat split; auto; lia.
    - intros (i & j & y & Hi & Hj & Em & Hy & ->). exists (the_bond x i j y, 1%Z). split; [reflexivity|]. apply in_flat_map. exists i. split; [apply in_seq; lia|].
      apply in_flat_map. exists j. split; [apply in_seq; lia|]. unfold pair_bonds. rewrite Em. apply in_map_iff. exists y. split; [reflexivity|exact Hy].
  Qed.
  Notation r := (table_radius lk x).
  Notation c' := (asked q (overlap_merged outer lk rmin rmax masked mask x c ws N order)).
  Lemma radius_same i : radius_of SX lk i = r i. Proof. reflexivity. Qed.
  Definition small (s : nat -> R) : Prop := forall i j, (i < n)%nat -> (j < n)%nat -> s i + s j <= mmaxsep (resetValue SX lk c).
  Lemma radii_small : small r.
  Proof. intros i j Hi Hj. apply (maxsep_bound SX lk (resetValue SX lk c) i j); auto. Qed.
  Lemma exchanged_small a b : (a < n)%nat -> (b < n)%nat -> small (exchanged r a b).
  Proof.
    intros Ha Hb i j Hi Hj. pose proof radii_small as R. unfold exchanged. destruct (i =? a)%nat, (i =? b)%nat, (j =? a)%nat, (j =? b)%nat; apply R; assumption.
  Qed.
  Lemma beyond s i j d : small s -> (i < n)%nat -> (j < n)%nat -> used < d <= rmax -> s i + s j <= d.
  Proof. intros HS Hi Hj Hd. specialize (HS i j Hi Hj). unfold Overlap.getRmaxUsed, Rmin in Hd. destruct (Rle_dec _ _) in Hd; lra. Qed.
  Lemma depth_beyond s i j d : small s -> (i < n)%nat -> (j < n)%nat -> used < d <= rmax -> depth2 s i j d = 0.
  Proof. intros HS Hi Hj Hd. pose proof (beyond s i j d HS Hi Hj Hd). unfold depth2. rewrite Rmax_left by lra. unfold Rsqr. ring. Qed.
  Lemma touch_beyond s i j d : small s -> (i < n)%nat -> (j < n)%nat -> used < d <= rmax -> touch s i j d = 0.
  Proof. intros HS Hi Hj Hd. pose proof (beyond s i j d HS Hi Hj Hd). unfold touch. destruct (Rltb d (s i + s j)) eqn:E; [apply Rltb_true in E; lra|reflexivity]. Qed.
  Lemma overlapping_touch s b : (if overlapping s b then 1 else 0) = touch s (b_site0 b) (b_site1 b) (b_distance b).
  Proof.
    unfold overlapping, overlap, touch. destruct (Rltb (b_distance b) _) eqn:E; [apply Rltb_true in E; rewrite Rmax_right by lra|apply Rltb_false in E; rewrite Rmax_left by lra].
    - destruct (Rltb 0 _) eqn:E2; [reflexivity|apply Rltb_false in E2; lra].
    - destruct (Rltb 0 0) eqn:E2; [apply Rltb_true in E2; lra|reflexivity].
  Qed.
  Lemma over_scale k f i j : over_images x P (fun d => k * f d) i j = k * over_images x P f i j.
  Proof. rewrite !over_dist. apply sumf_scale. Qed.
  (** sums at one site *)
  Lemma site_sum (k : nat -> bool) (f : nat -> R) (g : nat -> nat -> R -> R) i : (i < n)%nat -> (forall i j d, (i < n)%nat -> (j < n)%nat -> used < d <= rmax -> g i j d = 0) ->
    sumf (fun b => if (b_site0 b =? i)%nat && k (b_site1 b) then f (b_site1 b) * g (b_site0 b) (b_site1 b) (b_distance b) else 0) (counted ops) =
    sumf (fun j => if mask i j && k j then f j * over_images x P (g i j) i j else 0) (seq 0 n).
  Proof.
    intros Hi HG. rewrite (counted_sum (fun a b d => if (a =? i)%nat && k b then f b * g a b d else 0)).
    - rewrite <- (sumf_pick (fun a => sumf (fun j => if mask a j && k j then f j * over_images x P (g a j) a j else 0) (seq 0 n)) i n Hi).
      apply sumf_ext. intros a Ha. rewrite (Nat.eqb_sym i a). destruct (a =? i)%nat; cbn [andb].
      + apply sumf_ext. intros j _. destruct (mask a j), (k j); cbn [andb]; try reflexivity; [apply over_scale|]. rewrite over_dist. apply sumf_0.
      + transitivity (sumf (fun _ : nat => 0) (seq 0 n)); [|apply sumf_0]. apply sumf_ext. intros j _. destruct (mask a j); [|reflexivity]. rewrite over_dist. apply sumf_0.
    - intros a b d Ha Hb Hd. destruct ((a =? i)%nat && k b); [|reflexivity]. rewrite (HG a b d Ha Hb Hd). ring.
  Qed.
  Lemma coordination_spec i : (i < n)%nat -> coordination SX r (counted ops) i = coordination_number x r mask P i.
  Proof.
    intros Hi. unfold coordination, coordination_number. rewrite sumf_filter'.
    rewrite (sumf_ext _ (fun b => if (b_site0 b =? i)%nat && true then c_occ (atom_at x (b_site1 b)) * touch r (b_site0 b) (b_site1 b) (b_distance b) else 0)).
    - rewrite (site_sum (fun _ => true) (fun j => c_occ (atom_at x j)) (touch r) i Hi).
      + apply sumf_ext. intros j _. now rewrite andb_true_r.
      + intros a b d Ha Hb Hd. now apply touch_beyond; [apply radii_small| | |].
    - intros b _. rewrite <- overlapping_touch. destruct (b_site0 b =? i)%nat, (overlapping r b); cbn [andb]; try reflexivity; change (o_occ SX (b_site1 b)) with (c_occ (atom_at x (b_site1 b))); ring.
  Qed.
  Lemma by_type_spec tp i : (i < n)%nat -> coordination_by SX r (counted ops) i tp = coordination_type x r mask P tp i.
  Proof.
    intros Hi. unfold coordination_by, coordination_type. rewrite sumf_filter'.
    rewrite (sumf_ext _ (fun b => if (b_site0 b =? i)%nat && (if string_dec (c_type (atom_at x (b_site1 b))) tp then true else false) then c_occ (atom_at x (b_site1 b)) * touch r (b_site0 b) (b_site1 b) (b_distance b) else 0)).
    - rewrite (site_sum (fun j => if string_dec (c_type (atom_at x j)) tp then true else false) (fun j => c_occ (atom_at x j)) (touch r) i Hi); [reflexivity|].
      intros a b d Ha Hb Hd. now apply touch_beyond; [apply radii_small| | |].
    - intros b _. rewrite <- overlapping_touch. change (o_type SX (b_site1 b)) with (c_type (atom_at x (b_site1 b))).
      destruct (b_site0 b =? i)%nat, (overlapping r b), (string_dec (c_type (atom_at x (b_site1 b))) tp); cbn [andb]; try reflexivity; change (o_occ SX (b_site1 b)) with (c_occ (atom_at x (b_site1 b))); ring.
  Qed.
  Lemma square_spec i : (i < n)%nat -> site_square SX r (counted ops) i = square_at x r mask P i.
  Proof.
    intros Hi. unfold site_square, square_at. rewrite sumf_filter'. f_equal.
    rewrite (sumf_ext _ (fun b => if (b_site0 b =? i)%nat && true then c_occ (atom_at x (b_site1 b)) * depth2 r (b_site0 b) (b_site1 b) (b_distance b) else 0)).
    - rewrite (site_sum (fun _ => true) (fun j => c_occ (atom_at x j)) (depth2 r) i Hi).
      + apply sumf_ext. intros j _. now rewrite andb_true_r.
      + intros a b d Ha Hb Hd. now apply depth_beyond; [apply radii_small| | |].
    - intros b _. rewrite andb_true_r. reflexivity.
  Qed.
  Lemma total_spec s : small s -> total_square SX s (counted ops) = square_cell x s mask P.
  Proof.
    intros HS. unfold total_square, square_cell.
    rewrite (sumf_ext _ (fun b => (fun i j d => c_occ (atom_at x i) * c_occ (atom_at x j) * INR (siteMultiplicity x i) * depth2 s i j d) (b_site0 b) (b_site1 b) (b_distance b))) by reflexivity.
    rewrite (counted_sum (fun i j d => c_occ (atom_at x i) * c_occ (atom_at x j) * INR (siteMultiplicity x i) * depth2 s i j d)).
    - unfold Rdiv. rewrite Rmult_comm, <- sumf_scale. apply sumf_ext. intros i Hi. apply in_seq in Hi. rewrite (mult_view x i) by lia. change (siteAtom x i) with (atom_at x i).
      unfold square_at, Rdiv. match goal with |- ?h * ?A = ?m * ?o * (?B * _) => replace (m * o * (B * h)) with (h * (m * o * B)) by ring end.
      f_equal. rewrite <- sumf_scale. apply sumf_ext. intros j Hj.
      destruct (mask i j); [|ring]. rewrite over_scale. ring.
    - intros i j d Hi Hj Hd. rewrite (depth_beyond s i j d HS Hi Hj Hd). ring.
  Qed.
  Lemma occ_cell : total_occupancy SX = cell_occ x.
  Proof. exact (sites_cell x c_occ). Qed.
  Lemma linked_spec i j : (i < n)%nat -> linked r (counted ops) i j <-> (j < n)%nat /\ overlaps_with x r mask P i j.
  Proof.
    intros Hi. unfold linked, overlaps_with. pose proof (the_dist i j) as D. split.
    - intros (b & Hb & E0 & E1 & HB). apply in_counted in Hb as (i' & j' & y & Hi' & Hj' & Em & Hy & ->). unfold PU in Hy. apply filter_In in Hy as [Hy _].
      destruct (in_P i' j' y Hi' Hj' Hy) as (F0 & F1 & _). rewrite F0 in E0. rewrite F1 in E1. subst i' j'. split; [exact Hj'|]. split; [exact Em|]. exists y. split; [exact Hy|].
      destruct (createBondGenerator x) as [cls M]. cbn [fst snd] in D. rewrite D. unfold overlap in HB. rewrite F0, F1 in HB. unfold Rmax in HB. destruct (Rle_dec _ _) in HB; lra.
    - intros (Hj & Em & y & Hy & Hd). destruct (in_P i j y Hi Hj Hy) as (F0 & F1 & F2). exists (the_bond x i j y).
      assert (HD : b_distance (the_bond x i j y) < r i + r j) by (destruct (createBondGenerator x) as [cls M]; cbn [fst snd] in D; now rewrite <- D). clear Hd D.
      split; [apply in_counted; exists i, j, y; repeat split; auto; unfold PU; apply filter_In; split; [exact Hy|]|].
      + apply Rleb_true. unfold Overlap.getRmaxUsed. apply Rmin_glb; [lra|]. pose proof (radii_small i j Hi Hj). lra.
      + rewrite F0, F1. repeat split. unfold overlap. rewrite F0, F1, Rmax_right; lra.
  Qed.
  (** both directions *)
  Context (OR : orderly false x) (MS : forall i j, mask i j = mask j i).
  Lemma count_bonds a b d : (a < n)%nat -> (b < n)%nat ->
    INR (length (filter (is_bond a b d) (counted ops))) = if mask a b then sumf (fun y => if Reqb (b_distance (the_bond x a b y)) d then 1 else 0) (PU a b) else 0.
  Proof.
    intros Ha Hb. rewrite length_sumf, (sumf_perm _ _ _ counted_perm), sumf_map.
    rewrite (trace_sum x GE rmin used masked mask HM PU true (fun e => if is_bond a b d (fst e) then 1 else 0) PU_neighbours).
    rewrite <- (sumf_pick (fun i => if mask i b then sumf (fun y => if Reqb (b_distance (the_bond x i b y)) d then 1 else 0) (PU i b) else 0) a n Ha).
    apply sumf_ext. intros i Hi. apply in_seq in Hi. destruct (Nat.eqb_spec a i) as [->|E].
    - rewrite <- (sumf_pick (fun j => if mask i j then sumf (fun y => if Reqb (b_distance (the_bond x i j y)) d then 1 else 0) (PU i j) else 0) b n Hb).
      apply sumf_ext. intros j Hj. apply in_seq in Hj. destruct (mask i j); [|destruct (b =? j)%nat; reflexivity]. destruct (Nat.eqb_spec b j) as [->|E]; cbn [fst].
      + apply sumf_ext. intros y Hy. apply filter_In in Hy as [Hy _]. destruct (in_P i j y ltac:(lia) ltac:(lia) Hy) as (F0 & F1 & _). unfold is_bond. rewrite F0, F1, !Nat.eqb_refl. reflexivity.
      + transitivity (sumf (fun _ : image => 0) (PU i j)); [|apply sumf_0]. apply sumf_ext. intros y Hy. apply filter_In in Hy as [Hy _]. destruct (in_P i j y ltac:(lia) ltac:(lia) Hy) as (F0 & F1 & _).
        unfold is_bond. rewrite F1, (proj2 (Nat.eqb_neq j b)), andb_false_r by auto. reflexivity.
    - transitivity (sumf (fun _ : nat => 0) (seq 0 n)); [|apply sumf_0]. apply sumf_ext. intros j Hj. apply in_seq in Hj. destruct (mask i j); [|reflexivity]. cbn [fst].
      transitivity (sumf (fun _ : image => 0) (PU i j)); [|apply sumf_0]. apply sumf_ext. intros y Hy. apply filter_In in Hy as [Hy _]. destruct (in_P i j y ltac:(lia) ltac:(lia) Hy) as (F0 & F1 & _).
      unfold is_bond. rewrite F0, (proj2 (Nat.eqb_neq i a)) by auto. reflexivity.
  Qed.
  Lemma outside a b d : ~ ((a < n)%nat /\ (b < n)%nat) -> filter (is_bond a b d) (counted ops) = [].
  Proof.
    intros H. pose proof counted_ok as OK. rewrite Forall_forall in OK. induction (counted ops) as [|e l IH]; [reflexivity|]. cbn [filter]. rewrite IH by (intros y Hy; apply OK; now right).
    unfold is_bond. destruct (Nat.eqb_spec (b_site0 e) a) as [E0|]; [|reflexivity]. destruct (Nat.eqb_spec (b_site1 e) b) as [E1|]; [|reflexivity].
    exfalso. destruct (OK e (or_introl eq_refl)) as [A B]. apply H. rewrite <- E0, <- E1. split; [exact A|exact B].
  Qed.
  Lemma counted_balanced : balanced SX (counted ops).
  Proof.
    intros a b d. destruct (lt_dec a n) as [Ha|Ha], (lt_dec b n) as [Hb|Hb].
    2: { rewrite !outside by tauto. cbn [length]. lia. } 2: { rewrite !outside by tauto. cbn [length]. lia. } 2: { rewrite !outside by tauto. cbn [length]. lia. }
    apply INR_eq. rewrite !mult_INR, !count_bonds by assumption. rewrite (MS b a). destruct (mask a b); [|ring].
    change (o_mult SX a) with (siteMultiplicity x a). change (o_mult SX b) with (siteMultiplicity x b). rewrite (mult_view x a Ha), (mult_view x b Hb).
    exact (both_ways x GE OR rmin used PU PU_neighbours (fun e => if Reqb e d then 1 else 0) a b Ha Hb).
  Qed.
End One.
