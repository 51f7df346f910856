(** Proofs: gradients of OverlapCalculator on structures without symmetry operations. *)
From Coq Require Import String Relations.
From Verif Require Import RBase R3 Trig Sums Lattice Crystal StructDiff StructDiffSpec Evaluator EvaluatorSpec BondGen BondGenSpec BondGenMain
  World WorldSpec WorldProofs WorldMain OrbitSpec OrbitWorld Visited VisitedSpec VisitedProofs VisitedMain VisitedCalc Shares SiteSums
  Overlap OverlapSpec OverlapProofs OverlapFlip OverlapGrad OverlapGen OverlapWorld OverlapWorldSpec OverlapWorldProofs.
Import ListNotations.
Open Scope R_scope.
Notation length := List.length.

Lemma nodup_flat {A B} (f : A -> list B) l : NoDup l -> (forall a, In a l -> NoDup (f a)) -> (forall a b x, In x (f a) -> In x (f b) -> a = b) -> NoDup (flat_map f l).
Proof.
  intros ND HF HD. induction ND as [|a l Ha ND IH]; [constructor|]. cbn [flat_map]. apply NoDup_app_intro; [apply HF; now left|apply IH; intros; apply HF; now right|].
  intros x Hx Hx'. apply in_flat_map in Hx' as (b & Hb & Hx'). now rewrite (HD a b x Hx Hx') in Ha.
Qed.
(** the images of an atom without symmetry operations, seen from the other end *)
Definition back (y : image) : image := let '(k, s, T) := y in (k, s, neg3 T).
Lemma back_back y : back (back y) = y. Proof. destruct y as [[k s] T]. cbn. now rewrite neg3_inv. Qed.
Lemma back_image cls M i j y : cls <> GCrystal -> image_ok cls M [j] y ->
  image_ok cls M [i] (back y) /\ arrow (bond_at cls M j [i] (back y)) = flipped (bond_at cls M i [j] y) /\ image_distance cls M j [i] (back y) = image_distance cls M i [j] y.
Proof.
  destruct y as [[k s] T]. intros HC [Hk HI]. cbn [length] in Hk. assert (k = O) as -> by lia. cbn [back]. unfold arrow, flipped, bond_at, image_distance, image_ok. cbn [nth b_site0 b_site1 b_distance b_r01 length].
  assert (E : vsub (image_pos cls M i s (neg3 T)) (home cls M j 0) = vsub (home cls M i 0) (image_pos cls M j s T)).
  { unfold image_pos. destruct cls; [| |congruence]; [destruct HI as [-> ->]; reflexivity|]. subst s. rewrite translation_neg. apply add_cancel. }
  split; [|split].
  - split; [lia|]. destruct cls; [|exact HI|congruence]. destruct HI as [-> ->]. auto.
  - unfold vdist at 1. rewrite E, vsub_neg. fold (vdist (home cls M i 0) (image_pos cls M j s T)). now rewrite vdist_sym.
  - unfold vdist at 1. rewrite E. fold (vdist (home cls M i 0) (image_pos cls M j s T)). now rewrite vdist_sym.
Qed.

Section One.
  Context (outer : nat -> nat -> bool) (lk : string -> R) (rmin rmax : R) (masked : bool) (mask : nat -> nat -> bool) (x : adp) (c : ocalc) (ws : nat -> ocalc).
  Context (N : nat) (order : list nat) (q : bool).
  Context (GE : good_env (env_of x)) (HM : masked = false -> forall i j, mask i j = true) (H1 : (1 <= N)%nat) (HO : Permutation order (seq 0 N)).
  Context (P : nat -> nat -> list image) (HN : neighbours_in rmin rmax x P) (NS : ~ has_symmetry (env_of x)) (MS : forall i j, mask i j = mask j i).
  Notation n := (length (atoms_of x)).
  Notation SX := (overlap_view x).
  Notation used := (Overlap.getRmaxUsed (resetValue SX lk c) rmax).
  Notation ops := (ops outer lk rmin rmax masked mask x c N order q).
  Notation PU := (PU lk rmax x c P).
  Definition triples : list (nat * nat * image) :=
    flat_map (fun i => flat_map (fun j => if mask i j then map (fun y => (i, j, y)) (PU i j) else []) (seq 0 n)) (seq 0 n).
  Lemma in_triples i j y : In (i, j, y) triples <-> (i < n)%nat /\ (j < n)%nat /\ mask i j = true /\ In y (PU i j).
  Proof.
    unfold triples. rewrite in_flat_map. split.
    - intros (i' & Hi & H). apply in_flat_map in H as (j' & Hj & H). apply in_seq in Hi, Hj. destruct (mask i' j') eqn:E; [|destruct H].
      apply in_map_iff in H as (y' & Q & H). injection Q as -> -> ->. repeat split; auto; lia.
    - intros (Hi & Hj & E & Hy). exists i. split; [apply in_seq; lia|]. apply in_flat_map. exists j. split; [apply in_seq; lia|]. rewrite E. now apply in_map.
  Qed.
  Lemma nodup_triples : NoDup triples.
  Proof.
    unfold triples. apply nodup_flat; [apply seq_NoDup| |].
    - intros i Hi. apply in_seq in Hi. apply nodup_flat; [apply seq_NoDup| |].
      + intros j Hj. apply in_seq in Hj. destruct (mask i j); [|constructor]. apply FinFun.Injective_map_NoDup; [intros a b E; congruence|].
        pose proof (PU_neighbours lk rmin rmax x c P HN) as Q. unfold neighbours_in in Q. destruct (createBondGenerator x). apply (Q i j); lia.
      + intros a b z Ha Hb. destruct (mask i a); [|destruct Ha]. destruct (mask i b); [|destruct Hb]. apply in_map_iff in Ha as (y & <- & _). apply in_map_iff in Hb as (y' & E & _). congruence.
    - intros a b z Ha Hb. apply in_flat_map in Ha as (j & _ & Ha). apply in_flat_map in Hb as (j' & _ & Hb). destruct (mask a j); [|destruct Ha]. destruct (mask b j'); [|destruct Hb].
      apply in_map_iff in Ha as (y & <- & _). apply in_map_iff in Hb as (y' & E & _). congruence.
  Qed.
  Definition turn (t : nat * nat * image) : nat * nat * image := let '(i, j, y) := t in (j, i, back y).
  Lemma turn_turn t : turn (turn t) = t. Proof. destruct t as [[i j] y]. cbn. now rewrite back_back. Qed.
  Lemma no_crystal : fst (createBondGenerator x) <> GCrystal.
  Proof. rewrite create_view. unfold gview. destruct (env_of x); cbn [fst]; try discriminate. now destruct NS. Qed.
  Definition tbond (t : nat * nat * image) : bond := let '(i, j, y) := t in the_bond x i j y.
  Lemma in_PU i j y : (i < n)%nat -> (j < n)%nat -> In y (PU i j) <-> image_ok (fst (createBondGenerator x)) (snd (createBondGenerator x)) [j] y /\ in_range rmin used (image_distance (fst (createBondGenerator x)) (snd (createBondGenerator x)) i [j] y).
  Proof. intros Hi Hj. pose proof (PU_neighbours lk rmin rmax x c P HN) as Q. unfold neighbours_in in Q. destruct (createBondGenerator x) as [cls M]. apply (Q i j Hi Hj). Qed.
  Lemma turn_in t : In t triples -> In (turn t) triples /\ arrow (tbond (turn t)) = flipped (tbond t).
  Proof.
    destruct t as [[i j] y]. intros H. apply in_triples in H as (Hi & Hj & E & Hy). apply in_PU in Hy as [HI HR]; auto.
    destruct (back_image _ _ i j y no_crystal HI) as (B1 & B2 & B3). split; [|exact B2]. apply in_triples. repeat split; auto; [now rewrite MS|]. apply in_PU; auto. split; [exact B1|]. now rewrite B3.
  Qed.
  Lemma turned : Permutation triples (map turn triples).
  Proof.
    apply NoDup_Permutation; [apply nodup_triples| |].
    - apply FinFun.Injective_map_NoDup; [intros a b E; now rewrite <- (turn_turn a), E, turn_turn|apply nodup_triples].
    - intros t. rewrite in_map_iff. split.
      + intros H. exists (turn t). split; [apply turn_turn|now apply turn_in].
      + intros (u & <- & H). now apply turn_in.
  Qed.
  Lemma counted_triples : Permutation (counted ops) (map tbond triples).
  Proof.
    etransitivity; [apply (counted_perm outer lk rmin rmax masked mask x c N order q H1 HO)|].
    etransitivity; [apply Permutation_map, (trace_perm x GE rmin used masked mask HM PU true (PU_neighbours lk rmin rmax x c P HN))|].
    enough (E : map fst (pair_trace x mask true PU) = map tbond triples) by (rewrite E; reflexivity). unfold pair_trace, triples.
    rewrite !map_flat. apply flat_map_ext. intros i. cbv beta. rewrite !map_flat. apply flat_map_ext. intros j. unfold pair_bonds.
    destruct (mask i j); [|reflexivity]. rewrite !map_map. apply map_ext. reflexivity.
  Qed.
  Lemma counted_reversible : Permutation (map arrow (counted ops)) (map flipped (counted ops)).
  Proof.
    etransitivity; [apply Permutation_map, counted_triples|]. etransitivity; [|apply Permutation_map, Permutation_sym, counted_triples].
    rewrite !map_map. etransitivity; [apply Permutation_map, turned|]. rewrite map_map. apply Permutation_refl'. apply map_ext_in. intros t Ht. now apply turn_in.
  Qed.
  Lemma counted_norm b : In b (counted ops) -> b_distance b = vnorm (b_r01 b) /\ 0 < b_distance b.
  Proof.
    intros Hb. apply (Permutation_in b counted_triples) in Hb. apply in_map_iff in Hb as ([[i j] y] & <- & Ht). apply in_triples in Ht as (Hi & Hj & _ & Hy). apply in_PU in Hy as [_ [_ HR]]; auto.
    split; [apply bond_norm|]. cbn [tbond]. rewrite the_dist in HR. lra.
  Qed.
  Lemma bond_r01_norm i j y : b_distance (the_bond x i j y) = vnorm (b_r01 (the_bond x i j y)).
  Proof. apply bond_norm. Qed.
  (** all neighbours, moved *)
  Notation r := (table_radius lk x).
  Notation term k v i j y := (c_occ (atom_at x i) * c_occ (atom_at x j) * (Rmax 0 (r i + r j - vnorm (vadd (b_r01 (the_bond x i j y)) (vsub (if (j =? k)%nat then v else vzero) (if (i =? k)%nat then v else vzero)))))²).
  Lemma moved_the k v : moved_cell x r mask P k v = sumf (fun i => sumf (fun j => if mask i j then sumf (fun y => term k v i j y) (P i j) else 0) (seq 0 n)) (seq 0 n) / 2.
  Proof. unfold moved_cell, the_bond. destruct (createBondGenerator x) as [cls M]. reflexivity. Qed.
  Lemma mult1 i : (i < n)%nat -> siteMultiplicity x i = 1%nat.
  Proof. intros Hi. rewrite (mult_view x i Hi). unfold multiplicity. destruct (env_of x); auto. now destruct NS. Qed.
  Definition far (k : nat) (v : vec) : R :=
    sumf (fun i => sumf (fun j => if mask i j then sumf (fun y => term k v i j y) (filter (fun y => negb (Rleb (b_distance (the_bond x i j y)) used)) (P i j)) else 0) (seq 0 n)) (seq 0 n) / 2.
  Lemma moved_split k v : moved_cell x r mask P k v = moved_total SX r (counted ops) k v + far k v.
  Proof.
    rewrite moved_the. unfold moved_total, far.
    rewrite (sumf_perm _ _ _ (counted_perm outer lk rmin rmax masked mask x c N order q H1 HO)), sumf_map.
    rewrite (trace_sum x GE rmin used masked mask HM PU true (fun e => o_occ SX (b_site0 (fst e)) * o_occ SX (b_site1 (fst e)) * INR (o_mult SX (b_site0 (fst e))) * (Rmax 0 (r (b_site0 (fst e)) + r (b_site1 (fst e)) - moved_distance k v (fst e)))²) (PU_neighbours lk rmin rmax x c P HN)).
    unfold Rdiv. rewrite <- Rmult_plus_distr_r, <- sumf_plus. f_equal. apply sumf_ext. intros i Hi. apply in_seq in Hi. rewrite <- sumf_plus. apply sumf_ext. intros j Hj. apply in_seq in Hj.
    destruct (mask i j); [|ring]. unfold OverlapWorldProofs.PU. rewrite !sumf_filter', <- sumf_plus. apply sumf_ext. intros y Hy.
    destruct (in_P rmin rmax x P HN i j y ltac:(lia) ltac:(lia) Hy) as (F0 & F1 & _). cbn [fst]. unfold moved_distance. rewrite F0, F1.
    change (o_mult SX i) with (siteMultiplicity x i). rewrite mult1 by lia. change (INR 1) with 1. change (o_occ SX i) with (c_occ (atom_at x i)). change (o_occ SX j) with (c_occ (atom_at x j)).
    destruct (Rleb (b_distance (the_bond x i j y)) used); cbn [negb]; ring.
  Qed.
  Lemma far_deriv k u : derivable_pt_lim (fun t => far k (vscale t u)) 0 0.
  Proof.
    assert (Z0 : forall (A : Type) (f : A -> R -> R) l, (forall a, In a l -> derivable_pt_lim (f a) 0 0) -> derivable_pt_lim (fun t => sumf (fun a => f a t) l) 0 0).
    { intros A f l HF. replace 0 with (sumf (fun _ : A => 0) l) at 2 by apply sumf_0. now apply (sumf_deriv f (fun _ => 0)). }
    unfold far. apply (deriv_ext (fun t => / 2 * sumf (fun i => sumf (fun j => if mask i j then sumf (fun y => term k (vscale t u) i j y) (filter (fun y => negb (Rleb (b_distance (the_bond x i j y)) used)) (P i j)) else 0) (seq 0 n)) (seq 0 n))); [intros; unfold Rdiv; ring|].
    replace 0 with (/ 2 * 0) at 2 by ring. apply derivable_pt_lim_scal. apply Z0. intros i Hi. apply in_seq in Hi. apply Z0. intros j Hj. apply in_seq in Hj.
    destruct (mask i j); [|apply derivable_pt_lim_const]. apply Z0. intros y Hy. apply filter_In in Hy as [Hy HD].
    destruct (in_P rmin rmax x P HN i j y ltac:(lia) ltac:(lia) Hy) as (_ & _ & F2). apply negb_true_iff, Rleb_false in HD.
    pose proof (beyond lk rmax x c r i j _ (radii_small lk x c) ltac:(lia) ltac:(lia) (conj HD F2)) as HB.
    assert (HP : 0 < vnorm (b_r01 (the_bond x i j y))).
    { rewrite <- bond_r01_norm. pose proof HN as HN'. unfold neighbours_in in HN'. pose proof (the_dist x i j y) as D. destruct (createBondGenerator x) as [cls M]. cbn [fst snd] in D.
      destruct (proj1 (proj2 (HN' i j ltac:(lia) ltac:(lia)) y) Hy) as [_ [_ HR]]. rewrite D in HR. lra. }
    rewrite bond_r01_norm in HB. set (w := b_r01 (the_bond x i j y)) in *. clearbody w.
    assert (G : forall w', derivable_pt_lim (fun t => (Rmax 0 (r i + r j - vnorm (vadd w (vscale t w'))))²) 0 0).
    { intros w'. eapply deriv_eq; [|apply (overlap_deriv w w' (r i + r j) HP)]. rewrite Rmax_left by lra. unfold Rdiv. ring. }
    replace 0 with (c_occ (atom_at x i) * c_occ (atom_at x j) * 0) at 2 by ring. apply derivable_pt_lim_scal.
    destruct (j =? k)%nat, (i =? k)%nat.
    - apply (deriv_ext (fun _ => (Rmax 0 (r i + r j - vnorm w))²)); [intros; now rewrite <- mv1|apply derivable_pt_lim_const].
    - apply (deriv_ext (fun t => (Rmax 0 (r i + r j - vnorm (vadd w (vscale t u))))²)); [intros; now rewrite <- mv2|apply G].
    - apply (deriv_ext (fun t => (Rmax 0 (r i + r j - vnorm (vadd w (vscale t (vscale (-1) u)))))²)); [intros; now rewrite mv3|apply G].
    - apply (deriv_ext (fun _ => (Rmax 0 (r i + r j - vnorm w))²)); [intros; now rewrite <- mv1|apply derivable_pt_lim_const].
  Qed.
  Lemma gradient_world (o : R) : (forall i, (i < n)%nat -> c_occ (atom_at x i) = o) ->
    let c' := asked q (overlap_merged outer lk rmin rmax masked mask x c ws N order) in
    length (gradients SX c') = n /\ forall k u, (k < n)%nat -> derivable_pt_lim (fun t => moved_cell x r mask P k (vscale t u)) 0 (o * o * vdot (nth k (gradients SX c') vzero) u).
  Proof.
    intros HQ c'. subst c'. rewrite (merged_run outer lk rmin rmax masked mask x c ws N order q).
    assert (HQ' : forall i, (i < o_n SX)%nat -> o_occ SX i = o /\ o_mult SX i = 1%nat) by (intros i Hi; split; [now apply HQ|now apply mult1]).
    destruct (gradient_main SX lk c ops o (ops_ok outer lk rmin rmax masked mask x c N order q GE H1 HO) HQ' (counted_norm) counted_reversible) as [L G].
    split; [exact L|]. intros k u Hk. apply (deriv_ext (fun t => moved_total SX r (counted ops) k (vscale t u) + far k (vscale t u))); [intros; symmetry; apply moved_split|].
    eapply deriv_eq; [|apply derivable_pt_lim_plus; [exact (G k u Hk)|apply far_deriv]]. ring.
  Qed.
End One.
