(** Proofs: BVSCalculator on structures. *)
From Coq Require Import String.
From Verif Require Import RBase R3 Trig Sums Lattice Crystal StructDiff StructDiffSpec Evaluator EvaluatorSpec BondGen BondGenSpec
  World WorldSpec WorldProofs WorldMain OrbitSpec OrbitWorld Visited VisitedSpec VisitedProofs VisitedMain Shares SiteSums Merge Bvs BvsSpec BvsTable BvsMain BvsWorld BvsWorldSpec.
Import ListNotations.
Open Scope R_scope.
Notation length := List.length.

Lemma zip_nth v w n k : length v = n -> length w = n -> length (zip_plus Rplus v w) = n /\ ((k < n)%nat -> nth k (zip_plus Rplus v w) 0 = nth k v 0 + nth k w 0).
Proof.
  revert w n k. induction v as [|a v IH]; intros w n k Hv Hw; destruct w as [|b w]; cbn in Hv, Hw; subst n; try lia; try discriminate; cbn [zip_plus length]; [split; [reflexivity|lia]|].
  injection Hw as Hw. destruct (IH w (length v) (pred k) eq_refl Hw) as [H1 H2]. split; [lia|]. intros Hk. destruct k as [|k]; [reflexivity|]. cbn [nth pred] in *. apply H2. lia.
Qed.

Section One.
  Context (x : adp) (GE : good_env (env_of x)) (c : bvs) (ord : list (str * Z)) (masked : bool) (mask : nat -> nat -> bool) (HM : masked = false -> forall i j, mask i j = true).
  Context (P : nat -> nat -> list image) (HN : neighbours_in 0 (Bvs.getRmaxUsed c ord) x P) (outer : nat -> nat -> bool).
  Notation n := (length (atoms_of x)).
  Notation s := (bvs_view x).
  Definition bgain (k : nat) (e : BondGen.bond * Z) : R :=
    IZR (snd e) / 2 * BvsSpec.bond c s (b_site0 (fst e)) (b_site1 (fst e)) (b_distance (fst e)) *
    ((if (b_site0 (fst e) =? k)%nat then sgn (valence c s (b_site0 (fst e))) * bocc s (b_site1 (fst e)) else 0) + (if (b_site1 (fst e) =? k)%nat then sgn (valence c s (b_site1 (fst e))) * bocc s (b_site0 (fst e)) else 0)).
  Lemma on_nth full k w N : (w < N)%nat -> length (bvs_on outer c ord masked mask full x w N) = n /\
    nth k (bvs_on outer c ord masked mask full x w N) 0 = sumf (bgain k) (share outer 0 (Bvs.getRmaxUsed c ord) masked mask full x w N).
  Proof.
    intros Hw. unfold bvs_on. cbn [bvsLimits fst snd]. change (countSites x) with n.
    match goal with |- context [fold_left ?F ?l _] => destruct (fold_adds n k F (bgain k) l) with (v := repeat 0 n) as [H1 H2] end.
    - intros v [b z] Hb Hv. apply share_part in Hb; [|exact Hw]. destruct (in_trace _ _ _ _ _ _ _ _ GE Hb) as (H0 & H1 & _). cbn [fst snd bgain]. rewrite <- Hv. apply addPair_nth; lia.
    - apply repeat_length.
    - split; [exact H1|]. rewrite H2, nth_repeat. ring.
  Qed.
  Lemma merged_nth full N order k : (1 <= N)%nat -> Permutation order (seq 0 N) -> (k < n)%nat ->
    length (bvs_merged outer c ord masked mask full x N order) = n /\
    nth k (bvs_merged outer c ord masked mask full x N order) 0 = sumf (bgain k) (basic_trace (loop_calc 0 (Bvs.getRmaxUsed c ord) masked mask) tt x full 0 1).
  Proof.
    intros HNn HO Hk. rewrite <- (sumf_perm _ _ _ (shares_perm outer 0 (Bvs.getRmaxUsed c ord) masked mask full x N order HNn HO)), sumf_flat.
    unfold bvs_merged. change (countSites x) with n.
    destruct (fold_adds n k (fun v w => zip_plus Rplus v (bvs_on outer c ord masked mask full x w N)) (fun w => sumf (bgain k) (share outer 0 (Bvs.getRmaxUsed c ord) masked mask full x w N)) order) with (v := repeat 0 n) as [H1 H2].
    - intros v w Hw Hv. assert (Hw' : (w < N)%nat) by (apply (Permutation_in w HO) in Hw; apply in_seq in Hw; lia).
      destruct (on_nth full k w N Hw') as [L E]. destruct (zip_nth v (bvs_on outer c ord masked mask full x w N) n k Hv L) as [Z1 Z2]. split; [exact Z1|]. rewrite (Z2 Hk), E. reflexivity.
    - apply repeat_length.
    - split; [exact H1|]. rewrite H2, nth_repeat. ring.
  Qed.
  (** the structure as Bvs.v sees it, with the neighbours that are not masked out *)
  Definition sP : bstru := {| bn := bn s; btype := btype s; bocc := bocc s; bmult := bmult s; bdist := fun i j => if mask i j then map (fun y => b_distance (the_bond x i j y)) (P i j) else [] |}.
  Lemma the_dist i j y : image_distance (fst (createBondGenerator x)) (snd (createBondGenerator x)) i [j] y = b_distance (the_bond x i j y).
  Proof. unfold the_bond. destruct y as [[k t] T]. reflexivity. Qed.
  Lemma in_P i j y : (i < n)%nat -> (j < n)%nat -> In y (P i j) -> b_site0 (the_bond x i j y) = i /\ b_site1 (the_bond x i j y) = j /\ 0 <= b_distance (the_bond x i j y) <= Bvs.getRmaxUsed c ord.
  Proof.
    intros Hi Hj Hy. pose proof (the_dist i j y) as D. unfold neighbours_in in HN. unfold the_bond in *. destruct (createBondGenerator x) as [cls M]. cbn [fst snd] in *. apply (HN i j Hi Hj) in Hy as [HI HR].
    destruct y as [[k t] T]. destruct HI as [HK _]. cbn in HK. assert (k = O) as -> by lia. rewrite D in HR. cbn [bond_at b_site0 b_site1 nth] in *. repeat split; apply HR.
  Qed.
  Lemma upto i j : (i < n)%nat -> (j < n)%nat -> bonds_upto c sP (Bvs.getRmaxUsed c ord) i j = if mask i j then valence_to c x P i j else 0.
  Proof.
    intros Hi Hj. unfold bonds_upto, valence_to, sP. cbn [bdist]. destruct (mask i j); [|reflexivity]. rewrite sumf_map.
    pose proof (the_dist i j) as D. destruct (createBondGenerator x) as [cls M]. cbn [fst snd] in D. apply sumf_ext. intros y Hy. destruct (in_P i j y Hi Hj Hy) as (_ & _ & H1 & H2).
    destruct (Rle_dec _ _); [|contradiction]. now rewrite D.
  Qed.
  Lemma value_eval full N order k : (1 <= N)%nat -> Permutation order (seq 0 N) -> (k < n)%nat ->
    nth k (bvs_merged outer c ord masked mask full x N order) 0 = sumf (fun i0 => sumf (fun i1 => IZR (scale_of full i0 i1) / 2 * pair_term c sP (Bvs.getRmaxUsed c ord) k i0 i1) (seq 0 (if full then n else S i0))) (seq 0 n).
  Proof.
    intros HNn HO Hk. rewrite (proj2 (merged_nth full N order k HNn HO Hk)), (trace_sum x GE 0 (Bvs.getRmaxUsed c ord) masked mask HM P full _ HN).
    apply sumf_ext. intros i Hi. apply in_seq in Hi. apply sumf_ext. intros j Hj. apply in_seq in Hj. assert (Hj' : (j < n)%nat) by (destruct full; lia).
    unfold pair_term. rewrite upto by (lia || exact Hj'). destruct (mask i j); [|ring].
    unfold valence_to. pose proof (the_dist i j) as D. assert (IP := fun y => in_P i j y ltac:(lia) Hj').
    destruct (createBondGenerator x) as [cls M]. cbn [fst snd] in D. rewrite <- Rmult_assoc, (Rmult_comm _ (_ + _)), <- !sumf_scale.
    apply sumf_ext. intros y Hy. destruct (IP y Hy) as (E0 & E1 & _). unfold bgain, scale_of, the_scale. cbn [fst snd]. rewrite E0, E1, D.
    change (BvsSpec.bond c sP) with (BvsSpec.bond c s). change (valence c sP) with (valence c s). change (bocc sP) with (bocc s). ring.
  Qed.
  Notation B := (valence_to c x P).
  Lemma value_general full N order k : (1 <= N)%nat -> Permutation order (seq 0 N) -> (k < n)%nat ->
    nth k (bvs_merged outer c ord masked mask full x N order) 0 = sgn (valence c s k) *
      sumf (fun j => c_occ (atom_at x j) * (weight full k j * (if mask k j then B k j else 0) + weight full j k * (if mask j k then B j k else 0))) (seq 0 n).
  Proof.
    intros HNn HO Hk. rewrite (value_eval full N order k HNn HO Hk).
    transitivity (sumf (fun i0 => sumf (fun i1 => weight full i0 i1 * pair_term c sP (Bvs.getRmaxUsed c ord) k i0 i1) (seq 0 (bn sP))) (seq 0 (bn sP))).
    - change (bn sP) with n. apply sumf_ext. intros i0 Hi0. apply in_seq in Hi0. destruct full.
      + apply sumf_ext. intros i1 _. cbn. reflexivity.
      + rewrite (sumf_upto _ (S i0) n) by lia. apply sumf_ext. intros i1 _. unfold weight, scale_of. cbn [orb].
        destruct (Nat.ltb_spec i1 (S i0)), (Nat.ltb_spec i1 i0), (Nat.eqb_spec i1 i0), (Nat.eqb_spec i0 i1); try lia; lra.
    - rewrite pair_sum by exact Hk. change (bn sP) with n. f_equal. apply sumf_ext. intros j Hj. apply in_seq in Hj. rewrite !upto by lia. reflexivity.
  Qed.
  (** both directions *)
  Context (OR : orderly false x) (OP : ordered_pairs c x) (MS : forall i j, mask i j = mask j i).
  Lemma both_valence i j : (i < n)%nat -> (j < n)%nat -> INR (site_mult x i) * B i j = INR (site_mult x j) * B j i.
  Proof.
    intros Hi Hj. pose proof (both_ways x GE OR 0 (Bvs.getRmaxUsed c ord) P HN (BvsSpec.bond c s i j) i j Hi Hj) as E. unfold site_mult, valence_to.
    pose proof (the_dist i j) as D1. pose proof (the_dist j i) as D2.
    assert (SY : forall d, bond c s i j d = bond c s j i d).
    { intros d. unfold bond. now rewrite (lookup_sym (btab c) _ _ _ _ (OP i j Hi Hj)). }
    destruct (createBondGenerator x) as [cls M]. cbn [fst snd] in D1, D2.
    rewrite (sumf_ext _ (fun y => bond c s i j (b_distance (the_bond x i j y)))) by (intros y _; now rewrite D1).
    rewrite E. f_equal. apply sumf_ext. intros y _. now rewrite D2, SY.
  Qed.
  Lemma mult_ne i : INR (site_mult x i) <> 0.
  Proof. pose proof (le_INR _ _ (mult_pos (env_of x) (atom_at x i) GE)) as H. change (INR 1) with 1 in H. unfold site_mult. lra. Qed.
  Lemma value_crystal full N order k : (1 <= N)%nat -> Permutation order (seq 0 N) -> (k < n)%nat ->
    nth k (bvs_merged outer c ord masked mask full x N order) 0 =
      weighted_sum c x mask P (fun j => if full then (1 + INR (site_mult x k) / INR (site_mult x j)) / 2 else if (j <=? k)%nat then 1 else INR (site_mult x k) / INR (site_mult x j)) k.
  Proof.
    intros HNn HO Hk. rewrite (value_general full N order k HNn HO Hk). unfold weighted_sum. f_equal. apply sumf_ext. intros j Hj. apply in_seq in Hj.
    rewrite (MS j k). destruct (mask k j); [|ring]. pose proof (both_valence k j Hk ltac:(lia)) as E. pose proof (mult_ne j) as Hm.
    assert (E' : B j k = INR (site_mult x k) / INR (site_mult x j) * B k j) by (apply (Rmult_eq_reg_l (INR (site_mult x j))); [rewrite <- E; field; exact Hm|exact Hm]).
    destruct full; unfold weight.
    - rewrite E'. field. exact Hm.
    - destruct (Nat.leb_spec j k) as [Hle|Hlt].
      + destruct (Nat.ltb_spec j k), (Nat.eqb_spec j k), (Nat.ltb_spec k j), (Nat.eqb_spec k j); try lia; [ring|]. subst j. field.
      + destruct (Nat.ltb_spec j k), (Nat.eqb_spec j k), (Nat.ltb_spec k j), (Nat.eqb_spec k j); try lia. rewrite E'. field. exact Hm.
  Qed.
  Lemma value_equal full N order k : (1 <= N)%nat -> Permutation order (seq 0 N) -> (k < n)%nat ->
    (forall j, (j < n)%nat -> mask k j = true -> P k j <> [] -> site_mult x j = site_mult x k) ->
    nth k (bvs_merged outer c ord masked mask full x N order) 0 = valence_sum c x mask P k.
  Proof.
    intros HNn HO Hk HE. rewrite (value_crystal full N order k HNn HO Hk). unfold weighted_sum, valence_sum. f_equal. apply sumf_ext. intros j Hj. apply in_seq in Hj.
    destruct (mask k j) eqn:Em; [|reflexivity]. destruct (P k j) as [|y l] eqn:EP.
    - unfold valence_to. rewrite EP. destruct (createBondGenerator x). rewrite sumf_nil. ring.
    - rewrite (HE j ltac:(lia) Em) by (rewrite EP; discriminate). pose proof (mult_ne k). destruct full; [field; auto|]. destruct (j <=? k)%nat; field; auto.
  Qed.
End One.
