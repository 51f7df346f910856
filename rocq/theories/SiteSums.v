(** Proofs: the bonds that PQEvaluatorBasic visits on a structure are, in some order, those to all neighbours of each atom. *)
From Coq Require Import String.
From Verif Require Import RBase R3 Trig Sums Lattice Crystal StructDiff StructDiffSpec Evaluator EvaluatorSpec EvaluatorProofs EvaluatorMore BondGen BondGenSpec
  World WorldSpec WorldProofs WorldMain PeakWidth PdfGrid OrbitSpec OrbitWorld Visited VisitedSpec VisitedProofs VisitedHalf VisitedMain Shares.
Import ListNotations.
Open Scope R_scope.
Notation length := List.length.

(** the bonds to all neighbours, with scales *)
Definition pair_bonds (x : adp) (mask : nat -> nat -> bool) (full : bool) (P : nat -> nat -> list image) (i j : nat) : list (bond * Z) :=
  if mask i j then map (fun y => (bond_at (fst (createBondGenerator x)) (snd (createBondGenerator x)) i [j] y, if full || (i =? j)%nat then 1%Z else 2%Z)) (P i j) else [].
Definition pair_trace (x : adp) (mask : nat -> nat -> bool) (full : bool) (P : nat -> nat -> list image) : list (bond * Z) :=
  flat_map (fun i => flat_map (pair_bonds x mask full P i) (seq 0 (if full then length (atoms_of x) else S i))) (seq 0 (length (atoms_of x))).

Lemma flat_map_perm {A B} (f g : A -> list B) l : (forall a, In a l -> Permutation (f a) (g a)) -> Permutation (flat_map f l) (flat_map g l).
Proof.
  induction l as [|a l IH]; intros H; [constructor|]. cbn [flat_map]. apply Permutation_app; [apply H; now left|]. apply IH. intros; apply H; now right.
Qed.
Lemma perm_flat_map {A B} (f : A -> list B) l m : Permutation l m -> Permutation (flat_map f l) (flat_map f m).
Proof.
  induction 1; cbn [flat_map]; [constructor|now apply Permutation_app_head| |etransitivity; eauto].
  rewrite !app_assoc. apply Permutation_app_tail, Permutation_app_comm.
Qed.
Lemma flat_map_flat {A B C} (f : A -> list B) (g : B -> list C) l : flat_map g (flat_map f l) = flat_map (fun a => flat_map g (f a)) l.
Proof. induction l as [|a l IH]; [reflexivity|]. cbn [flat_map]. now rewrite flat_map_app, IH. Qed.

Section One.
  Context (x : adp) (GE : good_env (env_of x)) (lo hi : R) (masked : bool) (mask : nat -> nat -> bool) (HM : masked = false -> forall i j, mask i j = true).
  Notation n := (length (atoms_of x)).
  Notation K := (loop_calc lo hi masked mask).
  Lemma shown_pairs i sel : (i < n)%nat -> (forall j, In j sel -> (j < n)%nat) -> Permutation (shown x lo hi i sel) (flat_map (fun j => shown x lo hi i [j]) sel).
  Proof.
    intros Hi Hs. rewrite shown_view. rewrite (flat_map_ext _ _ (fun j => shown_view x lo hi i [j])).
    apply shown_cons; [now apply view_ok| |]; rewrite view_sites; auto.
  Qed.
  Lemma shown_pair P i j : neighbours_in lo hi x P -> (i < n)%nat -> (j < n)%nat ->
    Permutation (shown x lo hi i [j]) (map (bond_at (fst (createBondGenerator x)) (snd (createBondGenerator x)) i [j]) (P i j)).
  Proof.
    intros HN Hi Hj. unfold neighbours_in in HN. rewrite shown_view. rewrite create_view in *.
    destruct (shown_spec (fst (gview (env_of x) (atoms_of x))) (snd (gview (env_of x) (atoms_of x))) lo hi i [j] (view_ok _ _ GE)) as (v & [N HV] & ->).
    { now rewrite view_sites. } { intros ? [<-|[]]. now rewrite view_sites. }
    destruct (gview (env_of x) (atoms_of x)) as [cls M]. cbn [fst snd] in *. apply Permutation_map. destruct (HN i j Hi Hj) as [N' HV'].
    apply NoDup_Permutation; auto. intros y. now rewrite HV, HV'.
  Qed.
  Theorem trace_perm P full : neighbours_in lo hi x P -> Permutation (basic_trace K tt x full 0 1) (pair_trace x mask full P).
  Proof.
    intros HN. unfold basic_trace, pair_trace. cbn [outer_ok loop_calc andb negb]. change (1 <? 1)%nat with false. rewrite basic_loop_serial.
    change (Evaluator.nsites K x) with n. apply flat_map_perm. intros i Hi. apply in_seq in Hi. unfold basic_item. change (Evaluator.nsites K x) with n.
    change (Evaluator.gen K tt x i) with (shown x lo hi i). replace (i + 1)%nat with (S i) by lia.
    set (sel := seq 0 (if full then n else S i)). assert (HS : forall j, In j sel -> (j < n)%nat) by (intros j Hj; apply in_seq in Hj; destruct full; lia).
    unfold visit. etransitivity; [apply perm_flat_map, (shown_pairs i sel); [lia|exact HS]|]. rewrite flat_map_flat. apply flat_map_perm. intros j Hj.
    etransitivity; [apply perm_flat_map, (shown_pair P i j HN); [lia|now apply HS]|].
    assert (HI : forall y, In y (P i j) -> Evaluator.site1 K (bond_at (fst (createBondGenerator x)) (snd (createBondGenerator x)) i [j] y) = j).
    { intros y Hy. unfold neighbours_in in HN. destruct (createBondGenerator x) as [cls M]. apply (HN i j ltac:(lia) (HS j Hj)) in Hy as [HI _].
      destruct y as [[k t] T]. destruct HI as [HK _]. cbn in HK. assert (k = O) as -> by lia. reflexivity. }
    unfold pair_bonds. cbn [hasmask Evaluator.mask loop_calc]. clear HN. revert HI. generalize (P i j). intros l HI.
    assert (E : masked && negb (mask i j) = negb (mask i j)) by (destruct masked eqn:EM; [reflexivity|now rewrite (HM eq_refl i j)]).
    induction l as [|y l IH]; [destruct (mask i j); constructor|]. cbn [map flat_map]. cbv zeta. rewrite (HI y (or_introl eq_refl)), E.
    assert (IH' := IH (fun z Hz => HI z (or_intror Hz))). destruct (mask i j); cbn [negb map app] in *; [now apply perm_skip|exact IH'].
  Qed.
End One.

(** ** the shares of workers *)
Lemma share_serial outer lo hi masked mask full x : share outer lo hi masked mask full x 0 1 = basic_trace (loop_calc lo hi masked mask) tt x full 0 1.
Proof. unfold share. rewrite !basic_trace_serial. reflexivity. Qed.
Lemma shares_perm outer lo hi masked mask full x N order : (1 <= N)%nat -> Permutation order (seq 0 N) ->
  Permutation (flat_map (fun k => share outer lo hi masked mask full x k N) order) (basic_trace (loop_calc lo hi masked mask) tt x full 0 1).
Proof.
  intros H HO. etransitivity; [apply perm_flat_map, HO|]. unfold share. rewrite (basic_trace_partition _ _ _ _ _ H), basic_trace_serial. reflexivity.
Qed.
Lemma share_part outer lo hi masked mask full x N k e : (k < N)%nat -> In e (share outer lo hi masked mask full x k N) -> In e (basic_trace (loop_calc lo hi masked mask) tt x full 0 1).
Proof.
  intros H He. apply (Permutation_in e (shares_perm outer lo hi masked mask full x N (seq 0 N) ltac:(lia) (Permutation_refl _))).
  apply in_flat_map. exists k. split; [apply in_seq; lia|exact He].
Qed.

(** ** sums *)
Lemma sumf_flat {A B} (f : A -> list B) (g : B -> R) l : sumf g (flat_map f l) = sumf (fun a => sumf g (f a)) l.
Proof. induction l as [|a l IH]; [reflexivity|]. cbn [flat_map]. now rewrite sumf_app, sumf_cons, IH. Qed.
Section Sum.
  Context (x : adp) (GE : good_env (env_of x)) (lo hi : R) (masked : bool) (mask : nat -> nat -> bool) (HM : masked = false -> forall i j, mask i j = true).
  Notation n := (length (atoms_of x)).
  Definition the_bond (i j : nat) (y : image) : bond := bond_at (fst (createBondGenerator x)) (snd (createBondGenerator x)) i [j] y.
  Definition the_scale (full : bool) (i j : nat) : Z := if full || (i =? j)%nat then 1%Z else 2%Z.
  Lemma trace_sum P full (g : bond * Z -> R) : neighbours_in lo hi x P ->
    sumf g (basic_trace (loop_calc lo hi masked mask) tt x full 0 1) =
    sumf (fun i => sumf (fun j => if mask i j then sumf (fun y => g (the_bond i j y, the_scale full i j)) (P i j) else 0) (seq 0 (if full then n else S i))) (seq 0 n).
  Proof.
    intros HN. rewrite (sumf_perm _ _ _ (trace_perm x GE lo hi masked mask HM P full HN)). unfold pair_trace. rewrite sumf_flat. apply sumf_ext. intros i _. rewrite sumf_flat.
    apply sumf_ext. intros j _. unfold pair_bonds. destruct (mask i j); [|reflexivity]. rewrite sumf_map. reflexivity.
  Qed.
End Sum.
Lemma pick2 (f : nat -> nat -> R) n i j : (i < n)%nat -> (j <= i)%nat ->
  sumf (fun a => sumf (fun b => if ((a =? i) && (b =? j))%nat then f a b else 0) (seq 0 (S a))) (seq 0 n) = f i j.
Proof.
  intros Hi Hj. rewrite <- (sumf_pick (fun a => f a j) i n Hi). apply sumf_ext. intros a Ha. rewrite (Nat.eqb_sym i a). destruct (Nat.eqb_spec a i) as [->|E]; cbn [andb].
  - rewrite <- (sumf_pick (f i) j (S i)) by lia. apply sumf_ext. intros b _. now rewrite (Nat.eqb_sym b j).
  - apply sumf_0.
Qed.
(** both directions of a pair of sites: as many atoms at each distance, counted over all equivalent atoms *)
Section Both.
  Context (x : adp) (GE : good_env (env_of x)) (OR : orderly false x) (lo hi : R) (P : nat -> nat -> list image) (HN : neighbours_in lo hi x P).
  Notation n := (length (atoms_of x)).
  Notation m i := (INR (multiplicity (env_of x) (atom_at x i))).
  Notation S_ F i j := (sumf (fun y => F (b_distance (the_bond x i j y))) (P i j)).
  Lemma both_lt (F : R -> R) i j : (i < n)%nat -> (j < i)%nat -> m i * S_ F i j = m j * S_ F j i.
  Proof.
    intros Hi Hj. set (mask := fun a b => (((a =? i) && (b =? j)) || ((a =? j) && (b =? i)))%nat).
    assert (MS : good_mask true mask) by (split; [intros a b; unfold mask; destruct (a =? i)%nat, (b =? j)%nat, (a =? j)%nat, (b =? i)%nat; reflexivity|discriminate]).
    pose proof (visited_sum x GE (PWConstant cw_new) lo hi true mask (fun _ _ d _ => F d) P false HN (conj OR MS) ltac:(reflexivity)) as E.
    unfold vsum, visited in E. rewrite sumf_map in E. cbn [fst snd pbond_at b_mult b_s0 b_s1 PdfGrid.b_dist b_fwhm] in E.
    rewrite (trace_sum x GE lo hi true mask (proj2 MS) P false (fun e => IZR (snd e) * (INR (siteMultiplicity x (b_site0 (fst e))) * F (b_distance (fst e)))) HN) in E.
    assert (L : sumf (fun a => sumf (fun b => if mask a b then sumf (fun y => IZR (the_scale false a b) * (INR (siteMultiplicity x (b_site0 (the_bond x a b y))) * F (b_distance (the_bond x a b y)))) (P a b) else 0) (seq 0 (S a))) (seq 0 n)
       = 2 * (m i * S_ F i j)).
    { transitivity (sumf (fun a => sumf (fun b => if ((a =? i) && (b =? j))%nat then 2 * (m a * S_ F a b) else 0) (seq 0 (S a))) (seq 0 n)); [|apply (pick2 (fun a b => 2 * (m a * S_ F a b))); lia].
      apply sumf_ext. intros a Ha. apply in_seq in Ha. apply sumf_ext. intros b Hb. apply in_seq in Hb. unfold mask.
      destruct (Nat.eqb_spec a i) as [->|Ea]; [destruct (Nat.eqb_spec b j) as [->|Eb]|]; cbn [andb orb].
      - rewrite <- !sumf_scale. apply sumf_ext. intros y Hy. unfold the_scale. cbn [orb]. replace (i =? j)%nat with false by (symmetry; apply Nat.eqb_neq; lia).
        replace (b_site0 (the_bond x i j y)) with i by (destruct y as [[k t] T]; reflexivity). rewrite (mult_view x i Hi). reflexivity.
      - replace ((i =? j)%nat) with false by (symmetry; apply Nat.eqb_neq; lia). reflexivity.
      - destruct (Nat.eqb_spec a j) as [->|Ej]; [|reflexivity]. cbn [andb]. replace (b =? i)%nat with false by (symmetry; apply Nat.eqb_neq; lia). reflexivity. }
    cbn [fst snd] in E. rewrite L in E.
    assert (Rt : pair_total x (PWConstant cw_new) mask P (fun _ _ d _ => F d) = m i * S_ F i j + m j * S_ F j i).
    { unfold pair_total, over_pairs. unfold the_bond. destruct (createBondGenerator x) as [cls M]. cbn [fst snd].
      transitivity (sumf (fun a => (if (i =? a)%nat then m a * sumf (fun y => F (b_distance (bond_at cls M a [j] y))) (P a j) else 0) + (if (j =? a)%nat then m a * sumf (fun y => F (b_distance (bond_at cls M a [i] y))) (P a i) else 0)) (seq 0 n)).
      2: { rewrite sumf_plus, (sumf_pick (fun a => m a * sumf (fun y => F (b_distance (bond_at cls M a [j] y))) (P a j)) i n Hi), (sumf_pick (fun a => m a * sumf (fun y => F (b_distance (bond_at cls M a [i] y))) (P a i)) j n); [reflexivity|lia]. }
      apply sumf_ext. intros a Ha. rewrite (Nat.eqb_sym i a), (Nat.eqb_sym j a). unfold mask.
      assert (pick : forall k, (k < n)%nat -> sumf (fun b => if (b =? k)%nat then sumf (fun y => m a * F (b_distance (bond_at cls M a [b] y))) (P a b) else 0) (seq 0 n) = m a * sumf (fun y => F (b_distance (bond_at cls M a [k] y))) (P a k)).
      { intros k Hk. rewrite <- (sumf_pick (fun b => m a * sumf (fun y => F (b_distance (bond_at cls M a [b] y))) (P a b)) k n Hk). apply sumf_ext. intros b _. rewrite (Nat.eqb_sym k b). destruct (b =? k)%nat; [apply sumf_scale|reflexivity]. }
      destruct (Nat.eqb_spec a i) as [->|Ei]; [destruct (Nat.eqb_spec i j) as [->|Ej]; [lia|]|destruct (Nat.eqb_spec a j) as [->|Ej]]; cbn [andb orb].
      - rewrite Rplus_0_r, <- (pick j ltac:(lia)). apply sumf_ext. intros b _. now rewrite orb_false_r.
      - rewrite Rplus_0_l, <- (pick i Hi). reflexivity.
      - rewrite Rplus_0_r. apply sumf_0. }
    rewrite Rt in E. lra.
  Qed.
  Theorem both_ways (F : R -> R) i j : (i < n)%nat -> (j < n)%nat -> m i * S_ F i j = m j * S_ F j i.
  Proof.
    intros Hi Hj. destruct (Nat.lt_trichotomy i j) as [H|[->|H]]; [symmetry; now apply both_lt|reflexivity|now apply both_lt].
  Qed.
End Both.
