(** Property C84, crystals with symmetry operations: they are not counted properly. *)
From Coq Require Import String.
From Verif Require Import RBase R3 Trig Sums Sphere Lattice LatticeSpec LatticeProofs Crystal CrystalSpec CrystalProofs CrystalExample StructDiff StructDiffSpec AList Masks BondGen BondGenSpec
  World WorldSpec WorldProofs WorldMain OrbitSpec OrbitGroup OrbitSum OrbitWorld OrbitExample Visited VisitedSpec VisitedProofs VisitedMain VisitedProps Shares SiteSums OverlapWorldProofs OverlapWorldSym
  Evaluator EvaluatorSpec EvaluatorRun EvaluatorMore WorldAtoms WorldTotal WorldProps PairCount PairCountSpec PairCountProofs.
Import ListNotations.
Open Scope R_scope.
Notation length := List.length.

Definition ions (x : adp) : Prop := x = ionic (1 / 4).
Lemma ions_program : program ions.
Proof. split; unfold ions; [intros x y -> ->; cbn; split; [reflexivity|exact I]|intros x y -> ->; exact I|intros x ->; apply ionic_good]. Qed.
Definition ion : wstru ions := exist _ (ionic (1 / 4)) eq_refl.
Definition near_only : kcfg := {| k_rmin := 1 / 16; k_rmax := 3 / 8; k_pq := pq0 |}.
Lemma quarter_in : 3 / 16 < 1 / 4 < 5 / 16. Proof. lra. Qed.
Lemma a_two : (2 <= length (fp (anion_at (1 / 4))))%nat.
Proof.
  destruct (site_of (1 / 4) quarter_in 1 (or_introl eq_refl)) as (s0 & T0 & L0 & E0). destruct (site_of (1 / 4) quarter_in (-1) (or_intror eq_refl)) as (s1 & T1 & L1 & E1).
  destruct (Nat.eq_dec s0 s1) as [->|NE]; [|lia]. exfalso. unfold step3 in E0, E1. cbn [fst snd] in E0, E1. destruct T0 as [[m n] o], T1 as [[m' n'] o'].
  destruct (OrbitSum.pos (fp (anion_at (1 / 4))) s1) as [p1 p2 p3]. destruct (OrbitSum.pos (fp cation0) 0) as [z1 z2 z3]. unfold ivec3, iv, vadd, vsub in E0, E1. cbn [vx vy vz] in E0, E1.
  injection E0 as A _ _. injection E1 as B _ _. assert (Q : IZR (m - m') = 1 / 2) by (rewrite minus_IZR; lra). apply (half_int (m - m') (1 / 2)); [now left|now rewrite Q].
Qed.
Section One.
  Context (P : nat -> nat -> list image) (HN : neighbours_in (1 / 16) (3 / 8) (ionic (1 / 4)) P).
  Lemma len01 : length (P 0%nat 1%nat) = 2%nat.
  Proof. destruct (two_ca (1 / 4) quarter_in P HN) as (y0 & y1 & HP & _). now rewrite (Permutation_length HP). Qed.
  Lemma len10 : length (P 1%nat 0%nat) = 1%nat.
  Proof.
    pose proof (both_ways (ionic (1 / 4)) (ionic_good _) (ionic_orderly _ quarter_in) (1 / 16) (3 / 8) P HN (fun _ => 1) 0 1 ltac:(cbn; lia) ltac:(cbn; lia)) as BW.
    assert (M0 : multiplicity (env_of (ionic (1 / 4))) (atom_at (ionic (1 / 4)) 0) = 1%nat).
    { change (multiplicity (Symmetric lattice0 prec0 inversion) cation0 = 1%nat). rewrite mult_fpos. apply (c_one (1 / 4)). }
    assert (M1 : (2 <= multiplicity (env_of (ionic (1 / 4))) (atom_at (ionic (1 / 4)) 1))%nat).
    { change (2 <= multiplicity (Symmetric lattice0 prec0 inversion) (anion_at (1 / 4)))%nat. rewrite mult_fpos. apply a_two. }
    rewrite M0 in BW. set (m := multiplicity _ _) in *. clearbody m. rewrite !sumf_const, len01 in BW.
    assert (E : (m * length (P 1%nat 0%nat) = 2)%nat) by (apply INR_eq; rewrite mult_INR; cbn [INR] in *; lra). nia.
  Qed.
End One.
(** In the cell are two pairs of neighbours at distance 1/4, and no other pairs within 1/16 .. 3/8: the cation has two
    neighbours, each of the two equivalent anions has one. A new counter with these limits says 1 with half sums; with full
    sums its value is 3/2. *)
Theorem C84_symmetry_refuted :
  program ions /\ orderly false (wadp ions ion) /\
  (exists P, neighbours counter near_only (wadp ions ion) P) /\
  (forall P, neighbours counter near_only (wadp ions ion) P -> ordered_pairs near_only (wadp ions ion) P = 3%nat /\
     P 0%nat 0%nat = [] /\ P 1%nat 1%nat = [] /\ length (P 0%nat 1%nat) = 2%nat /\ length (P 1%nat 0%nat) = 1%nat) /\
  multiplicity (env_of (wadp ions ion)) (atom_at (wadp ions ion) 0) = 1%nat /\
  (2 <= multiplicity (env_of (wadp ions ion)) (atom_at (wadp ions ion) 1))%nat /\
  forall sortf close fixed e, sorts sortf ->
  let K := pair_calc ions sortf counter in
  let v full := val (run K close [OpEval ion] (init K near_only e EvBasic full fixed 0 1)) in
  v false = 1 /\ v true = 3 / 2 /\ int_of (v true) = 1%Z.
Proof.
  split; [exact ions_program|]. split; [exact (ionic_orderly _ quarter_in)|].
  assert (EN : forall P, neighbours counter near_only (wadp ions ion) P -> neighbours_in (1 / 16) (3 / 8) (ionic (1 / 4)) P) by (intros P H; exact H).
  pose proof (neighbours_exist counter near_only (wadp ions ion) (ionic_good _)) as [P HP].
  split; [now exists P|].
  assert (V : forall P, neighbours counter near_only (wadp ions ion) P -> P 0%nat 0%nat = [] /\ P 1%nat 1%nat = [] /\ length (P 0%nat 1%nat) = 2%nat /\ length (P 1%nat 0%nat) = 1%nat).
  { intros P' HP'. specialize (EN P' HP'). split; [exact (none_cc _ P' EN)|]. split; [exact (none_aa _ quarter_in P' EN)|]. split; [exact (len01 P' EN)|exact (len10 P' EN)]. }
  split.
  { intros P' HP'. destruct (V P' HP') as (A & B & C & D). split; [|auto]. unfold ordered_pairs. change (length (atoms_of (wadp ions ion))) with 2%nat. cbn [seq map list_sum fold_right].
    rewrite A, B, C, D. reflexivity. }
  split; [change (multiplicity (Symmetric lattice0 prec0 inversion) cation0 = 1%nat); rewrite mult_fpos; apply (c_one (1 / 4))|].
  split; [change (2 <= multiplicity (Symmetric lattice0 prec0 inversion) (anion_at (1 / 4)))%nat; rewrite mult_fpos; apply a_two|].
  intros sortf close fixed e HS K v. destruct (V P HP) as (A & B & C & D).
  assert (BV : forall full, v full = total K (wpairs ions counter) full near_only ion).
  { intros full. unfold v, run. cbn [fold_left step].
    pose proof (world_calc_ok ions sortf ions_program HS counter Ropp counter_ok) as OK.
    rewrite (eval_update K Ropp (wpairs ions counter) (watoms ions) (wenv ions) (ww counter) OK). unfold update. cbn [kind init state_of].
    set (x0 := init K near_only e EvBasic full fixed 0 1). rewrite (basic_value K Ropp (wpairs ions counter) (watoms ions) (wenv ions) (ww counter) OK ion x0 eq_refl). reflexivity. }
  assert (PV : forall z i j, (i < 2)%nat -> (j < 2)%nat -> pair_value K (wpairs ions counter) near_only ion z i j = INR (length (P i j)) * (IZR z / 2)).
  { intros z i j Hi Hj. unfold K. rewrite (pair_is_sum counter ions sortf ions_program Ropp counter_ok near_only ion P z i j HP Hi Hj). unfold pair_sum. destruct (createBondGenerator (wadp ions ion)) as [cls M].
    replace (q_mask counter near_only i (atom_at (wadp ions ion) i) j (atom_at (wadp ions ion) j)) with true by reflexivity. cbn [q_contrib counter].
    generalize (P i j). intros l. unfold qsum. induction l as [|y l IH]; [cbn; lra|]. cbn [map fold_right length]. rewrite S_INR. cbn [q_add q_zero counter] in *. rewrite IH. lra. }
  rewrite !BV. unfold total.
  assert (H : half_total K (wpairs ions counter) near_only ion = 1).
  { unfold half_total. change (nsites K ion) with 2%nat. cbn [seq map EvaluatorSpec.sum]. unfold EvaluatorSpec.sum. cbn [fold_right map]. rewrite !PV by lia. rewrite A, B, D. cbn. lra. }
  assert (F : full_total K (wpairs ions counter) near_only ion = 3 / 2).
  { unfold full_total. change (nsites K ion) with 2%nat. unfold EvaluatorSpec.sum. cbn [seq fold_right map]. rewrite !PV by lia. rewrite A, B, C, D. cbn. lra. }
  rewrite H, F. split; [reflexivity|]. split; [reflexivity|]. unfold int_of. rewrite (proj2 (Rltb_false _ _)) by lra. destruct (Rfloor_spec (3 / 2)) as [X Y]. set (k := Rfloor (3 / 2)) in *.
  assert (0 < k < 2)%Z by (split; apply lt_IZR; lra). lia.
Qed.
Print Assumptions C84_symmetry_refuted.
