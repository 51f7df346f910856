(** Property C90: BVSCalculator on structures. [bvs_merged .. N order] is the value after N workers evaluated the structure x
    and reported in the given order; N = 1 is a serial evaluation. *)
From Coq Require Import String.
From Verif Require Import RBase R3 Sums Lattice Crystal CrystalExample StructDiff StructDiffSpec Evaluator BondGen BondGenSpec World WorldSpec OrbitSpec OrbitExample Visited VisitedSpec VisitedProofs VisitedCalc VisitedMain VisitedProps Shares SiteSums
  Bvs BvsSpec BvsMain BvsExample BvsWorld BvsWorldSpec BvsWorldProofs BvsWorldExample.
Import ListNotations.
Open Scope R_scope.
Notation length := List.length.

(** When all neighbours of atom k have as many equivalents as k itself, its value is its bond valence sum, over all
    neighbours up to rmaxused, with full or half sums and any number of workers. *)
Theorem C90_site_sums_partial x c ord masked mask full outer N order P k : good_env (env_of x) -> orderly false x -> ordered_pairs c x -> good_mask masked mask ->
  neighbours_in 0 (Bvs.getRmaxUsed c ord) x P -> (1 <= N)%nat -> Permutation order (seq 0 N) -> (k < length (atoms_of x))%nat ->
  (forall j, (j < length (atoms_of x))%nat -> mask k j = true -> P k j <> [] -> site_mult x j = site_mult x k) ->
  nth k (bvs_merged outer c ord masked mask full x N order) 0 = valence_sum c x mask P k.
Proof.
  intros GE OR OP [MS HM] HN H1 HO Hk HE. exact (value_equal x GE c ord masked mask HM P HN outer OR OP MS full N order k H1 HO Hk HE).
Qed.
Print Assumptions C90_site_sums_partial.
(** Molecules and crystals without symmetry operations are such structures. *)
Theorem C90_no_symmetry x c ord masked mask full outer N order P k : good_env (env_of x) -> ~ has_symmetry (env_of x) -> ordered_pairs c x -> good_mask masked mask ->
  neighbours_in 0 (Bvs.getRmaxUsed c ord) x P -> (1 <= N)%nat -> Permutation order (seq 0 N) -> (k < length (atoms_of x))%nat ->
  nth k (bvs_merged outer c ord masked mask full x N order) 0 = valence_sum c x mask P k.
Proof.
  intros GE NS OP HM HN H1 HO Hk. assert (OR : orderly false x) by (unfold orderly; destruct (env_of x); auto; now destruct NS).
  apply C90_site_sums_partial; auto. intros j _ _ _. unfold site_mult, multiplicity. destruct (env_of x); auto. now destruct NS.
Qed.
Print Assumptions C90_no_symmetry.
(** In any crystal with a space group each neighbour gets a factor: (1 + m_k / m_j) / 2 in full sums, 1 or m_k / m_j in half
    sums, where m are the multiplicities. *)
Theorem C90_any_crystal_partial x c ord masked mask full outer N order P k : good_env (env_of x) -> orderly false x -> ordered_pairs c x -> good_mask masked mask ->
  neighbours_in 0 (Bvs.getRmaxUsed c ord) x P -> (1 <= N)%nat -> Permutation order (seq 0 N) -> (k < length (atoms_of x))%nat ->
  let ratio j := INR (site_mult x k) / INR (site_mult x j) in
  nth k (bvs_merged outer c ord masked mask full x N order) 0 =
    weighted_sum c x mask P (fun j => if full then (1 + ratio j) / 2 else if (j <=? k)%nat then 1 else ratio j) k.
Proof.
  intros GE OR OP [MS HM] HN H1 HO Hk. exact (value_crystal x GE c ord masked mask HM P HN outer OR OP MS full N order k H1 HO Hk).
Qed.
Print Assumptions C90_any_crystal_partial.
(** The number of workers and the order of their reports make no difference. *)
Theorem C90_workers x c ord masked mask full outer outer' N N' order order' k : good_env (env_of x) -> (masked = false -> forall i j, mask i j = true) ->
  (1 <= N)%nat -> (1 <= N')%nat -> Permutation order (seq 0 N) -> Permutation order' (seq 0 N') -> (k < length (atoms_of x))%nat ->
  nth k (bvs_merged outer c ord masked mask full x N order) 0 = nth k (bvs_merged outer' c ord masked mask full x N' order') 0 /\
  length (bvs_merged outer c ord masked mask full x N order) = length (atoms_of x).
Proof.
  intros GE HM H1 H2 HO HO' Hk. destruct (C87_neighbours 0 (Bvs.getRmaxUsed c ord) x GE) as [P HN].
  split; [rewrite (value_eval x GE c ord masked mask HM P HN outer full N order k H1 HO Hk), (value_eval x GE c ord masked mask HM P HN outer' full N' order' k H2 HO' Hk); reflexivity|].
  exact (proj1 (merged_nth x GE c ord masked mask outer full N order k H1 HO Hk)).
Qed.
Print Assumptions C90_workers.
(** bvmsdiff is the mean over all atoms of the unit cell, so each site counts with its multiplicity and occupancy. *)
Theorem C90_mean_square x c v :
  bvmsdiff c (bvs_view x) v =
  if Rlt_dec 0 (cell_occ x) then
    sumf (fun i => c_occ (atom_at x i) * INR (site_mult x i) * (Rabs (IZR (valence c (bvs_view x) i)) - Rabs (nth i v 0)) ^ 2) (seq 0 (length (atoms_of x))) / cell_occ x
  else 0.
Proof.
  assert (T : sumf (fun i => bocc (bvs_view x) i * INR (bmult (bvs_view x) i)) (seq 0 (bn (bvs_view x))) = cell_occ x) by exact (sites_cell x c_occ).
  rewrite msdiff_sum, T. destruct (Rlt_dec 0 (cell_occ x)); [|reflexivity]. f_equal. apply sumf_ext. intros i Hi. apply in_seq in Hi.
  change (bn (bvs_view x)) with (length (atoms_of x)) in Hi. cbn [bvs_view bocc bmult]. rewrite mult_view by lia. reflexivity.
Qed.
Print Assumptions C90_mean_square.
(** A crystal of one cation and several equivalent anions: with full and half sums the value of the cation is too small. *)
Theorem C90_multiplicities_refuted : exists x c ord k, good_env (env_of x) /\ orderly false x /\ ordered_pairs c x /\ enumerates c (bvs_view x) ord /\ (k < length (atoms_of x))%nat /\
  forall P full outer N order, neighbours_in 0 (Bvs.getRmaxUsed c ord) x P -> (1 <= N)%nat -> Permutation order (seq 0 N) ->
  nth k (bvs_merged outer c ord false (fun _ _ => true) full x N order) 0 < valence_sum c x (fun _ _ => true) P k.
Proof.
  exists salt, (ex_c 0), ex_ord, O. split; [exact salt_good|]. split; [exact salt_orderly|]. split; [exact salt_ordered|]. split; [exact salt_enum|]. split; [cbn; lia|].
  intros P full outer N order HN H1 HO. exact (salt_bad P full outer N order HN H1 HO).
Qed.
Print Assumptions C90_multiplicities_refuted.
(** The hypotheses are met by that crystal and a molecule of the same two atoms; the cation has neighbours. *)
Example C90_nonvacuous : exists P, neighbours_in 0 (Bvs.getRmaxUsed (ex_c 0) ex_ord) salt P /\ 0 < valence_sum (ex_c 0) salt (fun _ _ => true) P 0 /\
  good_env (env_of salt) /\ orderly false salt /\ ordered_pairs (ex_c 0) salt /\ good_mask false (fun _ _ => true) /\
  let mol := Adp 0 (Atomic [cation; anion]) : adp in good_env (env_of mol) /\ ~ has_symmetry (env_of mol) /\ ordered_pairs (ex_c 0) mol.
Proof.
  destruct (C87_neighbours 0 (Bvs.getRmaxUsed (ex_c 0) ex_ord) salt salt_good) as [P HN]. exists P. split; [exact HN|]. split.
  - unfold valence_sum. change (length (atoms_of salt)) with 2%nat. cbn [seq]. rewrite !sumf_cons, !sumf_nil, salt_self. change (c_occ (atom_at salt 1)) with 1.
    change (sgn (valence (ex_c 0) (bvs_view salt) 0)) with 1. pose proof (salt_valence P HN). lra.
  - split; [exact salt_good|]. split; [exact salt_orderly|]. split; [exact salt_ordered|]. split; [split; reflexivity|]. split; [exact I|]. split; [exact (fun H => H)|].
    exact salt_ordered.
Qed.
