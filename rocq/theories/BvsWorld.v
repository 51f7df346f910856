(** BVSCalculator on structures: the loop of PQEvaluatorBasic with the bond generators of BondGen.v, and the
    contributions of Bvs.v. Source: src/diffpy/srreal/BVSCalculator.cpp, PQEvaluator.cpp, PairQuantity.cpp. *)
From Coq Require Import String Ascii.
From Verif Require Import RBase R3 Lattice Crystal StructDiff StructDiffSpec Evaluator BondGen World Visited Shares Merge Bvs.
Import ListNotations.
Open Scope R_scope.
Notation length := List.length.

(** countSites, siteAtomType, siteOccupancy, siteMultiplicity of the structure (Visited.v); the distances come from the loop *)
Definition bvs_view (x : adp) : bstru :=
  {| bn := countSites x; btype := fun i => list_ascii_of_string (c_type (siteAtom x i)); bocc := fun i => c_occ (siteAtom x i);
     bmult := siteMultiplicity x; bdist := fun _ _ => [] |}.
(** BVSCalculator.cpp:147-180 resetValue, configureBondGenerator and addPairContribution in PQEvaluatorBasic::updateValue
    (PQEvaluator.cpp:96-128): the value of worker [k] of [N]; [ord] as in Bvs.v, [outer] as in Shares.v *)
Definition bvs_on (outer : nat -> nat -> bool) (c : bvs) (ord : list (str * Z)) (masked : bool) (mask : nat -> nat -> bool) (full : bool) (x : adp) (k N : nat) : list R :=
  fold_left (fun v e => addPair c (bvs_view x) v (b_site0 (fst e)) (b_site1 (fst e)) (b_distance (fst e)) (snd e))
    (share outer (fst (bvsLimits c ord)) (snd (bvsLimits c ord)) masked mask full x k N) (repeat 0 (countSites x)).
(** PairQuantity.cpp:348-352 resetValue and 96-106, 362-374 mergeParallelData of the workers' values as they arrive; all
    have the same size. [order]: the workers in the order of arrival *)
Definition bvs_merged (outer : nat -> nat -> bool) (c : bvs) (ord : list (str * Z)) (masked : bool) (mask : nat -> nat -> bool) (full : bool) (x : adp) (N : nat) (order : list nat) : list R :=
  fold_left (fun v k => zip_plus Rplus v (bvs_on outer c ord masked mask full x k N)) order (repeat 0 (countSites x)).
