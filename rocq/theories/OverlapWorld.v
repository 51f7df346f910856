(** OverlapCalculator on structures: the loop of PQEvaluatorBasic with the bond generators of BondGen.v, and the
    contributions of Overlap.v. Source: src/diffpy/srreal/OverlapCalculator.cpp, PQEvaluator.cpp, PairQuantity.cpp. *)
From Coq Require Import String.
From Verif Require Import RBase R3 Lattice Crystal StructDiff StructDiffSpec Evaluator BondGen World Visited Shares Overlap.
Import ListNotations.
Open Scope R_scope.
Notation length := List.length.

(** countSites, siteOccupancy, siteMultiplicity, siteAtomType of the structure (Visited.v) *)
Definition overlap_view (x : adp) : ostru :=
  {| o_n := countSites x; o_occ := fun i => c_occ (siteAtom x i); o_mult := siteMultiplicity x; o_type := fun i => c_type (siteAtom x i) |}.
(** OverlapCalculator.cpp:415-446 resetValue, configureBondGenerator and addPairContribution in
    PQEvaluatorBasic::updateValue (PQEvaluator.cpp:96-128) with the flag USEFULLSUM that OverlapCalculator.cpp:65 sets: worker [k] of
    [N], a calculator in any state [c] before. [lk]: lookup in the radii table *)
Definition overlap_on (outer : nat -> nat -> bool) (lk : string -> R) (rmin rmax : R) (masked : bool) (mask : nat -> nat -> bool) (x : adp) (c : ocalc) (k N : nat) : ocalc :=
  let c := resetValue (overlap_view x) lk c in
  fold_left (fun c e => addPairContribution c (fst e)) (share outer rmin (Overlap.getRmaxUsed c rmax) masked mask true x k N) c.
(** PairQuantity.cpp:69-75 setStructure, 96-115 mergeParallelData and getParallelData: the master with the values of the workers [ws k] in
    the order of their arrival *)
Definition overlap_merged (outer : nat -> nat -> bool) (lk : string -> R) (rmin rmax : R) (masked : bool) (mask : nat -> nat -> bool) (x : adp) (c : ocalc) (ws : nat -> ocalc) (N : nat) (order : list nat) : ocalc :=
  fold_left (fun c k => Overlap.executeParallelMerge c (mvalue (overlap_on outer lk rmin rmax masked mask x (ws k) k N))) order (resetValue (overlap_view x) lk c).
(** OverlapCalculator.cpp:540-560: whether some call of getNeighborIds filled the neighbour cache before *)
Definition asked (q : bool) (c : ocalc) : ocalc := if q then fillNeighborIds c else c.
