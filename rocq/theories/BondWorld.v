(** BondCalculator on structures: the calculator of BondCalc.v over the adapters and bond generators of World.v.
    Source: src/diffpy/srreal/BondCalculator.cpp, PQEvaluator.cpp, PairQuantity.cpp. *)
From Coq Require Import String.
From Verif Require Import RBase R3 Lattice Crystal StructDiff StructDiffSpec Evaluator BondGen World BondCalc BondCalcSpec.
Import ListNotations.
Open Scope R_scope.
Notation length := List.length.

(** Settings of a BondCalculator: limits (PairQuantity.cpp:118-144 setRmin, setRmax), calls of filterCone and filterOff
    (BondCalculator.cpp:168-185), masks (PairQuantity.cpp:264-292: by index and atom type; [b_masked] false: no mask is set,
    [b_pairmask] some index was masked). *)
Record bsettings := {
  b_rmin : R; b_rmax : R; b_cones : list cone_op; b_masked : bool; b_pairmask : bool;
  b_mask : nat -> catom -> nat -> catom -> bool
}.
(** PairQuantity.cpp:355-359 configureBondGenerator: the bonds of the loop are those of the user's limits. What
    addPairContribution does with them is [bcontrib] of BondCalc.v, not the empty contribution here. [outer]: whether a worker skips anchors
    (PQEvaluator.cpp:96-128). *)
Definition bond_quantity (outer : nat -> nat -> bool) : quantity bsettings unit := {|
  q_zero := tt; q_add := fun _ _ => tt; q_rmin := b_rmin; q_rmax := b_rmax;
  q_hasmask := b_masked; q_haspairmask := b_pairmask; q_mask := fun c i a j b => negb (b_masked c) || b_mask c i a j b;
  q_contrib := fun _ _ _ _ _ _ _ _ => tt; q_outer := outer; q_stash := true |}.
(** BondCalculator.cpp:278-292: the filters that are set *)
Definition bond_cones (c : bsettings) : cones := cone_run (b_cones c).
