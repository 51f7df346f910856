(** Sums of pair contributions in double arithmetic. The calculators and evaluators are those of Evaluator.v; only the type of the
    value and the addition change. Source: PQEvaluator.cpp, PairQuantity.cpp and the addPairContribution functions. *)
From Flocq Require Import Core.
From Verif Require Import Base StructDiff Evaluator Fp.
From Coq Require Import Reals.
Import ListNotations.
Open Scope R_scope.

(** a calculator with another kind of values: everything else as before; the value survives stash, restore and finish unchanged
    (BaseDebyeSum.cpp:192-202, PairQuantity.hpp finishValue) *)
Definition revalue {stru cfg bond V W} (K : calc stru cfg bond V) (z : W) (a : W -> W -> W) (ct : cfg -> stru -> bond -> Z -> W) : calc stru cfg bond W :=
  {| zero := z; add := a; nsites := nsites K; gen := gen K; site1 := site1 K; hasmask := hasmask K; haspairmask := haspairmask K;
     mask := mask K; contrib := ct; custom := custom K; sdif := sdif K; outer_ok := outer_ok K; has_stash := has_stash K;
     restash := fun v => v; finish := fun _ v => v |}.
(** one element of mvalue on the machine: "mvalue[i] += x" rounds (PDFCalculator.cpp:535, BaseDebyeSum.cpp:187, PairCounter.cpp:37,
    BVSCalculator.cpp:178-179; PairQuantity.cpp:372-373 for merged values). The contributions are the doubles the machine computed. *)
Definition fp_add (a b : R) : R := rnd (a + b).
Definition machine {stru cfg bond} (K : calc stru cfg bond R) : calc stru cfg bond R := revalue K 0 fp_add (contrib K).
