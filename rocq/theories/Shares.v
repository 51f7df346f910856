(** The bonds that one of several workers visits on a structure. Source: src/diffpy/srreal/PQEvaluator.cpp. *)
From Verif Require Import RBase StructDiff StructDiffSpec Evaluator BondGen World Visited.
Open Scope R_scope.

(** PQEvaluator.cpp:96-128 as in Visited.v; [outer]: the test of line 108 whether the outer loop is split *)
Definition share_calc (outer : nat -> nat -> bool) (lo hi : R) (masked : bool) (mask : nat -> nat -> bool) : calc adp unit bond unit :=
  {| zero := tt; add := fun _ _ => tt; Evaluator.nsites := countSites; Evaluator.gen := fun _ x i sel => shown x lo hi i sel;
     Evaluator.site1 := b_site1; hasmask := fun _ => masked; haspairmask := fun _ => masked; Evaluator.mask := fun _ _ i j => mask i j;
     contrib := fun _ _ _ _ => tt; custom := fun _ c => (c, false); sdif := fun _ _ => {| pop0 := nil; add1 := nil; diffmethod := NONE |}; outer_ok := outer;
     has_stash := true; restash := fun v => v; finish := fun _ v => v |}.
(** the bonds, with scales, that worker [k] of [N] visits; [share .. 0 1] is the serial evaluation *)
Definition share (outer : nat -> nat -> bool) (lo hi : R) (masked : bool) (mask : nat -> nat -> bool) (full : bool) (x : adp) (k N : nat) : list (bond * Z) :=
  basic_trace (share_calc outer lo hi masked mask) tt x full k N.
