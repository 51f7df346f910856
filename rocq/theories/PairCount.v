(** Model of PairCounter as a pair quantity on structures. Source: src/diffpy/srreal/PairCounter.{hpp,cpp}. *)
From Coq Require Import String.
From Verif Require Import RBase R3 Trig Lattice Crystal StructDiff Evaluator AList Masks BondGen World.
Import ListNotations.
Open Scope R_scope.
Notation length := List.length.

(** What addPairContribution and the evaluator read of the counter: limits and masks (PairQuantity.hpp:120-140). *)
Record kcfg := { k_rmin : R; k_rmax : R; k_pq : pq }.
(** The mask that getPairMask(i, j) shows after setStructure, from the masks as the user set them: the mask of the types,
    or of one of the sites with all, or of the pair (PairQuantity.cpp:264-270, 422-477). Contradicting masks with "all" make
    the result depend on the order of a hash container; one of the two is taken here (C84_masks excludes them). *)
Definition site_mask (s : pq) (i j : Z) : bool :=
  match afind Z.eq_dec i (siteall s), afind Z.eq_dec j (siteall s) with
  | Some m, _ => m
  | None, Some m => m
  | None, None => getPairMask s i j
  end.
Definition shown_mask (s : pq) (i : nat) (a : string) (j : nat) (b : string) : bool :=
  if hasTypeMask s then let p := ssort2 a b in getTypeMask s (fst p) (snd p)
  else let p := sort2 (Z.of_nat i) (Z.of_nat j) in site_mask s (fst p) (snd p).

(** PairCounter.cpp:25-30 constructor, 34-38 addPairContribution; the counter has no stashPartialValue. *)
Definition counter0 : kcfg := {| k_rmin := 0; k_rmax := 1000; k_pq := pq0 |}.
Definition counter : quantity kcfg R := {|
  q_zero := 0; q_add := Rplus;
  q_rmin := k_rmin; q_rmax := k_rmax;
  q_hasmask := fun c => hasMask (k_pq c); q_haspairmask := fun c => hasPairMask (k_pq c);
  q_mask := fun c i a j b => shown_mask (k_pq c) i (c_type a) j (c_type b);
  q_contrib := fun _ _ z _ _ _ _ _ => IZR z / 2;
  q_outer := fun _ _ => true; q_stash := false |}.
(** PairCounter.hpp:46-52 operator(): int(value().front()), the conversion from double truncates towards zero *)
Definition int_of (x : R) : Z := if Rltb x 0 then (- Rfloor (- x))%Z else Rfloor x.
