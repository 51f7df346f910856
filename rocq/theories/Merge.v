(** Model of the merging of parallel results in PairQuantity.
    Source: src/diffpy/srreal/PairQuantity.cpp:69-75, 96-106, 348-352, 362-374, OverlapCalculator.cpp:449-456,
    BondCalculator.cpp:223-231. *)
From Verif Require Import Base.
Open Scope Z_scope.

Section Merge.
  Context {D : Type} (dplus : D -> D -> D) (dzero : D).
  (** the data and the effect of finishValue; PairQuantity.hpp:96 does nothing, BondCalculator.cpp:234-252
      sorts.  The model only counts the calls and applies the function. *)
  Context (finish : list D -> list D).

  Record mst := {
    mval : list D;            (* mvalue *)
    mcount : Z;               (* mmergedvaluescount *)
    nfinish : nat             (* calls of finishValue so far *)
  }.

  (** transform(..., plus<double>()), PairQuantity.cpp:372-373; both ranges have the size of the first. *)
  Fixpoint zip_plus (a b : list D) : list D :=
    match a, b with
    | x :: r, y :: s => dplus x y :: zip_plus r s
    | _, _ => []
    end.

  (** PairQuantity.cpp:348-352 resetValue *)
  Definition resetValue (x : mst) : mst :=
    {| mval := map (fun _ => dzero) (mval x); mcount := 0; nfinish := nfinish x |}.
  (** PairQuantity.cpp:362-374 executeParallelMerge; [p] is the array read back from pdata (the archive is the
      one written by getParallelData, PairQuantity.cpp:109-115; a corrupt archive throws before any change). *)
  Definition executeParallelMerge (p : list D) (x : mst) : outcome mst :=
    if negb (Nat.eqb (length p) (length (mval x))) then Throw InvalidArgument x
    else Ok {| mval := zip_plus (mval x) p; mcount := mcount x; nfinish := nfinish x |}.
  Definition finishValue (x : mst) : mst :=
    {| mval := finish (mval x); mcount := mcount x; nfinish := S (nfinish x) |}.
  (** PairQuantity.cpp:96-106 mergeParallelData *)
  Definition mergeParallelData (p : list D) (ncpu : Z) (x : mst) : outcome mst :=
    if ncpu <=? mcount x then Throw RuntimeError x
    else match executeParallelMerge p x with
         | Throw e y => Throw e y
         | UB => UB
         | Ok y =>
             let y := {| mval := mval y; mcount := mcount y + 1; nfinish := nfinish y |} in
             Ok (if mcount y =? ncpu then finishValue y else y)
         end.
  (** a sequence of merge calls; an exception leaves the object as given *)
  Fixpoint merge_all (ps : list (list D)) (ncpu : Z) (x : mst) : mst :=
    match ps with
    | [] => x
    | p :: r => merge_all r ncpu (match mergeParallelData p ncpu x with Ok y | Throw _ y => y | UB => x end)
    end.
End Merge.
