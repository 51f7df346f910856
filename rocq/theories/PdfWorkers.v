(** The PDF calculators on a structure with the work split among several calculators and their values merged.
    Source: src/diffpy/srreal/PairQuantity.cpp, PQEvaluator.cpp, BaseDebyeSum.cpp, DebyePDFCalculator.cpp, PDFCalculator.cpp. *)
From Verif Require Merge.
From Verif Require Import RBase R3 StructDiff Evaluator PdfGrid Debye BondGen World Visited Shares.
Import ListNotations.
Open Scope R_scope.

(** PQEvaluator.cpp:96-128 the pairs, with scales, of worker [k] of [N] as addPairContribution reads them *)
Definition worker_pairs (outer : nat -> nat -> bool) (w : pwmodel) (masked : bool) (mask : nat -> nat -> bool) (full : bool) (lo hi : R) (x : adp) (k N : nat) : list (pbond * Z) :=
  map (fun e => (pbond_at w x (fst e), snd e)) (share outer lo hi masked mask full x k N).
(** PairQuantity.cpp:61-66, 109-115 eval(stru) of a calculator set up for worker [k] of [N] by setupParallelRun and the array in its
    getParallelData; PairQuantity.cpp:96-106, 348-374 the merge into a calculator whose value is [v] and was just reset. A worker
    that throws sends nothing. *)
Definition merged_value (cnt : Z) (nf : nat) (v : list R) (N : nat) (parts : list (list R)) : list R :=
  Merge.mval (Merge.merge_all Rplus (fun v => v) parts (Z.of_nat N) (Merge.resetValue 0 {| Merge.mval := v; Merge.mcount := cnt; Merge.nfinish := nf |})).

(** DebyePDFCalculator: the worker is the calculator [d] *)
Definition debye_worker (outer : nat -> nat -> bool) (w : pwmodel) (masked : bool) (mask : nat -> nat -> bool) (full : bool) (x : adp) (d : deb) (k N : nat) : outcome deb :=
  andthen (Debye.setStructure (debye_view x) d) (fun y =>
  Debye.addPairs y (worker_pairs outer w masked mask full (fst (Debye.bondLimits y)) (snd (Debye.bondLimits y)) x k N)).
(** [d]: the calculator that merges, [ds k]: that of worker [k]; [order]: in which the workers report; DebyePDFCalculator.cpp:266-271
    and BaseDebyeSum.cpp:159-164 reset the value in setStructure *)
Definition debye_merged (outer : nat -> nat -> bool) (w : pwmodel) (masked : bool) (mask : nat -> nat -> bool) (full : bool) (x : adp) (d : deb) (ds : nat -> deb)
    (cnt : Z) (nf : nat) (N : nat) (order : list nat) : outcome deb :=
  andthen (Debye.setStructure (debye_view x) d) (fun m =>
  Ok (with_dval m (merged_value cnt nf (dval m) N
    (flat_map (fun k => match debye_worker outer w masked mask full x (ds k) k N with Ok y => [dval y] | _ => [] end) order)))).

(** PDFCalculator *)
Definition pdf_worker (outer : nat -> nat -> bool) (w : pwmodel) (masked : bool) (mask : nat -> nat -> bool) (full : bool) (x : adp) (c : pdfc) (k N : nat) : outcome pdfc :=
  let y := PdfGrid.setStructure (pdf_view w x) c in
  PdfGrid.addPairs y (worker_pairs outer w masked mask full (fst (PdfGrid.bondLimits y)) (snd (PdfGrid.bondLimits y)) x k N).
(** PDFCalculator.cpp:486-503 resets the value *)
Definition pdf_merged (outer : nat -> nat -> bool) (w : pwmodel) (masked : bool) (mask : nat -> nat -> bool) (full : bool) (x : adp) (c : pdfc) (cs : nat -> pdfc)
    (cnt : Z) (nf : nat) (N : nat) (order : list nat) : outcome pdfc :=
  let m := PdfGrid.setStructure (pdf_view w x) c in
  Ok (with_value m (merged_value cnt nf (mvalue m) N
    (flat_map (fun k => match pdf_worker outer w masked mask full x (cs k) k N with Ok y => [mvalue y] | _ => [] end) order))).
