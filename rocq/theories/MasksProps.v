(** Properties C04-C08: masks of PairQuantity. *)
From Verif Require Import Base AList Masks MasksSpec MasksProofs.
From Coq Require Import String List Bool.
Import ListNotations.
Open Scope Z_scope.
Open Scope string_scope.

(** C04 *)
Theorem C04_pair_mask_symmetric : forall s i j, getPairMask s i j = getPairMask s j i.
Proof. exact getPairMask_sym. Qed.
Print Assumptions C04_pair_mask_symmetric.

(** C05: one pair. *)
Theorem C05_setPairMask_single : forall s i j m,
  0 <= i -> 0 <= j ->
  (forall k l, same_pair k l i j -> getPairMask (setPairMask s i j m) k l = m) /\
  (forall k l, ~ same_pair k l i j -> getPairMask (setPairMask s i j m) k l = getPairMask s k l).
Proof. exact setPair_single. Qed.
Print Assumptions C05_setPairMask_single.

(** C05: one site with all (any negative index counts as ALLATOMSINT). *)
Theorem C05_setPairMask_site_all : forall s i j k m,
  (0 <= i /\ j < 0 /\ k = i) \/ (i < 0 /\ 0 <= j /\ k = j) ->
  (forall l, is_site s l -> getPairMask (setPairMask s i j m) k l = m) /\
  (forall a b, a <> k -> b <> k -> getPairMask (setPairMask s i j m) a b = getPairMask s a b).
Proof. exact setPair_all_one. Qed.
Print Assumptions C05_setPairMask_site_all.

(** C05: all with all is maskAllPairs, after which every pair and type mask is [m]. *)
Theorem C05_setPairMask_all_all : forall s i j m, i < 0 -> j < 0 ->
  setPairMask s i j m = maskAllPairs s m.
Proof. exact setPair_all_all. Qed.
Print Assumptions C05_setPairMask_all_all.
Theorem C05_maskAllPairs : forall s m a b, getPairMask (maskAllPairs s m) a b = m.
Proof. exact maskAll_get. Qed.
Print Assumptions C05_maskAllPairs.
Theorem C05_maskAllPairs_types : forall s m a b, getTypeMask (maskAllPairs s m) a b = m.
Proof. exact maskAll_type. Qed.
Print Assumptions C05_maskAllPairs_types.

(** C05: a site-with-all mask extends to every site of a later structure ... *)
Theorem C05_site_all_persists : forall s tps so to i j m,
  reach s -> tmask s = [] -> Permutation (siteall s) so ->
  In (i, m) (siteall s) -> 0 <= j < Z.of_nat (List.length tps) ->
  (forall m', In (j, m') (siteall s) -> m' = m) ->
  getPairMask (setStructure s tps so to) i j = m.
Proof. exact sites_persist. Qed.
Print Assumptions C05_site_all_persists.

(** ... and the other pairs keep their masks. *)
Theorem C05_setStructure_frame : forall s tps so to i j,
  tmask s = [] -> Permutation (siteall s) so ->
  ~ In i (akeys (siteall s)) -> ~ In j (akeys (siteall s)) ->
  getPairMask (setStructure s tps so to) i j = getPairMask s i j.
Proof. exact sites_unaffected. Qed.
Print Assumptions C05_setStructure_frame.

(** C05/C07, limit of the guarantee: contradictory site-with-all masks make the mask of the pair depend on the
    iteration order of a hash container. *)
Theorem C05_setStructure_deterministic_refuted : exists s tps so1 so2 i j,
  reach s /\ Permutation (siteall s) so1 /\ Permutation (siteall s) so2 /\ tmask s = [] /\
  getPairMask (setStructure s tps so1 []) i j <> getPairMask (setStructure s tps so2 []) i j.
Proof. exact site_order_dependent. Qed.
Print Assumptions C05_setStructure_deterministic_refuted.

Example C05_nonvacuous :
  let s := setPairMask two_sites 0 (-1) false in
  reach s /\ tmask s = [] /\ In (0, false) (siteall s) /\ is_site s 1 /\
  getPairMask s 0 1 = false /\ getPairMask s 1 1 = true /\
  getPairMask (setStructure s ["A"; "B"; "C"] (siteall s) []) 2 0 = false.
Proof.
  cbv zeta. split; [|split; [|split; [|split; [|split; [|split]]]]]; try reflexivity.
  - change (setPairMask two_sites 0 (-1) false) with (mstep two_sites (SetPair 0 (-1) false)).
    constructor; [apply two_sites_reach|exact I].
  - now left.
  - unfold is_site; cbn. split; [discriminate|reflexivity].
Qed.

(** C06 *)
Theorem C06_invertMask_pairs : forall s i j, getPairMask (invertMask s) i j = negb (getPairMask s i j).
Proof. exact invert_pair. Qed.
Print Assumptions C06_invertMask_pairs.
Theorem C06_invertMask_types : forall s a b, getTypeMask (invertMask s) a b = negb (getTypeMask s a b).
Proof. exact invert_type. Qed.
Print Assumptions C06_invertMask_types.
Theorem C06_invertMask_involutive : forall s, same_masks (invertMask (invertMask s)) s.
Proof. exact invert_invert. Qed.
Print Assumptions C06_invertMask_involutive.

(** C07: at setStructure the pair masks become the type masks, whatever the container order. *)
Theorem C07_type_masks_determine_pair_masks : forall s tps so to i j ti tj,
  reach s -> tmask s <> [] -> Permutation (tmask s) to ->
  ~ In ALLATOMSSTR tps -> site_type tps i ti -> site_type tps j tj ->
  ~ type_conflict s ti tj ->
  getPairMask (setStructure s tps so to) i j = getTypeMask s ti tj.
Proof. exact types_determine. Qed.
Print Assumptions C07_type_masks_determine_pair_masks.

(** C07: setTypeMask for two types sets this pair of types only. *)
Theorem C07_setTypeMask_single : forall s a b m,
  reach s -> a <> ALLATOMSSTR -> b <> ALLATOMSSTR -> a <> UPCASEALL -> b <> UPCASEALL ->
  getTypeMask (setTypeMask s a b m) a b = m /\
  (forall c d, ssort2 c d <> ssort2 a b -> getTypeMask (setTypeMask s a b m) c d = getTypeMask s c d) /\
  (forall i j, getPairMask (setTypeMask s a b m) i j = getPairMask s i j).
Proof. exact setType_get. Qed.
Print Assumptions C07_setTypeMask_single.

(** C07: setTypeMask with "all" or "ALL" overrides all earlier masks of the type. *)
Theorem C07_setTypeMask_all : forall s a all m,
  reach s -> a <> ALLATOMSSTR -> a <> UPCASEALL -> all = ALLATOMSSTR \/ all = UPCASEALL ->
  (forall x, getTypeMask (setTypeMask s a all m) a x = m) /\
  (forall c d, c <> a -> d <> a -> getTypeMask (setTypeMask s a all m) c d = getTypeMask s c d) /\
  (forall i j, getPairMask (setTypeMask s a all m) i j = getPairMask s i j).
Proof. exact setType_all_get. Qed.
Print Assumptions C07_setTypeMask_all.

(** C07: symmetry of type masks without contradictory wildcards ... *)
Theorem C07_type_mask_symmetric_partial : forall s a b,
  reach s -> ~ type_conflict s a b -> getTypeMask s a b = getTypeMask s b a.
Proof. exact typemask_sym. Qed.
Print Assumptions C07_type_mask_symmetric_partial.

(** ... and its failure with them, in the code as it is. *)
Theorem C07_type_mask_symmetric_refuted : exists s a b, reach s /\ getTypeMask s a b <> getTypeMask s b a.
Proof. exact type_asym. Qed.
Print Assumptions C07_type_mask_symmetric_refuted.
Theorem C07_type_masks_order_independent_refuted : exists s tps to1 to2 i j,
  reach s /\ Permutation (tmask s) to1 /\ Permutation (tmask s) to2 /\
  getPairMask (setStructure s tps [] to1) i j <> getPairMask (setStructure s tps [] to2) i j.
Proof. exact type_order_dependent. Qed.
Print Assumptions C07_type_masks_order_independent_refuted.

Example C07_nonvacuous :
  let s := steps pq0 [SetType "Na" "all" false; SetType "Cl" "Na" true] in
  reach s /\ tmask s <> [] /\ ~ type_conflict s "Na" "Cl" /\
  site_type ["Na"; "Cl"; "Na"] 1 "Cl" /\ ~ In ALLATOMSSTR ["Na"; "Cl"; "Na"] /\
  getTypeMask s "Na" "Cl" = true /\ getTypeMask s "Na" "Na" = false /\ getTypeMask s "Cl" "Cl" = true /\
  getPairMask (setStructure s ["Na"; "Cl"; "Na"] [] (tmask s)) 0 2 = false.
Proof.
  cbv zeta. split; [|split; [|split; [|split; [|split; [|split; [|split; [|split]]]]]]]; try reflexivity.
  - apply reach_steps_nostru. intros o Ho t a b ->. cbn in Ho. intuition congruence.
  - discriminate.
  - intros (m & H & _). apply H. vm_compute. auto.
  - split; [vm_compute; discriminate|reflexivity].
  - intros [H|[H|[H|[]]]]; discriminate H.
Qed.

(** C08: without contradictory wildcard masks, an operation that does not click leaves every mask as it was. *)
Theorem C08_mask_change_clicks_partial : forall s o,
  cfreach s -> (forall tps so to, o <> SetStru tps so to) ->
  clicks (mstep s o) = clicks s -> same_masks s (mstep s o).
Proof. exact noclick_same. Qed.
Print Assumptions C08_mask_change_clicks_partial.

(** C08 is false in general: two histories in which a mask changes and the ticker does not. *)
Theorem C08_pair_mask_change_clicks_refuted : exists s i j m k l,
  reach s /\ clicks (setPairMask s i j m) = clicks s /\
  getPairMask (setPairMask s i j m) k l <> getPairMask s k l.
Proof. exact site_noclick. Qed.
Print Assumptions C08_pair_mask_change_clicks_refuted.
Theorem C08_type_mask_change_clicks_refuted : exists s a b m x y,
  reach s /\ clicks (setTypeMask s a b m) = clicks s /\
  getTypeMask (setTypeMask s a b m) x y <> getTypeMask s x y.
Proof. exact type_noclick. Qed.
Print Assumptions C08_type_mask_change_clicks_refuted.

Example C08_nonvacuous : exists s o, cfreach s /\ siteall s <> [] /\
  (forall tps so to, o <> SetStru tps so to) /\ clicks (mstep s o) = clicks s.
Proof.
  exists (mstep two_sites (SetPair 0 (-1) false)), (SetPair 0 1 false). repeat split; try discriminate.
  constructor.
  - change two_sites with (mstep pq0 (SetStru ["A"; "B"] [] [])). constructor; [constructor| | |].
    + split; reflexivity.
    + intros ? ? ? ? [].
    + intros ? ? ? ? [].
  - exact I.
  - cbn. intros k k' m m' [[= <- <-]|[]] [[= <- <-]|[]]; reflexivity.
  - intros ? ? ? ? [].
Qed.

(** C55: when the calculator reports no mask, so that the evaluators skip the mask tests, every pair and every
    pair of types is in use, now and after a change of structure. *)
Theorem C55_no_mask_reported_means_no_mask : forall s, hasMask s = false ->
  (forall i j, getPairMask s i j = true) /\ (forall a b, getTypeMask s a b = true) /\
  (forall tps so to i j, Permutation (siteall s) so -> Permutation (tmask s) to ->
     getPairMask (setStructure s tps so to) i j = true).
Proof. exact hasMask_complete. Qed.
Print Assumptions C55_no_mask_reported_means_no_mask.
(** C55: no pair mask reported means that any masking in force is by types. *)
Theorem C55_no_pair_mask_reported : forall s, hasPairMask s = false ->
  (forall i j, getPairMask s i j = true) \/ tmask s <> [].
Proof. exact hasPairMask_complete. Qed.
Print Assumptions C55_no_pair_mask_reported.
Example C55_nonvacuous :
  hasMask (steps pq0 [SetPair 0 1 false; SetType "Na" "Cl" false; MaskAll true]) = false /\
  hasMask (steps pq0 [SetPair 5 (-1) false]) = true.
Proof. split; reflexivity. Qed.
