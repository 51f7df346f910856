(** Specification vocabulary for the masks of PairQuantity. *)
From Verif Require Import Base AList Masks.
From Coq Require Import String List Bool.
Import ListNotations.
Open Scope Z_scope.

(** The iteration orders passed to setStructure are some enumeration of the containers. *)
Definition order_ok (s : pq) (o : mop) : Prop :=
  match o with
  | SetStru _ so to => Permutation (siteall s) so /\ Permutation (tmask s) to
  | _ => True
  end.

(** Every state reachable by public mask operations from a new object. *)
Inductive reach : pq -> Prop :=
| reach0 : reach pq0
| reachS s o : reach s -> order_ok s o -> reach (mstep s o).

(** The unordered pair {i,j} is the unordered pair {k,l}. *)
Definition same_pair (i j k l : Z) : Prop := (i = k /\ j = l) \/ (i = l /\ j = k).

(** Index [l] names a site of the current structure. *)
Definition is_site (s : pq) (l : Z) : Prop := 0 <= l < Z.of_nat (countSites s).

(** No two "site with everything" masks contradict each other; same for types. *)
Definition cf_sites (s : pq) : Prop :=
  forall k k' m m', In (k, m) (siteall s) -> In (k', m') (siteall s) -> m = m'.
Definition cf_types (s : pq) : Prop :=
  forall a b m m', In (ssort2 a ALLATOMSSTR, m) (tmask s) ->
                   In (ssort2 b ALLATOMSSTR, m') (tmask s) -> m = m'.

(** States reached without ever holding contradictory wildcard masks. *)
Inductive cfreach : pq -> Prop :=
| cfreach0 : cfreach pq0
| cfreachS s o : cfreach s -> order_ok s o ->
    cf_sites (mstep s o) -> cf_types (mstep s o) -> cfreach (mstep s o).

(** Two states show the same masks to the user. *)
Definition same_masks (s s' : pq) : Prop :=
  (forall i j, getPairMask s i j = getPairMask s' i j) /\
  (forall a b, getTypeMask s a b = getTypeMask s' a b).

(** The wildcard masks of types [a] and [b] contradict each other and no mask is set for the pair
    itself. *)
Definition type_conflict (s : pq) (a b : string) : Prop :=
  exists m, ~ In (ssort2 a b) (akeys (tmask s)) /\
    In (ssort2 a ALLATOMSSTR, m) (tmask s) /\ In (ssort2 b ALLATOMSSTR, negb m) (tmask s).

(** Site [i] exists in the list of site types and has type [t]. *)
Definition site_type (tps : list string) (i : Z) (t : string) : Prop :=
  0 <= i /\ nth_error tps (Z.to_nat i) = Some t.
