(** Property C11: merging of parallel data. *)
From Verif Require Import Base Merge MergeSpec MergeProofs.
Open Scope Z_scope.

(** C11: whatever sequence of arrays is merged after a reset, wrong sizes included, the first [ncpu] arrays of
    the right size are added up element by element, nothing else changes the value, the counter says how many were
    accepted, and finishValue runs exactly once, when the counter reaches [ncpu]. *)
Theorem C11_merge_protocol : forall (D : Type) (dplus : D -> D -> D) (finish : list D -> list D)
    (x : mst) (ps : list (list D)) (ncpu : Z) (d : D),
  0 <= mcount x < ncpu ->
  let n := length (mval x) in
  let acc := accepted n (Z.to_nat (ncpu - mcount x)) ps in
  let y := merge_all dplus finish ps ncpu x in
  mcount y = mcount x + Z.of_nat (length acc) /\
  exists v, length v = n /\ (forall i, (i < n)%nat -> nth i v d = column dplus (mval x) acc i d) /\
    (if mcount y =? ncpu then mval y = finish v /\ nfinish y = S (nfinish x)
     else mval y = v /\ nfinish y = nfinish x).
Proof. exact @merge_protocol. Qed.
Print Assumptions C11_merge_protocol.

(** C11: after resetValue, merging one array of the right size per CPU gives their sums, finished once,
    whatever value and count the object had before. *)
Theorem C11_reset_and_merge : forall (D : Type) (dplus : D -> D -> D) (dzero : D) (finish : list D -> list D) (x : mst) (ps : list (list D)),
  ps <> [] -> Forall (fun p => length p = length (mval x)) ps ->
  let ncpu := Z.of_nat (length ps) in
  let y := merge_all dplus finish ps ncpu (resetValue dzero x) in
  mcount y = ncpu /\ nfinish y = S (nfinish x) /\
  exists v, mval y = finish v /\ length v = length (mval x) /\
    forall i, (i < length (mval x))%nat -> nth i v dzero = fold_left (fun acc p => dplus acc (nth i p dzero)) ps dzero.
Proof. exact @merge_after_reset. Qed.
Print Assumptions C11_reset_and_merge.

(** C11: one merge too many and an array of another size are errors that change nothing. *)
Theorem C11_merge_errors : forall (D : Type) (dplus : D -> D -> D) (finish : list D -> list D) (x : mst) (p : list D) (ncpu : Z),
  (ncpu <= mcount x -> mergeParallelData dplus finish p ncpu x = Throw RuntimeError x) /\
  (mcount x < ncpu -> length p <> length (mval x) -> mergeParallelData dplus finish p ncpu x = Throw InvalidArgument x).
Proof. exact @merge_rejects. Qed.
Print Assumptions C11_merge_errors.

(** C11: the order in which the workers report does not matter. *)
Theorem C11_merge_order : forall (D : Type) (dplus : D -> D -> D) (d : D),
  (forall a b, dplus a b = dplus b a) -> (forall a b c, dplus a (dplus b c) = dplus (dplus a b) c) ->
  forall ps qs start i, Permutation ps qs -> column dplus start ps i d = column dplus start qs i d.
Proof. exact @column_perm. Qed.
Print Assumptions C11_merge_order.

Example C11_nonvacuous :
  let x0 := {| mval := [7; 7]; mcount := 5; nfinish := 0%nat |} in
  let y := merge_all Z.add (@rev Z) [[1; 2]; [9]; [10; 20]; [100; 200]; [5; 5]] 3 (resetValue 0 x0) in
  y = {| mval := [222; 111]; mcount := 3; nfinish := 1%nat |}.
Proof. reflexivity. Qed.
