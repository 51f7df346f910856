(** Property C86: half sums of crystals with a space group. *)
From Coq Require Import String.
From Verif Require Import RBase R3 Trig Sphere Lattice LatticeSpec Crystal CrystalSpec CrystalExample StructDiff StructDiffSpec Evaluator EvaluatorSpec
  BondGen BondGenSpec World WorldSpec WorldAtoms WorldMain OrbitSpec OrbitGroup OrbitSum OrbitWorld OrbitTensor OrbitExample.
Import ListNotations.
Open Scope R_scope.
Notation length := List.length.

(** C86: contributions of atoms i and j in a crystal, each with its multiplicity, are the same seen from i or from j. *)
Theorem C86_both_ends : forall (cfg V : Type) (Q : quantity cfg V) (opp : V -> V), quantity_ok Q opp ->
  forall h, invariant_pairs Q h -> forall tensors, tensors = true \/ no_tensors h ->
  forall objs : adp -> Prop, program objs -> (forall x, objs x -> orderly tensors x) ->
  forall (x : adp) (c : cfg) (z : Z) (i j : nat) (P : nat -> nat -> list image), objs x -> neighbours Q c x P -> (i < length (atoms_of x))%nat -> (j < length (atoms_of x))%nat ->
  pair_sum Q c x P z i j = pair_sum Q c x P z j i.
Proof.
  intros cfg V Q opp HQ h HP tensors HT objs HO HG x c z i j P Hx HN Hi Hj.
  exact (pair_both_ends objs isort HO Q opp HQ h HP tensors HT HG (exist _ x Hx) c z i j P HN Hi Hj).
Qed.
Print Assumptions C86_both_ends.

(** C86: isolated, periodic and crystal structures, half sums, full sums and histories that switch between them, any
    evaluator: eval(s) is the sum over all ordered pairs of atoms and all images in the limits. *)
Theorem C86_any_sum : forall (cfg V : Type) (Q : quantity cfg V) (opp : V -> V), quantity_ok Q opp ->
  forall h, invariant_pairs Q h -> forall tensors, tensors = true \/ no_tensors h ->
  forall (objs : adp -> Prop) (sortf : list (catom * Z) -> list (catom * Z)), program objs -> (forall x, objs x -> orderly tensors x) -> sorts sortf ->
  forall (close : V -> V -> bool) (fixed : bool) (c : cfg) (e : wstru objs) (t : evtype) (full : bool) (ops : list (op (wstru objs) cfg)) (s : wstru objs),
  fixed = true \/ mask_by_type Q -> Forall safe_op ops ->
  let K := pair_calc objs sortf Q in
  let x := run K close (ops ++ [OpEval s]) (init K c e t full fixed 0 1) in
  forall P, neighbours Q (cf x) (wadp objs s) P -> val x = sum_all Q (cf x) (wadp objs s) P.
Proof.
  intros cfg V Q opp HQ h HP tensors HT objs sortf HO HG HS close fixed c e t full ops s HF Hs K x P HN.
  exact (orbit_history objs sortf HO HS Q opp HQ h HP tensors HT HG close fixed c e t full ops s P HF Hs HN).
Qed.
Print Assumptions C86_any_sum.

(** C86: the values of N workers with the same history, added in any order. *)
Theorem C86_parallel : forall (cfg V : Type) (Q : quantity cfg V) (opp : V -> V), quantity_ok Q opp ->
  forall h, invariant_pairs Q h -> forall tensors, tensors = true \/ no_tensors h ->
  forall (objs : adp -> Prop) (sortf : list (catom * Z) -> list (catom * Z)), program objs -> (forall x, objs x -> orderly tensors x) -> sorts sortf ->
  forall (close : V -> V -> bool) (fixed : bool) (N : nat) (order : list nat) (c : cfg) (e : wstru objs) (t : evtype) (full : bool) (ops : list (op (wstru objs) cfg)) (s : wstru objs),
  (1 <= N)%nat -> Permutation order (seq 0 N) -> fixed = true \/ mask_by_type Q -> Forall safe_op ops ->
  let K := pair_calc objs sortf Q in
  let x k := run K close (ops ++ [OpEval s]) (init K c e t full fixed k N) in
  forall P, neighbours Q (cf (x O)) (wadp objs s) P -> fold_left (fun v k => q_add Q v (val (x k))) order (q_zero Q) = sum_all Q (cf (x O)) (wadp objs s) P.
Proof.
  intros cfg V Q opp HQ h HP tensors HT objs sortf HO HG HS close fixed N order c e t full ops s H1 Hp HF Hs K x P HN.
  exact (orbit_merged objs sortf HO HS Q opp HQ h HP tensors HT HG close fixed N order c e t full ops s P H1 Hp HF Hs HN).
Qed.
Print Assumptions C86_parallel.

(** C86: tensors of equivalent atoms turn with the operations if the operations only mix axes of equal reciprocal length,
    the first operation is a translation and each tensor given has the symmetry of its site. *)
Theorem C86_tensors : forall (L : lattice) (eps : R) (o : symop) (rest : list symop) (a : catom), lattice_made L -> fine L eps ->
  space_group L (o :: rest) -> op_R o = mid -> (forall q, In q (o :: rest) -> axes_match L (op_R q)) ->
  exact_site L eps (o :: rest) a -> site_symmetric L (o :: rest) a -> tensors_follow L eps (o :: rest) a.
Proof. intros L eps o rest a LM F G E0 HA EX SS. exact (follow_holds L eps (o :: rest) LM F G o rest eq_refl E0 HA a EX SS). Qed.
Print Assumptions C86_tensors.

(** C86: two crystals with a fourfold axis and tensors, an example of a quantity that looks at them; one that does not. *)
Example C86_nonvacuous : program metals /\ (forall x, metals x -> orderly true x) /\ sorts isort /\
  quantity_ok spread Ropp /\ invariant_pairs spread hspread /\ mask_by_type spread /\ metals (Adp 1 (StructDiff.Crystal lattice0 prec0 quad [iron; nickel])).
Proof.
  split; [exact metals_program|]. split; [exact metals_orderly|]. split; [exact isort_sorts|]. split; [exact spread_ok|]. split; [exact spread_pairs|]. split; [|now right].
  intros c i a j b i' j' _. reflexivity.
Qed.
