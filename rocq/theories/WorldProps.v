(** Property C85: the value of a pair quantity for a structure is the sum over its pairs of neighbours. *)
From Coq Require Import String.
From Verif Require Import RBase R3 Trig Sphere SphereProofs Lattice LatticeSpec Crystal CrystalSpec CrystalExample StructDiff StructDiffSpec Evaluator EvaluatorSpec
  BondGen BondGenSpec World WorldSpec WorldAtoms WorldProofs WorldMain WorldFlip WorldTotal.
Import ListNotations.
Open Scope R_scope.
Notation length := List.length.

(** C85: the neighbours in the limits form finite lists. *)
Theorem C85_neighbours : forall (cfg V : Type) (Q : quantity cfg V) (c : cfg) (x : adp), good_env (env_of x) -> exists P, neighbours Q c x P.
Proof. exact @neighbours_exist. Qed.
Print Assumptions C85_neighbours.

(** C85: full sums. Isolated, periodic and crystal structures, any evaluator, after any history of evaluations and changes of
    the configuration: eval(s) is the sum over all ordered pairs of atoms and all images in the limits. *)
Theorem C85_full_sum : forall (cfg V : Type) (Q : quantity cfg V) (opp : V -> V), quantity_ok Q opp ->
  forall (objs : adp -> Prop) (sortf : list (catom * Z) -> list (catom * Z)), program objs -> sorts sortf ->
  forall (close : V -> V -> bool) (fixed : bool) (c : cfg) (e : wstru objs) (t : evtype) (ops : list (op (wstru objs) cfg)) (s : wstru objs),
  fixed = true \/ mask_by_type Q -> Forall safe_op ops -> Forall no_mode_change ops ->
  let K := pair_calc objs sortf Q in
  let x := run K close (ops ++ [OpEval s]) (init K c e t true fixed 0 1) in
  forall P, neighbours Q (cf x) (wadp objs s) P -> val x = sum_all Q (cf x) (wadp objs s) P.
Proof. intros cfg V Q opp HQ objs sortf HO HS close fixed c e t ops s HF Hs Hm K x P HN. apply (world_history Q opp HQ objs sortf HO HS close fixed c e t true ops s P); auto. left. auto. Qed.
Print Assumptions C85_full_sum.

(** C85: without symmetry operations and with contributions that are the same from both ends, half sums, full sums and
    histories that switch between them all give that sum. *)
Theorem C85_any_sum : forall (cfg V : Type) (Q : quantity cfg V) (opp : V -> V), quantity_ok Q opp -> reversible Q ->
  forall (objs : adp -> Prop) (sortf : list (catom * Z) -> list (catom * Z)), program objs -> (forall x, objs x -> ~ has_symmetry (env_of x)) -> sorts sortf ->
  forall (close : V -> V -> bool) (fixed : bool) (c : cfg) (e : wstru objs) (t : evtype) (full : bool) (ops : list (op (wstru objs) cfg)) (s : wstru objs),
  fixed = true \/ mask_by_type Q -> Forall safe_op ops ->
  let K := pair_calc objs sortf Q in
  let x := run K close (ops ++ [OpEval s]) (init K c e t full fixed 0 1) in
  forall P, neighbours Q (cf x) (wadp objs s) P -> val x = sum_all Q (cf x) (wadp objs s) P.
Proof. intros cfg V Q opp HQ HR objs sortf HO NS HS close fixed c e t full ops s HF Hs K x P HN. apply (world_history Q opp HQ objs sortf HO HS close fixed c e t full ops s P); auto. right. auto. Qed.
Print Assumptions C85_any_sum.

(** C85: the values of N workers with the same history, added in any order. *)
Theorem C85_parallel : forall (cfg V : Type) (Q : quantity cfg V) (opp : V -> V), quantity_ok Q opp ->
  forall (objs : adp -> Prop) (sortf : list (catom * Z) -> list (catom * Z)), program objs -> sorts sortf ->
  forall (close : V -> V -> bool) (fixed : bool) (N : nat) (order : list nat) (c : cfg) (e : wstru objs) (t : evtype) (full : bool) (ops : list (op (wstru objs) cfg)) (s : wstru objs),
  (1 <= N)%nat -> Permutation order (seq 0 N) -> fixed = true \/ mask_by_type Q -> Forall safe_op ops ->
  (full = true /\ Forall no_mode_change ops) \/ (reversible Q /\ forall x, objs x -> ~ has_symmetry (env_of x)) ->
  let K := pair_calc objs sortf Q in
  let x k := run K close (ops ++ [OpEval s]) (init K c e t full fixed k N) in
  forall P, neighbours Q (cf (x O)) (wadp objs s) P -> fold_left (fun v k => q_add Q v (val (x k))) order (q_zero Q) = sum_all Q (cf (x O)) (wadp objs s) P.
Proof. intros cfg V Q opp HQ objs sortf HO HS close fixed N order c e t full ops s H1 Hp HF Hs HM K x P HN. now apply (world_merged Q opp HQ objs sortf HO HS close fixed N order c e t full ops s P). Qed.
Print Assumptions C85_parallel.

(** C85: the bonds of a generator depend on the anchor, the sites and the limits in force, not on the calls made before. *)
Theorem C85_history : forall (x : adp) (lo hi : R) (i : nat) (sel : list nat) (f : nat) (g : BondGen.gen) (ops : list gop),
  good_env (env_of x) -> (i < length (atoms_of x))%nat -> (forall j, In j sel -> (j < length (atoms_of x))%nat) ->
  let cls := fst (createBondGenerator x) in let M := snd (createBondGenerator x) in
  grun cls M (sphere_points (slat M)) f (gen0 M) ops = BDone g ->
  settings_of M ops = {| s_anchor := Some i; s_sites := sel; s_rmin := lo; s_rmax := hi |} ->
  exists f0, forall f1, (f0 <= f1)%nat -> bonds cls M (sphere_points (slat M)) f1 g = Some (shown x lo hi i sel).
Proof.
  intros x lo hi i sel f g ops G Hi Hs. cbv zeta. rewrite shown_view, create_view. intros HR HE.
  apply (shown_history _ _ lo hi i sel f g ops); auto; [now apply view_ok| |]; rewrite view_sites; auto.
Qed.
Print Assumptions C85_history.

(** C85: equal base vectors make equal lattices (operator== of lattices compares nothing else). *)
Theorem C85_lattice_equality : forall L M : lattice, lattice_made L -> lattice_made M -> (lat_eqb L M = true <-> L = M).
Proof. intros L M HL HM. split; [now apply lat_eqb_spec|]. intros ->. unfold lat_eqb. now apply leqb_spec. Qed.
Print Assumptions C85_lattice_equality.

(** C85: a program with two crystals, a program with isolated atoms, a sort; a quantity: sum of distances times scale. *)
Definition carbon (p : vec) : catom := mkCA p mid "C"%string 1 true.
Definition crystals (x : adp) : Prop :=
  x = Adp 0 (StructDiff.Crystal lattice0 prec0 inversion [carbon (V3 (1 / 4) 0 0)]) \/ x = Adp 1 (StructDiff.Crystal lattice0 prec0 inversion [carbon (V3 (1 / 4) 0 0); carbon vzero]).
Definition clusters (x : adp) : Prop := x = Adp 0 (Atomic [carbon vzero; carbon (V3 1 0 0)]) \/ x = Adp 1 (Atomic [carbon vzero; carbon (V3 1 0 0); carbon (V3 0 2 0)]).
Definition lengths : quantity R R := {|
  q_zero := 0; q_add := Rplus; q_rmin := fun _ => 0; q_rmax := fun r => r; q_hasmask := fun _ => false; q_haspairmask := fun _ => false;
  q_mask := fun _ _ _ _ _ => true; q_contrib := fun _ _ z _ _ _ d _ => IZR z * d; q_outer := fun _ _ => true; q_stash := true |}.
Example C85_nonvacuous : program crystals /\ program clusters /\ (forall x, clusters x -> ~ has_symmetry (env_of x)) /\ sorts isort /\
  quantity_ok lengths Ropp /\ reversible lengths /\ mask_by_type lengths.
Proof.
  assert (LM : lattice_made lattice0) by now left.
  split; [|split; [|split; [|split; [|split; [|split]]]]].
  - split.
    + intros x y [-> | ->] [-> | ->]; cbn; (split; [intros E; try discriminate E; reflexivity|exact I]).
    + intros x y [-> | ->] [-> | ->]; exact I.
    + intros x [-> | ->]; cbn [env_of good_env]; (split; [exact LM|split; [apply fine0; unfold prec0; lra|discriminate]]).
  - split.
    + intros x y [-> | ->] [-> | ->]; cbn; (split; [intros E; try discriminate E; reflexivity|exact I]).
    + intros x y [-> | ->] [-> | ->]; exact I.
    + intros x [-> | ->]; exact I.
  - intros x [-> | ->] H; exact H.
  - exact isort_sorts.
  - split; cbn; intros; try lra; try rewrite opp_IZR; try lra.
  - split; cbn; intros; try lra; reflexivity.
  - intros c i a j b i' j' _. reflexivity.
Qed.
