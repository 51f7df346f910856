(** Specification for C84, C85: structures that a program may use, and the sums that pair quantities are. *)
From Coq Require Import String.
From Verif Require Import RBase R3 Trig Sphere Lattice Crystal CrystalSpec StructDiff StructDiffSpec Evaluator EvaluatorSpec BondGen BondGenSpec World.
Import ListNotations.
Open Scope R_scope.
Notation length := List.length.

(** Surroundings that were set up properly: a lattice from valid parameters, symmetry operations with a sensible precision. *)
Definition good_env (e : envt) : Prop :=
  match e with
  | Isolated => True
  | Lattice_only L => lattice_made L
  | Symmetric L p ops => lattice_made L /\ fine L p /\ ops <> []
  end.
(** The structures of a program: objects at one address are the same, all are of one class, all are set up properly. *)
Record program (objs : adp -> Prop) : Prop := {
  p_heap : forall x y, objs x -> objs y -> heap_ok x y;
  p_kind : forall x y, objs x -> objs y -> same_kind x y;
  p_good : forall x, objs x -> good_env (env_of x)
}.
(** [sortf] is a sort by operator< of atoms *)
Definition sorts (sortf : list (catom * Z) -> list (catom * Z)) : Prop := forall l, sort_ok catom_ltb l (sortf l).

(** Quantities: values form a commutative group, contributions are odd in the scale, without masks every pair counts. *)
Record quantity_ok {cfg V} (Q : quantity cfg V) (opp : V -> V) : Prop := {
  qo_comm : forall a b, q_add Q a b = q_add Q b a;
  qo_assoc : forall a b c, q_add Q a (q_add Q b c) = q_add Q (q_add Q a b) c;
  qo_zero : forall a, q_add Q (q_zero Q) a = a;
  qo_opp : forall a, q_add Q a (opp a) = q_zero Q;
  qo_odd : forall c e z a b r d u, q_contrib Q c e (- z) a b r d u = opp (q_contrib Q c e z a b r d u);
  qo_mask : forall c i a j b, q_hasmask Q c = false -> q_mask Q c i a j b = true
}.
(** Contributions that are linear in the scale and the same for a bond and its reverse (when no atom has symmetry
    equivalents: the tensor of the far atom is its own), masks that are the same in both directions. *)
Record reversible {cfg V} (Q : quantity cfg V) : Prop := {
  qr_double : forall c e a b r d u, q_contrib Q c e 2 a b r d u = q_add Q (q_contrib Q c e 1 a b r d u) (q_contrib Q c e 1 a b r d u);
  qr_flip : forall c e z a b r d, q_contrib Q c e z a b r d (c_uij b) = q_contrib Q c e z b a (vscale (-1) r) d (c_uij a);
  qr_mask : forall c i a j b, q_mask Q c i a j b = q_mask Q c j b i a
}.
(** Masks that look at indices only when there is a pair mask *)
Definition mask_by_type {cfg V} (Q : quantity cfg V) : Prop :=
  forall c i a j b i' j', q_haspairmask Q c = false -> q_mask Q c i a j b = q_mask Q c i' a j' b.
Definition has_symmetry (e : envt) : Prop := match e with Symmetric _ _ _ => True | _ => False end.

Section Sum.
  Context {cfg V : Type} (Q : quantity cfg V).
  Definition qsum (l : list V) : V := fold_right (q_add Q) (q_zero Q) l.
  Definition atom_at (x : adp) (i : nat) : catom := nth i (atoms_of x) catom0.
  (** [P i j] lists, each once, the images of atom j in the limits seen from atom i *)
  Definition neighbours (c : cfg) (x : adp) (P : nat -> nat -> list image) : Prop :=
    let (cls, M) := createBondGenerator x in
    forall i j, (i < length (atoms_of x))%nat -> (j < length (atoms_of x))%nat ->
      NoDup (P i j) /\ forall y, In y (P i j) <-> image_ok cls M [j] y /\ in_range (q_rmin Q c) (q_rmax Q c) (image_distance cls M i [j] y).
  (** contribution of atom i and all images of atom j *)
  Definition pair_sum (c : cfg) (x : adp) (P : nat -> nat -> list image) (z : Z) (i j : nat) : V :=
    let (cls, M) := createBondGenerator x in
    if q_mask Q c i (atom_at x i) j (atom_at x j) then
      qsum (map (fun y => let b := bond_at cls M i [j] y in q_contrib Q c (env_of x) z (atom_at x i) (atom_at x j) (b_r01 b) (b_distance b) (b_u1 b)) (P i j))
    else q_zero Q.
  (** the sum over all ordered pairs of atoms *)
  Definition sum_all (c : cfg) (x : adp) (P : nat -> nat -> list image) : V :=
    let n := length (atoms_of x) in
    qsum (map (fun i => qsum (map (fun j => pair_sum c x P 1 i j) (seq 0 n))) (seq 0 n)).
End Sum.
