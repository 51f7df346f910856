(** Specification for C46: what a symmetry expansion has to return. *)
From Coq Require Import String.
From Verif Require Import RBase R3 Trig Sphere Lattice LatticeSpec Crystal.
Import ListNotations.
Open Scope R_scope.
Notation length := List.length.

Definition iv (m n o : Z) : vec := V3 (IZR m) (IZR n) (IZR o).
(** two fractional positions that are the same modulo lattice translations *)
Definition same_site (u v : vec) : Prop := exists m n o : Z, u = vadd v (iv m n o).
(** two fractional positions that are at most [d] (a Cartesian length) apart modulo lattice translations *)
Definition near (L : lattice) (d : R) (u v : vec) : Prop :=
  exists m n o : Z, vdist (cartesian L u) (cartesian L (vadd v (iv m n o))) <= d.
(** A sensible symmetry precision: below half of the distance of any lattice planes. *)
Definition fine (L : lattice) (eps : R) : Prop :=
  0 <= eps /\ eps * vnorm (Lvar L) < 1 / 2 /\ eps * vnorm (Lvbr L) < 1 / 2 /\ eps * vnorm (Lvcr L) < 1 / 2.
(** images of a position under all operations *)
Definition images (ops : list symop) (x : vec) : list vec := map (fun o => vadd (mv (op_R o) x) (op_t o)) ops.

(** A grouping of positions: [g] gives a group number to each position. The leader of a group is its first member.
    Every position is near the leader of its group, and leaders of different groups are not near each other. *)
Definition leader (g : list nat) (k f : nat) : Prop :=
  nth_error g f = Some k /\ forall j, (j < f)%nat -> nth_error g j <> Some k.
Definition grouping (L : lattice) (eps : R) (imgs : list vec) (g : list nat) : Prop :=
  length g = length imgs /\
  (forall i u k, nth_error imgs i = Some u -> nth_error g i = Some k ->
     exists f v, leader g k f /\ nth_error imgs f = Some v /\ near L eps u v) /\
  (forall k f u k' f' u', leader g k f -> nth_error imgs f = Some u -> leader g k' f' -> nth_error imgs f' = Some u' ->
     k <> k' -> ~ near L eps u u').
Definition members (g : list nat) (k : nat) (imgs : list vec) : list vec :=
  map snd (filter (fun p => (fst p =? k)%nat) (combine g imgs)).
Definition vsum (l : list vec) : vec := fold_left vadd l vzero.
Definition mean (l : list vec) : vec := vscale (/ INR (length l)) (vsum l).

(** Positions that coincide modulo the lattice or are clearly apart: the images of a position that is exactly
    special or clearly general. *)
Definition separated (L : lattice) (eps : R) (imgs : list vec) : Prop :=
  forall u v, In u imgs -> In v imgs -> same_site u v \/ ~ near L eps u v.
(** [reps] picks each of the positions of [imgs] once, modulo the lattice *)
Definition distinct_sites (imgs reps : list vec) : Prop :=
  incl reps imgs /\ (forall u, In u imgs -> exists v, In v reps /\ same_site u v) /\
  ForallOrdPairs (fun u v => ~ same_site u v) reps.
(** no coordinate within [eps] of a face of the unit cell, nor in the zone where ucvFractional snaps *)
Definition interior1 (d x : R) : Prop := d <= x - IZR (Rfloor x) < 1 - d /\ x - IZR (Rfloor x) < 1 - / 67108864.
Definition interior (L : lattice) (eps : R) (u : vec) : Prop :=
  interior1 (eps * vnorm (Lvar L)) (vx u) /\ interior1 (eps * vnorm (Lvbr L)) (vy u) /\ interior1 (eps * vnorm (Lvcr L)) (vz u).

(** ** C73: queries after a history of calls *)
(** what getEquivalentAtoms has to return: the expansion of the sites, operations, lattice and precision in force *)
Definition current (c : crystal) : list (list catom) := map (expand_site (x_lat c) (x_ops c) (x_prec c)) (x_atoms c).
Definition answers (c : crystal) : Prop := forall i,
  snd (xstep c (XEquiv i)) = XAtomsOut (nth i (current c) []) /\ snd (xstep c (XMult i)) = XInt (length (nth i (current c) [])).
(** calls that start anew: they recompute or discard what was stored *)
Definition refreshes (k : xcall) : Prop := match k with XUpdate | XClearOps | XAddOp _ => True | _ => False end.
Definition discards (k : xcall) : Prop := match k with XClearOps | XAddOp _ => True | _ => False end.
(** calls that change sites or lattice *)
Definition edits (k : xcall) : Prop := match k with XAtoms _ | XLattice _ => True | _ => False end.
(** calls that need the equivalent positions *)
Definition asks (k : xcall) : Prop := match k with XUpdate | XEquiv _ | XMult _ => True | _ => False end.

(** the sites, lattice, operations and precision in force, and how calls change them *)
Definition x_conf (c : crystal) := (x_atoms c, x_lat c, x_ops c, x_prec c).
Definition conf_step (x : list catom * lattice * list symop * R) (k : xcall) :=
  let '(a, L, o, e) := x in
  match k with
  | XAtoms l => (l, L, o, e) | XLattice L' => (a, L', o, e)
  | XPrecision e' => (a, L, o, if Rltb (/ 67108864) e' then e' else e)
  | XClearOps => (a, L, [], e) | XAddOp p => (a, L, o ++ [p], e)
  | XUpdate | XEquiv _ | XMult _ => x
  end.

(** ** C74: tensors *)
(** the Cartesian linear part of an operation, and operations that only mix axes of equal reciprocal length *)
Definition cart_part (L : lattice) (M Q : mat) : Prop := forall u, cartesian L (mv M u) = mv Q (cartesian L u).
Definition axes_match (L : lattice) (M : mat) : Prop :=
  let a := vnorm (Lvar L) in let b := vnorm (Lvbr L) in let c := vnorm (Lvcr L) in
  (a = b \/ (x01 M = 0 /\ x10 M = 0)) /\ (a = c \/ (x02 M = 0 /\ x20 M = 0)) /\ (b = c \/ (x12 M = 0 /\ x21 M = 0)).
