(** Specification for the overlap calculator (C28, C29, C59, C60), in terms of the list of counted bonds. *)
From Coq Require Import String Relations.
From Verif Require Import RBase R3 Lattice BondGen Overlap.
From Verif Require Export Sums.
Open Scope R_scope.


Section Spec.
  Context (S : ostru) (r : nat -> R).   (* the structure, the atom radius at every site *)
  (** how much the two spheres overlap *)
  Definition overlap (b : bond) : R := Rmax 0 (r (b_site0 b) + r (b_site1 b) - b_distance b).
  Definition overlapping (b : bond) : bool := Rltb 0 (overlap b).
  (** sum of squared overlaps of a site with its neighbours, each shared by two atoms *)
  Definition site_square (bs : list bond) (i : nat) : R :=
    sumf (fun b => o_occ S (b_site1 b) * (overlap b)²) (filter (fun b => b_site0 b =? i)%nat bs) / 2.
  (** the total over all atoms of the structure: every site counts occupancy x multiplicity atoms *)
  Definition total_square (bs : list bond) : R :=
    sumf (fun b => o_occ S (b_site0 b) * o_occ S (b_site1 b) * INR (o_mult S (b_site0 b)) * (overlap b)²) bs / 2.
  Definition total_occupancy : R := sumf (fun i => o_occ S i * INR (o_mult S i)) (seq 0 (o_n S)).
  (** neighbours by overlap, weighted by occupancy *)
  Definition coordination (bs : list bond) (i : nat) : R :=
    sumf (fun b => o_occ S (b_site1 b)) (filter (fun b => (b_site0 b =? i)%nat && overlapping b) bs).
  Definition coordination_by (bs : list bond) (i : nat) (tp : string) : R :=
    sumf (fun b => o_occ S (b_site1 b))
      (filter (fun b => (b_site0 b =? i)%nat && overlapping b && if string_dec (o_type S (b_site1 b)) tp then true else false) bs).
  (** the graph of overlapping sites *)
  Definition linked (bs : list bond) (i j : nat) : Prop :=
    exists b, In b bs /\ b_site0 b = i /\ b_site1 b = j /\ 0 < overlap b.
  Definition connected (bs : list bond) : nat -> nat -> Prop := clos_refl_sym_trans nat (linked bs).
End Spec.

(** exchange of two radii *)
Definition swap (r : nat -> R) (i j k : nat) : R := if (k =? i)%nat then r j else if (k =? j)%nat then r i else r k.

(** bonds from [a] to [b] of length [d] *)
Definition is_bond (a b : nat) (d : R) (x : bond) : bool := (b_site0 x =? a)%nat && (b_site1 x =? b)%nat && Reqb (b_distance x) d.
(** Bonds are counted from both ends: a site of multiplicity m stands for m atoms, and the atoms of two sites
    have as many bonds of a given length in one direction as in the other. *)
Definition balanced (S : ostru) (bs : list bond) : Prop :=
  forall a b d, (o_mult S a * length (filter (is_bond a b d) bs) = o_mult S b * length (filter (is_bond b a d) bs))%nat.

Definition bond_ok (S : ostru) (b : bond) : Prop := (b_site0 b < o_n S)%nat /\ (b_site1 b < o_n S)%nat.
Definition call_ok (S : ostru) (o : ocall) : Prop :=
  match o with CAdd b => bond_ok S b | CMerge bs => Forall (bond_ok S) bs | _ => True end.
(** bonds counted since the last reset *)
Definition counted (ops : list ocall) : list bond :=
  fold_left (fun l o => match o with CReset => [] | CAdd b => l ++ [b] | CMerge bs => l ++ bs | CQuery | CReload => l end) ops [].
(** no bonds are added after a query (with no reset or reload in between) *)
Fixpoint no_late_bonds (queried : bool) (ops : list ocall) : Prop :=
  match ops with
  | [] => True
  | CReset :: r | CReload :: r => no_late_bonds false r
  | CQuery :: r => no_late_bonds true r
  | CAdd _ :: r | CMerge _ :: r => queried = false /\ no_late_bonds queried r
  end.
(** moreover no object is saved after a query *)
Fixpoint no_late_save (queried : bool) (ops : list ocall) : Prop :=
  match ops with
  | [] => True
  | CReset :: r => no_late_save false r
  | CReload :: r => queried = false /\ no_late_save queried r
  | CQuery :: r => no_late_save true r
  | CAdd _ :: r | CMerge _ :: r => no_late_save queried r
  end.

(** a bond seen from the other end, as far as the overlap calculator is concerned *)
Definition arrow (b : bond) : nat * nat * R * vec := (b_site0 b, b_site1 b, b_distance b, b_r01 b).
Definition flipped (b : bond) : nat * nat * R * vec := (b_site1 b, b_site0 b, b_distance b, vscale (-1) (b_r01 b)).
(** total when site [k], and all its images, is moved by [v]: both ends of a bond may move *)
Definition moved_distance (k : nat) (v : vec) (b : bond) : R :=
  vnorm (vadd (b_r01 b) (vsub (if (b_site1 b =? k)%nat then v else vzero) (if (b_site0 b =? k)%nat then v else vzero))).
Definition moved_total (S : ostru) (r : nat -> R) (bs : list bond) (k : nat) (v : vec) : R :=
  sumf (fun b => o_occ S (b_site0 b) * o_occ S (b_site1 b) * INR (o_mult S (b_site0 b)) *
    (Rmax 0 (r (b_site0 b) + r (b_site1 b) - moved_distance k v b))²) bs / 2.

(** the radius of the atom at a site, from the radii table *)
Definition radius_of (S : ostru) (lk : string -> R) (i : nat) : R := lk (o_type S i).
(** the sites that belong to some pair that is not masked *)
Definition takes_part (n : nat) (mask : nat -> nat -> bool) (x : nat) : Prop :=
  exists i j, (i <= j < n)%nat /\ mask i j = true /\ (x = i \/ x = j).
