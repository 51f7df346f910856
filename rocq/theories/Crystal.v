(** Model of CrystalStructureAdapter: symmetry expansion and its cache.
    Source: src/diffpy/srreal/CrystalStructureAdapter.cpp, CrystalStructureAdapter.hpp. *)
From Coq Require Import String.
From Verif Require Import RBase R3 Trig Sphere Lattice BondGen.
Import ListNotations.
Open Scope R_scope.
Notation length := List.length.

(** AtomicStructureAdapter.hpp:30-63 Atom; the same record holds fractional coordinates during the expansion *)
Record catom := mkCA { c_xyz : vec; c_uij : mat; c_type : string; c_occ : R; c_anis : bool }.
(** CrystalStructureAdapter.hpp:31-49 SymOpRotTrans *)
Record symop := mkOp { op_R : mat; op_t : vec }.


(** CrystalStructureAdapter.cpp:241-245 the difference reduced by rounding, and its length *)
Definition drnd (u v : vec) : vec :=
  let d := vsub u v in V3 (vx d - IZR (Rround (vx d))) (vy d - IZR (Rround (vy d))) (vz d - IZR (Rround (vz d))).
(** CrystalStructureAdapter.cpp:233-249 findEqualPosition; [None] is -1 *)
Fixpoint findEqualPosition (L : lattice) (symeps : R) (eqsites : list catom) (x : vec) : option nat :=
  match eqsites with
  | [] => None
  | a :: r => if Rleb (lnorm L (drnd (c_xyz a) x)) symeps then Some O
              else match findEqualPosition L symeps r x with Some k => Some (S k) | None => None end
  end.

(** CrystalStructureAdapter.cpp:169-170 the image of a position *)
Definition op_image (o : symop) (x : vec) : vec := vadd (mv (op_R o) x) (op_t o).

(** the three vectors of expandLatticeAtom: eqsites, eqsumpos, eqduplicity *)
Record eqstate := mkEq { eqsites : list catom; eqsumpos : list vec; eqduplicity : list nat }.
(** CrystalStructureAdapter.cpp:172-184 one turn of the loop, [x] is a1.xyz_cartn *)
Definition expand_step (L : lattice) (symeps : R) (a0 : catom) (st : eqstate) (o : symop) : eqstate :=
  let x := op_image o (c_xyz a0) in
  let '(st1, ieq) := match findEqualPosition L symeps (eqsites st) x with
    | Some k => (st, k)
    | None =>
        let utmp := mm (c_uij a0) (tr (op_R o)) in
        let a1 := mkCA x (mm (op_R o) utmp) (c_type a0) (c_occ a0) (c_anis a0) in
        (mkEq (eqsites st ++ [a1]) (eqsumpos st ++ [vzero]) (eqduplicity st ++ [O]), length (eqsites st))
    end in
  mkEq (eqsites st1)
       (upd ieq (vadd (nth ieq (eqsumpos st1) vzero) (ucvFractional x)) (eqsumpos st1))
       (upd ieq (nth ieq (eqduplicity st1) O + 1)%nat (eqduplicity st1)).
(** CrystalStructureAdapter.cpp:202-205 the mean position; ublas division of a vector by an int *)
Fixpoint mean_sites (l : list catom) (s : list vec) (d : list nat) : list catom :=
  match l, s, d with
  | a :: l', v :: s', n :: d' => mkCA (vscale (/ INR n) v) (c_uij a) (c_type a) (c_occ a) (c_anis a) :: mean_sites l' s' d'
  | _, _, _ => []
  end.
(** CrystalStructureAdapter.cpp:155-208 expandLatticeAtom *)
Definition expandLatticeAtom (L : lattice) (ops : list symop) (symeps : R) (a0 : catom) : list catom :=
  let st := fold_left (expand_step L symeps a0) ops (mkEq [] [] []) in
  let st' := match ops with [] => mkEq [a0] [c_xyz a0] [1%nat] | _ => st end in
  mean_sites (eqsites st') (eqsumpos st') (eqduplicity st').

(** PeriodicStructureAdapter.cpp:92-97 toCartesian, 100-105 toFractional *)
Definition toCartesian (L : lattice) (a : catom) : catom :=
  mkCA (cartesian L (c_xyz a)) (cartesianMatrix L (c_uij a)) (c_type a) (c_occ a) (c_anis a).
Definition toFractional (L : lattice) (a : catom) : catom :=
  mkCA (fractional L (c_xyz a)) (fractionalMatrix L (c_uij a)) (c_type a) (c_occ a) (c_anis a).
(** CrystalStructureAdapter.cpp:217-227 the equivalents of one site *)
Definition expand_site (L : lattice) (ops : list symop) (symeps : R) (a : catom) : list catom :=
  map (toCartesian L) (expandLatticeAtom L ops symeps (toFractional L a)).

(** The adapter: AtomicStructureAdapter::matoms, PeriodicStructureAdapter::mlattice and
    CrystalStructureAdapter.hpp:98-103 *)
Record crystal := mkCr { x_atoms : list catom; x_lat : lattice; x_ops : list symop; x_prec : R;
                         x_sym : list (list catom); x_cached : bool }.
(** CrystalStructureAdapter.cpp:46-50 constructor *)
Definition crystal0 : crystal := mkCr [] lattice0 [] (5 / 100000) [] false.
(** CrystalStructureAdapter.cpp:211-229 updateSymmetryPositions *)
Definition updateSymmetryPositions (c : crystal) : crystal :=
  mkCr (x_atoms c) (x_lat c) (x_ops c) (x_prec c) (map (expand_site (x_lat c) (x_ops c) (x_prec c)) (x_atoms c)) true.
(** CrystalStructureAdapter.cpp:251-256 isSymmetryCached, with "if (!cached) update" of 70-75 and 146-152 *)
Definition ensureSymmetry (c : crystal) : crystal :=
  if x_cached c && (length (x_sym c) =? length (x_atoms c))%nat then c else updateSymmetryPositions c.

(** validators.hpp:43-55 ensureEpsilonPositive *)
Definition epsilon_positive (v : R) : bool := eps_gt v 0 SQRT_DOUBLE_EPS.

(** Calls of a user. [XAtoms]: any change made through append, insert, erase, at(i), clear ... of
    AtomicStructureAdapter.hpp; [XLattice]: setLatPar or setLatBase that succeeded
    (PeriodicStructureAdapter.cpp:78-83); both leave the cache alone. [XUpdate]: updateSymmetryPositions or
    createBondGenerator (CrystalStructureAdapter.cpp:61-67), which calls it. *)
Inductive xcall :=
| XAtoms (l : list catom) | XLattice (L : lattice) | XPrecision (eps : R) | XClearOps | XAddOp (o : symop)
| XUpdate | XEquiv (i : nat) | XMult (i : nat).
Inductive xret := XUnit | XBad | XAtomsOut (l : list catom) | XInt (n : nat).
(** CrystalStructureAdapter.cpp:97-103 setSymmetryPrecision (throws [XBad] and changes nothing), 118-122
    clearSymOps, 125-137 addSymOp, 146-152 getEquivalentAtoms, 70-75 siteMultiplicity. Site indices are in range. *)
Definition xstep (c : crystal) (k : xcall) : crystal * xret :=
  match k with
  | XAtoms l => (mkCr l (x_lat c) (x_ops c) (x_prec c) (x_sym c) (x_cached c), XUnit)
  | XLattice L => (mkCr (x_atoms c) L (x_ops c) (x_prec c) (x_sym c) (x_cached c), XUnit)
  | XPrecision e => if epsilon_positive e
      then (mkCr (x_atoms c) (x_lat c) (x_ops c) e (x_sym c) (if Reqb e (x_prec c) then x_cached c else false), XUnit)
      else (c, XBad)
  | XClearOps => (mkCr (x_atoms c) (x_lat c) [] (x_prec c) (x_sym c) false, XUnit)
  | XAddOp o => (mkCr (x_atoms c) (x_lat c) (x_ops c ++ [o]) (x_prec c) (x_sym c) false, XUnit)
  | XUpdate => (updateSymmetryPositions c, XUnit)
  | XEquiv i => let c' := ensureSymmetry c in (c', XAtomsOut (nth i (x_sym c') []))
  | XMult i => let c' := ensureSymmetry c in (c', XInt (length (nth i (x_sym c') [])))
  end.
Definition xrun (c : crystal) (l : list xcall) : crystal := fold_left (fun c k => fst (xstep c k)) l c.

(** What a bond generator made by createBondGenerator reads (BondGen.v); CrystalStructureAdapter.cpp:61-67, 286-293 *)
Definition stru_of (c : crystal) : stru :=
  let c' := updateSymmetryPositions c in
  {| spos := map c_xyz (x_atoms c'); suij := map c_uij (x_atoms c'); slat := x_lat c';
     ssym := map (map (fun a => (c_xyz a, c_uij a))) (x_sym c') |}.
