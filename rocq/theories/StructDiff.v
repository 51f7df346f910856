(** Model of StructureDifference and of the diff() methods of structure adapters.
    Source: src/diffpy/srreal/StructureDifference.cpp, StructureAdapter.cpp,
    AtomicStructureAdapter.cpp, PeriodicStructureAdapter.cpp, CrystalStructureAdapter.cpp,
    NoMetaStructureAdapter.cpp, NoSymmetryStructureAdapter.cpp, EmptyStructureAdapter.cpp. *)
From Verif Require Import Base.
Open Scope nat_scope.

(** ** Atom: AtomicStructureAdapter.hpp:30-63.
    [D] is the carrier of double, [dlt] its operator<; NaN is excluded by the order laws that the
    theorems assume of [dlt].  [str] is std::string with [slt] its operator<. *)
Section Atom.
  Context {str D : Type} (slt : str -> str -> bool) (dlt : D -> D -> bool).

  Record atom := {
    atomtype : str;
    xyz_cartn : list D;          (* 3 entries *)
    occupancy : D;
    anisotropy : bool;
    uij_cartn : list D           (* 9 entries, row major *)
  }.

  (** bool operator<: false < true *)
  Definition blt (a b : bool) : bool := negb a && b.

  (** The loops of AtomicStructureAdapter.cpp:43-47 and 56-60: [Some b] is "return b", [None] is
      "fall through". *)
  Fixpoint cmploop (p0 p1 : list D) : option bool :=
    match p0, p1 with
    | x :: r0, y :: r1 =>
        if dlt x y then Some true else if dlt y x then Some false else cmploop r0 r1
    | _, _ => None
    end.

  (** AtomicStructureAdapter.cpp:37-62 operator<. *)
  Definition atom_lt (a0 a1 : atom) : bool :=
    if slt (atomtype a0) (atomtype a1) then true
    else if slt (atomtype a1) (atomtype a0) then false
    else match cmploop (xyz_cartn a0) (xyz_cartn a1) with
         | Some b => b
         | None =>
             if dlt (occupancy a0) (occupancy a1) then true
             else if dlt (occupancy a1) (occupancy a0) then false
             else if blt (anisotropy a0) (anisotropy a1) then true
             else if blt (anisotropy a1) (anisotropy a0) then false
             else match cmploop (uij_cartn a0) (uij_cartn a1) with
                  | Some b => b
                  | None => false
                  end
         end.
End Atom.
Arguments atom : clear implicits.

(** ** Differences *)

(** StructureDifference.hpp:39-41 Method. *)
Inductive method := NONE | SIDEBYSIDE | SORTED.

(** StructureDifference.hpp:43-56, without the two structure pointers. *)
Record sdiff := { pop0 : list nat; add1 : list nat; diffmethod : method }.

(** StructureDifference.cpp:62-67 allowsfastupdate, [N0] = stru0->countSites().
    p < (1 - sqrt(1/2)) * N0, written without the irrational bound: for p <= N0 it means
    N0 < sqrt 2 * (N0 - p).  (No integers p, N0 > 0 hit the bound; the rounding of the double
    product is in FpTol.v.) *)
Definition allowsfast (N0 p : nat) : bool := (p <=? N0) && (N0 * N0 <? 2 * ((N0 - p) * (N0 - p))).

Section Diff.
  Context {A : Type} (aeqb altb : A -> A -> bool).   (* operator== and operator< of Atom *)

  (** StructureDifference.cpp:38-58 for two different pointers. *)
  Definition diff_base (n0 n1 : nat) : sdiff :=
    {| pop0 := seq 0 n0; add1 := seq 0 n1; diffmethod := NONE |}.
  (** StructureDifference.cpp:44-48: equal pointers. *)
  Definition diff_same : sdiff := {| pop0 := []; add1 := []; diffmethod := SIDEBYSIDE |}.

  (** AtomicStructureAdapter.cpp:182-200, the side by side loop from index [i] on. *)
  Fixpoint sidebyside (i : nat) (l0 l1 : list A) : list nat * list nat :=
    match l0, l1 with
    | a0 :: r0, a1 :: r1 =>
        let '(p, q) := sidebyside (S i) r0 r1 in
        if negb (aeqb a0 a1) then (i :: p, i :: q) else (p, q)
    | _, [] => (seq i (length l0), [])
    | [], _ => ([], seq i (length l1))
    end.

  (** AtomicStructureAdapter.cpp:208-222 the vectors of (atom, index) before sorting; indices of the
      second structure are stored as -1, -2, ... *)
  Definition satoms0 (l : list A) : list (A * Z) := combine l (map Z.of_nat (seq 0 (length l))).
  Definition satoms1 (l : list A) : list (A * Z) :=
    combine l (map (fun i => (- Z.of_nat i - 1)%Z) (seq 0 (length l))).

  (** AtomicStructureAdapter.cpp:160-163 cmpatomindex. *)
  Definition cmpatomindex (x y : A * Z) : bool := altb (fst x) (fst y).

  (** std::set_symmetric_difference as used in AtomicStructureAdapter.cpp:227-230. *)
  Fixpoint symdiff (l1 : list (A * Z)) : list (A * Z) -> list (A * Z) :=
    fix symdiff1 (l2 : list (A * Z)) : list (A * Z) :=
      match l1, l2 with
      | [], _ => l2
      | _, [] => l1
      | x :: r1, y :: r2 =>
          if cmpatomindex x y then x :: symdiff r1 l2
          else if cmpatomindex y x then y :: symdiff1 r2
          else symdiff r1 r2
      end.

  (** AtomicStructureAdapter.cpp:231-235 *)
  Definition split_pop (l : list (A * Z)) : list nat :=
    map (fun e => Z.to_nat (snd e)) (filter (fun e => (0 <=? snd e)%Z) l).
  Definition split_add (l : list (A * Z)) : list nat :=
    map (fun e => Z.to_nat (-1 * snd e - 1)) (filter (fun e => negb (0 <=? snd e)%Z) l).

  (** std::sort on ints, AtomicStructureAdapter.cpp:238-239. *)
  Fixpoint insert_nat (x : nat) (l : list nat) : list nat :=
    match l with
    | [] => [x]
    | y :: r => if x <=? y then x :: l else y :: insert_nat x r
    end.
  Definition sort_nat (l : list nat) : list nat := fold_right insert_nat [] l.

  (** AtomicStructureAdapter.cpp:167-241 diff for two different objects that are both atomic.
      [s0] and [s1] are the results of the two std::sort calls in lines 223-224: std::sort is not
      stable, so they may be any sorted rearrangements (see [sort_ok]). *)
  Definition diff_atomic (l0 l1 : list A) (s0 s1 : list (A * Z)) : sdiff :=
    let '(p, q) := sidebyside 0 l0 l1 in
    if allowsfast (length l0) (length p) then {| pop0 := p; add1 := q; diffmethod := SIDEBYSIDE |}
    else
      let sda := symdiff s0 s1 in
      {| pop0 := sort_nat (split_pop sda); add1 := sort_nat (split_add sda); diffmethod := SORTED |}.

  (** result of std::sort(l) with cmpatomindex *)
  Definition sort_ok (l r : list (A * Z)) : Prop :=
    Permutation l r /\
    (forall i j x y, i < j -> nth_error r i = Some x -> nth_error r j = Some y -> cmpatomindex y x = false).

  (** ** Adapter classes.  [addr] is the address of the object: shared_ptr comparison compares addresses. *)
  Context {L P Y : Type}
    (Leqb : L -> L -> bool)                 (* Lattice operator== *)
    (Peqb : P -> P -> bool)                 (* symmetry precision == *)
    (Yeqb : Y -> Y -> bool).                (* SymOpVector == *)

  Inductive adapter :=
  | Adp (addr : nat) (b : body)
  with body :=
  | Empty
  | Atomic (l : list A)
  | Periodic (lat : L) (l : list A)
  | Crystal (lat : L) (prec : P) (ops : Y) (l : list A)
  | NoMeta (src : adapter)
  | NoSym (src : adapter).

  Definition addr_of (s : adapter) : nat := match s with Adp a _ => a end.
  Definition body_of (s : adapter) : body := match s with Adp _ b => b end.

  (** The atoms seen through siteAtomType, siteCartesianPosition, ... (wrappers forward to the
      source: NoMetaStructureAdapter.cpp:65-111). *)
  Fixpoint atoms_of (s : adapter) : list A :=
    match s with
    | Adp _ b =>
        match b with
        | Empty => []
        | Atomic l | Periodic _ l | Crystal _ _ _ l => l
        | NoMeta src | NoSym src => atoms_of src
        end
    end.
  Definition countSites (s : adapter) : nat := length (atoms_of s).

  (** dynamic_pointer_cast: Crystal is a Periodic, Periodic is an Atomic. *)
  Definition as_atomic (b : body) : option (list A) :=
    match b with Atomic l | Periodic _ l | Crystal _ _ _ l => Some l | _ => None end.
  Definition as_periodic (b : body) : option (L * list A) :=
    match b with Periodic lat l | Crystal lat _ _ l => Some (lat, l) | _ => None end.
  Definition as_crystal (b : body) : option (L * P * Y * list A) :=
    match b with Crystal lat p y l => Some (lat, p, y, l) | _ => None end.

  (** diff(): StructureAdapter.cpp:73-78, AtomicStructureAdapter.cpp:167-241,
      PeriodicStructureAdapter.cpp:63-75, CrystalStructureAdapter.cpp:78-94,
      NoMetaStructureAdapter.cpp:120-134, NoSymmetryStructureAdapter.cpp:117-131;
      EmptyStructureAdapter inherits the base version. [s0], [s1] as in [diff_atomic]. *)
  Fixpoint diff (x y : adapter) (s0 s1 : list (A * Z)) {struct x} : sdiff :=
    match x with
    | Adp a b =>
        if a =? addr_of y then diff_same
        else
          let none := diff_base (countSites x) (countSites y) in
          match b with
          | Empty => none
          | Atomic l0 =>
              match as_atomic (body_of y) with
              | Some l1 => diff_atomic l0 l1 s0 s1
              | None => none
              end
          | Periodic lat0 l0 =>
              match as_periodic (body_of y) with
              | Some (lat1, l1) => if negb (Leqb lat0 lat1) then none else diff_atomic l0 l1 s0 s1
              | None => none
              end
          | Crystal lat0 p0 y0 l0 =>
              match as_crystal (body_of y) with
              | Some (lat1, p1, y1, l1) =>
                  if negb (Peqb p0 p1) then none
                  else if negb (Yeqb y0 y1) then none
                  else if negb (Leqb lat0 lat1) then none else diff_atomic l0 l1 s0 s1
              | None => none
              end
          | NoMeta src =>
              match body_of y with NoMeta src' => diff src src' s0 s1 | _ => none end
          | NoSym src =>
              match body_of y with NoSym src' => diff src src' s0 s1 | _ => none end
          end
    end.
End Diff.
Arguments adapter : clear implicits.
Arguments body : clear implicits.
