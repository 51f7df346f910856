(** Specification vocabulary for C15 and C16; uses the types of the model and none of its functions
    except the accessors [addr_of] and [body_of]. *)
From Verif Require Import Base StructDiff.

(** What it means for a boolean relation to be a strict total order. *)
Record strict_total {A : Type} (lt : A -> A -> bool) : Prop := {
  st_irrefl : forall a, lt a a = false;
  st_trans : forall a b c, lt a b = true -> lt b c = true -> lt a c = true;
  st_total : forall a b, lt a b = false -> lt b a = false -> a = b
}.

(** A list of indices is strictly increasing and below [n]. *)
Definition increasing_below (n : nat) (l : list nat) : Prop :=
  (forall i j x y, i < j -> nth_error l i = Some x -> nth_error l j = Some y -> x < y) /\
  (forall x, In x l -> x < n).

(** The atoms of [l] whose index is not / is listed in [idx], in the order of [l]. *)
Fixpoint survivors_from {A} (i : nat) (idx : list nat) (l : list A) : list A :=
  match l with
  | [] => []
  | a :: r => if in_dec Nat.eq_dec i idx then survivors_from (S i) idx r
              else a :: survivors_from (S i) idx r
  end.
Definition survivors {A} (idx : list nat) (l : list A) : list A := survivors_from 0 idx l.
Fixpoint selected_from {A} (i : nat) (idx : list nat) (l : list A) : list A :=
  match l with
  | [] => []
  | a :: r => if in_dec Nat.eq_dec i idx then a :: selected_from (S i) idx r
              else selected_from (S i) idx r
  end.
Definition selected {A} (idx : list nat) (l : list A) : list A := selected_from 0 idx l.

(** Position by position agreement outside the listed indices, and listing of nothing else. *)
Definition exact_side_by_side {A} (l0 l1 : list A) (pop add : list nat) : Prop :=
  forall i,
    (~ In i pop /\ i < length l0 <-> ~ In i add /\ i < length l1) /\
    (i < length l0 -> (~ In i pop <-> nth_error l0 i = nth_error l1 i)) /\
    (i < length l1 -> (~ In i add <-> nth_error l0 i = nth_error l1 i)).

(** Agreement as multisets outside the listed indices, and no atom both removed and added. *)
Definition exact_sorted {A} (l0 l1 : list A) (pop add : list nat) : Prop :=
  Permutation (survivors pop l0) (survivors add l1) /\
  (forall a, In a (selected pop l0) -> In a (selected add l1) -> False).

(** The whole contract of diff() for structures with atom lists [l0] and [l1]. *)
Definition diff_exact {A} (l0 l1 : list A) (d : sdiff) : Prop :=
  increasing_below (length l0) (pop0 d) /\ increasing_below (length l1) (add1 d) /\
  ((diffmethod d = SIDEBYSIDE /\ exact_side_by_side l0 l1 (pop0 d) (add1 d)) \/
   (diffmethod d = SORTED /\ exact_sorted l0 l1 (pop0 d) (add1 d)) \/
   (diffmethod d = NONE /\ pop0 d = seq 0 (length l0) /\ add1 d = seq 0 (length l1))).

(** Objects at the same address are the same object, through all wrapper layers. *)
Fixpoint heap_ok {A L P Y} (x y : adapter A L P Y) : Prop :=
  (addr_of x = addr_of y -> x = y) /\
  match x with
  | Adp _ (NoMeta sx) => match body_of y with NoMeta sy => heap_ok sx sy | _ => True end
  | Adp _ (NoSym sx) => match body_of y with NoSym sy => heap_ok sx sy | _ => True end
  | _ => True
  end.

(** An Atom has 3 coordinates and 9 tensor entries. *)
Definition shaped {str D} (a : atom str D) : Prop :=
  length (xyz_cartn a) = 3 /\ length (uij_cartn a) = 9.

(** What surrounds the atoms: the facts, other than the atom list, that decide which pairs exist. *)
Inductive environment (L P Y : Type) :=
| Isolated | Lattice_only (lat : L) | Symmetric (lat : L) (prec : P) (ops : Y).
Arguments Isolated {L P Y}. Arguments Lattice_only {L P Y}. Arguments Symmetric {L P Y}.
Fixpoint env_of {A L P Y} (x : adapter A L P Y) : environment L P Y :=
  match x with
  | Adp _ (Periodic lat _) => Lattice_only lat
  | Adp _ (Crystal lat p y _) => Symmetric lat p y
  | Adp _ (NoMeta s) => env_of s
  | _ => Isolated
  end.

(** Both structures are of the same class, also inside a NoMeta wrapper. *)
Fixpoint same_kind {A L P Y} (x y : adapter A L P Y) : Prop :=
  match x, y with
  | Adp _ Empty, Adp _ Empty | Adp _ (Atomic _), Adp _ (Atomic _)
  | Adp _ (Periodic _ _), Adp _ (Periodic _ _) | Adp _ (Crystal _ _ _ _), Adp _ (Crystal _ _ _ _)
  | Adp _ (NoSym _), Adp _ (NoSym _) => True
  | Adp _ (NoMeta s), Adp _ (NoMeta s') => same_kind s s'
  | _, _ => False
  end.

(** Well-formed atoms as a type. *)
Definition shapedb {str D} (a : atom str D) : bool :=
  (length (xyz_cartn a) =? 3) && (length (uij_cartn a) =? 9).
Definition Atom (str D : Type) : Type := { a : atom str D | shapedb a = true }.
