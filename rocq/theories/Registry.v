(** Model of the class registry: src/diffpy/HasClassRegistry.hpp, HasClassRegistry.ipp and the
    override ScatteringFactorTable::registerThisType.

    [C] is the type of concrete classes derived from TBase, [type_of] their virtual type().
    A prototype is an object made by create(): it has an address and a class.  Simplifications:
    create() returns a new object of the same class, type() depends only on the class, a new object
    gets an address no live object has, and setupRegisteredObject (HasClassRegistry.hpp:87, empty) is left out. *)
From Coq Require Import String.
From Verif Require Import Base AList.
Open Scope list_scope.

Section Registry.
  Context {C : Type} (type_of : C -> string).

  (** RegistryStorage: std::map<string, SharedPtr>, HasClassRegistry.hpp:91 (the order of the map is
      not visible in any result but the sets and maps returned, which are unordered here) *)
  Definition proto := (nat * C)%type.
  Record registry := mkReg { reg : list (string * proto); fresh : nat }.
  (** getRegistry, HasClassRegistry.ipp:164-173: empty at the start *)
  Definition empty_registry : registry := mkReg [] 0.

  (** reg.count(tp), reg.find(tp) *)
  Definition find (r : registry) (tp : string) : option proto := afind string_dec tp (reg r).

  (** registerThisType, HasClassRegistry.ipp:31-48 *)
  Definition registerThisType (c : C) (r : registry) : outcome registry :=
    match find r (type_of c) with
    | Some _ => Throw LogicError r
    | None =>
      let p := (fresh r, c) in
      Ok (mkReg (aset string_dec (type_of c) p (reg r)) (S (fresh r)))
    end.

  (** aliasType, HasClassRegistry.ipp:52-74 *)
  Definition aliasType (tp al : string) (r : registry) : outcome registry :=
    match find r tp with
    | None => Throw LogicError r
    | Some p =>
      match find r al with
      | Some q => if Nat.eqb (fst q) (fst p) then Ok (mkReg (aset string_dec al p (reg r)) (fresh r)) else Throw LogicError r
      | None => Ok (mkReg (aset string_dec al p (reg r)) (fresh r))
      end
    end.

  (** the loop in deregisterType, HasClassRegistry.ipp:85-93 *)
  Fixpoint erase_all (a : nat) (m : list (string * proto)) : list (string * proto) * nat :=
    match m with
    | [] => ([], 0)
    | (k, p) :: m =>
      let '(m', n) := erase_all a m in
      if Nat.eqb (fst p) a then (m', S n) else ((k, p) :: m', n)
    end.

  (** deregisterType, HasClassRegistry.ipp:77-95 *)
  Definition deregisterType (tp : string) (r : registry) : registry * nat :=
    match find r tp with
    | None => (r, 0)
    | Some p => let '(m, n) := erase_all (fst p) (reg r) in (mkReg m (fresh r), n)
    end.

  (** createByType, HasClassRegistry.ipp:98-114: the class of the new object, [None] is invalid_argument *)
  Definition createByType (r : registry) (tp : string) : option C := option_map snd (find r tp).

  (** isRegisteredType, HasClassRegistry.ipp:117-123 *)
  Definition isRegisteredType (r : registry) (tp : string) : bool :=
    match find r tp with Some _ => true | None => false end.

  (** getAliasedTypes, HasClassRegistry.ipp:126-142 *)
  Definition getAliasedTypes (r : registry) : list (string * string) :=
    flat_map (fun e => if string_dec (fst e) (type_of (snd (snd e))) then [] else [(fst e, type_of (snd (snd e)))]) (reg r).

  (** getRegisteredTypes, HasClassRegistry.ipp:145-158 (a list standing for the set) *)
  Definition getRegisteredTypes (r : registry) : list string := map (fun e => type_of (snd (snd e))) (reg r).

  (** ScatteringFactorTable::registerThisType, ScatteringFactorTable.cpp:38-45 *)
  Definition registerSft (radiation : C -> string) (c : C) (r : registry) : outcome registry :=
    match registerThisType c r with
    | Ok r' => aliasType (type_of c) (radiation c) r'
    | x => x
    end.

  (** One public call; an exception is caught by the caller. *)
  Inductive regop := Register (c : C) | Alias (tp al : string) | Deregister (tp : string).
  Definition reg_step (r : registry) (o : regop) : registry :=
    match o with
    | Register c => match registerThisType c r with Ok r' | Throw _ r' => r' | UB => r end
    | Alias tp al => match aliasType tp al r with Ok r' | Throw _ r' => r' | UB => r end
    | Deregister tp => fst (deregisterType tp r)
    end.
  Definition reg_run (l : list regop) : registry := fold_left reg_step l empty_registry.
End Registry.
Arguments regop : clear implicits.
