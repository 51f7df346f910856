(** Specification for the class registry (C40): a finite partial function from names to classes. *)
From Coq Require Import String.
From Verif Require Import Base Registry.
Open Scope list_scope.

Section Spec.
  Context {C : Type} (type_of : C -> string).
  Definition names := string -> option C.
  Definition put (n : string) (c : C) (f : names) : names := fun m => if string_dec m n then Some c else f m.
  (** what each call should do to the names *)
  Definition spec_step (f : names) (o : regop C) : names :=
    match o with
    | Register c => match f (type_of c) with Some _ => f | None => put (type_of c) c f end
    | Alias tp al =>
      match f tp, f al with
      | Some c, None => put al c f
      | _, _ => f
      end
    | Deregister tp =>
      match f tp with
      | None => f
      | Some c => fun n => match f n with Some d => if string_dec (type_of d) (type_of c) then None else Some d | None => None end
      end
    end.
  Definition spec_names (l : list (regop C)) : names := fold_left spec_step l (fun _ => None).
End Spec.
