(** Specification of envelopes, independent of the model of the owner. *)
From Coq Require Import String.
From Verif Require Import Base RBase Envelopes.
Open Scope R_scope.
Open Scope list_scope.

(** What the owner should hold: for each type at most one object; objects as they are now. *)
Record held := mkHeld { objs : list envelope_obj; holds : string -> option nat }.
Definition set_type (t : string) (v : option nat) (f : string -> option nat) : string -> option nat :=
  fun t' => if string_dec t' t then v else f t'.
Definition type_at (h : list envelope_obj) (a : nat) : option string := option_map etype (nth_error h a).

(** one call, in terms of what is held; [None]: the call refers to no object *)
Definition held_step (cr : string -> option envelope_obj) (s : held) (x : eop) : option held :=
  match x with
  | ONew e => Some (mkHeld (objs s ++ [e]) (holds s))
  | OParam a e =>
    match type_at (objs s) a with
    | Some t => if string_dec t (etype e) then Some (mkHeld (firstn a (objs s) ++ e :: skipn (S a) (objs s)) (holds s)) else None
    | None => None
    end
  | OAdd None => Some s
  | OAdd (Some a) => match type_at (objs s) a with Some t => Some (mkHeld (objs s) (set_type t (Some a) (holds s))) | None => None end
  | OAddByType tp =>
    match cr tp with
    | None => Some s
    | Some e => Some (mkHeld (objs s ++ [e]) (set_type (etype e) (Some (List.length (objs s))) (holds s)))
    end
  | OPop p => Some (mkHeld (objs s) (fun t => match holds s t, p with Some b, Some a => if Nat.eq_dec b a then None else Some b | v, _ => v end))
  | OPopType tp => Some (mkHeld (objs s) (set_type tp None (holds s)))
  | OClear => Some (mkHeld (objs s) (fun _ => None))
  end.
Fixpoint held_run cr (l : list eop) (s : held) : option held :=
  match l with [] => Some s | x :: l' => match held_step cr s x with Some s' => held_run cr l' s' | None => None end end.
Definition nothing_held : held := mkHeld [] (fun _ => None).

(** The factor at [r] of the objects held under the types [ts]. *)
Definition factor (s : held) (ts : list string) (r : R) : R :=
  fold_right (fun t acc => match holds s t with Some a => match nth_error (objs s) a with Some e => eval e r * acc | None => acc end | None => acc end) 1 ts.
