(** Shared vocabulary: outcome of a C++ call and small list facts. *)
From Coq Require Export List Arith ZArith Lia Bool Sorting.Permutation.
Export ListNotations.

(** Outcome of a call: normal return, C++ exception (with the state left behind when the
    exception escapes), or undefined behaviour.  Not a model of a particular function. *)
Inductive exn := InvalidArgument | RuntimeError | OutOfRange | LogicError.
Inductive outcome (A : Type) : Type :=
| Ok (a : A)
| Throw (e : exn) (a : A)
| UB.
Arguments Ok {A} _.
Arguments Throw {A} _ _.
Arguments UB {A}.

(** Replace the element at index [i] (C++ assignment [v[i] = x] with [i] in range). *)
Fixpoint upd {A : Type} (i : nat) (x : A) (l : list A) : list A :=
  match l, i with
  | [], _ => []
  | _ :: r, O => x :: r
  | y :: r, S k => y :: upd k x r
  end.

Lemma upd_length {A} i (x : A) l : length (upd i x l) = length l.
Proof. revert i; induction l as [|y l IH]; intros [|i]; simpl; auto. Qed.

Lemma upd_same {A} i (x : A) l : i < length l -> nth_error (upd i x l) i = Some x.
Proof. revert i; induction l as [|y l IH]; intros [|i] H; simpl in *; try lia; auto. apply IH; lia. Qed.

Lemma upd_other {A} i j (x : A) l : i <> j -> nth_error (upd i x l) j = nth_error l j.
Proof. revert i j; induction l as [|y l IH]; intros [|i] [|j] H; simpl in *; auto; try congruence. Qed.

Lemma nth_error_upd {A} i j (x : A) l :
  nth_error (upd i x l) j = if Nat.eqb i j then (if Nat.ltb i (length l) then Some x else None) else nth_error l j.
Proof.
  destruct (Nat.eqb_spec i j) as [<-|Hne].
  - destruct (Nat.ltb_spec i (length l)).
    + now apply upd_same.
    + apply nth_error_None. now rewrite upd_length.
  - now apply upd_other.
Qed.

Lemma Forall_upd {A} (P : A -> Prop) i x l : Forall P l -> P x -> Forall P (upd i x l).
Proof.
  intros H Hx; revert i; induction H as [|y l Hy Hl IH]; intros [|i]; simpl; constructor; auto.
Qed.

Lemma In_upd {A} i (x y : A) l : In y (upd i x l) -> y = x \/ In y l.
Proof.
  revert i; induction l as [|z l IH]; intros [|i]; simpl; try tauto.
  - intros [<-|H]; auto.
  - intros [<-|H]; auto. destruct (IH _ H); auto.
Qed.
