(** Specification for C76. *)
From Verif Require Import Base StructDiff Evaluator EvaluatorSpec Copies.
Open Scope nat_scope.

Section Spec.
  Context {stru cfg bond V : Type} (K : calc stru cfg bond V) (close : V -> V -> bool).
  (** no other calculator uses the evaluator of calculator [i] *)
  Definition own_evaluator (w : world stru cfg V) (i : nat) : Prop :=
    forall j p q, nth_error (w_pq w) i = Some p -> nth_error (w_pq w) j = Some q -> p_ev q = p_ev p -> j = i.
  (** the evaluator of calculator [i] computes everything anew *)
  Definition is_basic (w : world stru cfg V) (i : nat) : Prop :=
    forall x, load w i = Some x -> kind x = EvNone \/ kind x = EvBasic.
  (** A call that is right for a world of copies: an evaluation of a calculator with an optimizing evaluator must
      not share it. Changes of the summation mode need the conditions of C12. *)
  Definition fair {A E} (wt : cfg -> E -> Z -> nat -> A -> nat -> A -> V) (w : world stru cfg V) (c : call stru cfg) : Prop :=
    match c with
    | New _ _ _ full fixed => (full = true \/ two_way wt) /\ (fixed = true \/ index_free K wt)
    | Copy _ | Assign _ _ => True
    | On i o => safe_op o /\ (no_mode_change o \/ (two_way wt /\ doubling K)) /\
                (is_eval o -> own_evaluator w i \/ is_basic w i)
    end.
  Fixpoint fair_run {A E} (wt : cfg -> E -> Z -> nat -> A -> nat -> A -> V) (w : world stru cfg V) (l : list (call stru cfg)) : Prop :=
    match l with [] => True | c :: l => fair wt w c /\ fair_run wt (wstep K close w c) l end.
End Spec.
