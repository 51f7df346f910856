(** Specification for C83. *)
From Verif Require Import Base StructDiff Evaluator EvaluatorSpec Persist.
Open Scope Z_scope.

(** Nothing of the calculator was changed or evaluated in the future. *)
Definition in_time {stru cfg V} (x : st stru cfg V) : Prop := ptick x <= clock x /\ vtick x <= clock x.

(** The process that loads is in the same epoch of the counter as the one that saved, or it is ahead of it. *)
Definition same_age (saved g : Z) : Prop := saved <= g \/ epoch saved = epoch g.

(** Everything that can be asked of a calculator, but the kind of the last evaluation. *)
Definition looks_same {stru cfg V} (x y : st stru cfg V) : Prop :=
  val x = val y /\ ms x = ms y /\ cf x = cf y /\ kind x = kind y /\ fullsum x = fullsum y /\ fixedidx x = fixedidx y /\
  cpu x = cpu y /\ ncpu x = ncpu y.

(** The exception thrown by a call, if there is one. *)
Definition thrown {X} (o : outcome X) : option exn := match o with Throw e _ => Some e | _ => None end.
Definition call_throws {stru cfg bond V} (K : calc stru cfg bond V) (close : V -> V -> bool) (o : op stru cfg) (x : st stru cfg V) : option exn :=
  match o with
  | OpEval s => thrown (eval K close s x)
  | OpEvalCurrent => thrown (eval_current K close x)
  | OpSetType t => thrown (setEvaluatorType K t x)
  | OpParallel i n => thrown (setupParallelRun i n x)
  | _ => None
  end.

(** Lives of a calculator: calls that keep the promise of C13, and moves to any other process. *)
Definition act_ok {stru cfg} (a : act stru cfg) : Prop := match a with Do o => safe_op o | Move g => 0 <= g end.
Definition calls {stru cfg} (l : list (act stru cfg)) : list (op stru cfg) :=
  flat_map (fun a => match a with Do o => [o] | Move _ => [] end) l.
