(** Specification for C103: a program that edits its structures, told without pointers. *)
From Verif Require Import RBase StructDiff Evaluator EvaluatorSpec Live.
Open Scope nat_scope.

Section Spec.
  Context {stru cfg wrap : Type} (seen : wrap -> stru -> stru) (empty : stru).
  (** contents of the objects that the program has made, in the order they were made *)
  Definition now (ops : list (lop stru cfg wrap)) : list stru :=
    fold_left (fun l o => match o with LNew s => l ++ [s] | LEdit k s => upd k s l | _ => l end) ops [].
  (** what is seen of them *)
  Fixpoint look (l : list stru) (u : uptr wrap) : option stru :=
    match u with UObj k => nth_error l k | UWrap w v => option_map (seen w) (look l v) end.
  Definition look_current (l : list stru) (cur : option (uptr wrap)) : stru :=
    match cur with Some u => match look l u with Some s => s | None => empty end | None => empty end.
  (** The calls with the contents at the time of each call; [cur] is the structure that was passed last. *)
  Fixpoint told (l : list stru) (cur : option (uptr wrap)) (ops : list (lop stru cfg wrap)) : list (op stru cfg) :=
    match ops with
    | [] => []
    | LNew s :: r => told (l ++ [s]) cur r
    | LEdit k s :: r => told (upd k s l) cur r
    | LEval u :: r => match look l u with Some s => OpEval s :: told l (Some u) r | None => told l cur r end
    | LEvalCurrent :: r => OpEval (look_current l cur) :: told l cur r
    | LSetStructure u :: r => match look l u with Some s => OpSetStructure s :: told l (Some u) r | None => told l cur r end
    | LConfigure f :: r => OpConfigure f :: told l cur r
    | LSetType t :: r => OpSetType t :: told l cur r
    | LFullSum b :: r => OpFullSum b :: told l cur r
    | LParallel i n :: r => OpParallel i n :: told l cur r
    end.
  (** as safe_op in C13 *)
  Definition lsafe (o : lop stru cfg wrap) : Prop := match o with LSetStructure _ | LParallel _ _ => False | _ => True end.
End Spec.

(** Two calculators that cannot be told apart: value, settings, evaluator, flags, times *)
Definition same_to_user {X Y cfg V} (x : st X cfg V) (y : st Y cfg V) : Prop :=
  val x = val y /\ cf x = cf y /\ kind x = kind y /\ used x = used y /\ fullsum x = fullsum y /\ fixedidx x = fixedidx y /\
  cpu x = cpu y /\ ncpu x = ncpu y /\ ptick x = ptick y /\ vtick x = vtick y /\ clock x = clock y.
