(** Specification: which contributions were added, and the error of a sum. *)
From Coq Require Import Reals.
From Verif Require Import Base StructDiff Evaluator Fp FpSum.
Import ListNotations.
Open Scope R_scope.

(** the same calculator writing down every contribution since the value was last set to zero *)
Definition recorder {stru cfg bond} (K : calc stru cfg bond R) : calc stru cfg bond (list R) :=
  revalue K [] (fun a b => a ++ b) (fun c s b z => [contrib K c s b z]).
Definition rsum (l : list R) : R := fold_right Rplus 0 l.
(** sum of absolute values *)
Definition weight (l : list R) : R := rsum (map Rabs l).
(** what n roundings can do to a sum, relative to its weight: (1 + 2^-53)^n - 1 *)
Definition drift (n : nat) : R := (1 + / 9007199254740992) ^ n - 1.
