(** What merging must do (C11), without the functions of the model. *)
From Verif Require Import Base.
Open Scope Z_scope.

(** i-th column sum: start + p_0[i] + p_1[i] + ... *)
Definition column {D} (dplus : D -> D -> D) (start : list D) (ps : list (list D)) (i : nat) (d : D) : D :=
  fold_left (fun acc p => dplus acc (nth i p d)) ps (nth i start d).
(** only arrays of the right length count, and only the first [m] of them *)
Definition accepted {D} (n : nat) (m : nat) (ps : list (list D)) : list (list D) :=
  firstn m (filter (fun p => Nat.eqb (length p) n) ps).
