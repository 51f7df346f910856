(** Specification for C75. *)
From Verif Require Import Base Owners.
Open Scope nat_scope.

(** calls that do not write through the reference getters *)
Definition by_setter {P Q} (c : call P Q) : Prop :=
  match c with AssignPw _ _ | AssignSf _ _ | AssignProf _ _ => False | _ => True end.
(** the settings in force for the i-th calculator *)
Definition settings {P Q} (w : world P Q) (i : nat) : option (view P Q) := option_map (view_of w) (nth_error (calcs w) i).
(** the settings that its current value was computed with *)
Definition value_settings {P Q} (w : world P Q) (i : nat) : option (view P Q) := match nth_error (calcs w) i with Some k => k_value k | None => None end.
(** the next evaluation of the i-th calculator makes a fast update *)
Definition next_is_fast {P Q} (w : world P Q) (i : nat) : Prop := exists k, nth_error (calcs w) i = Some k /\ is_fast w k = true.
(** [c] is a call for calculator [i] or changes an object it points to *)
Definition concerns {P Q} (w : world P Q) (i : nat) (c : call P Q) : Prop :=
  match c with
  | Change j _ => exists k, nth_error (calcs w) i = Some k /\ (w_ptr (k_pw k) = Some j \/ w_ptr (k_sf k) = Some j \/ k_prof k = Some j)
  | SetPw i' _ | SetSf i' _ | SetProf i' _ | PwByType i' _ | SfByType i' _ | ProfByType i' _ | SetOwn i' _ | SetType i' _ => i' = i
  | AssignPw i' _ | AssignSf i' _ | AssignProf i' _ => i' = i
  | _ => False
  end.
(** none of the calls made from [w] on concerns calculator [i] *)
Fixpoint untouched {P Q} (Peqb : P -> P -> bool) (Qeqb : Q -> Q -> bool) (w : world P Q) (i : nat) (l : list (call P Q)) : Prop :=
  match l with [] => True | c :: l => ~ concerns w i c /\ untouched Peqb Qeqb (step Peqb Qeqb w c) i l end.
(** what a view shows *)
Definition own_of {P Q} (v : view P Q) : Q := fst (fst (fst v)).
Definition width_of {P Q} (v : view P Q) : option P := snd (fst (fst v)).
Definition table_of {P Q} (v : view P Q) : option P := snd (fst v).
Definition profile_of {P Q} (v : view P Q) : option P := snd v.
(** the settings of an object *)
Definition object {P Q} (w : world P Q) (j : nat) : option P := option_map o_val (nth_error (objs w) j).
