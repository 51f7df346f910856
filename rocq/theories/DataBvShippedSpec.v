(** Specification for C100: bond valence parameters of the shipped file. *)
From Coq Require Import Ascii String.
From Verif Require Import Base AList RBase Trig Sums Bvs BvsSpec Tables Data DataSpec SftData SftDataSpec DataBvShipped.
Open Scope R_scope.
Open Scope list_scope.
Notation length := List.length.

(** the text of src/runtime/bvparm2011sel.cif *)
Definition bv_dat : list str := map chars (cif_head ++ cif_mark ++ cif_rest ++ cif_blank ++ cif_body).
(** two elements with their charges, and the words for Ro and B *)
Definition brec := (string * Z * string * Z * (string * string))%type.
(** the parameters are those that the two words say *)
Definition has_values (o : option bvparam) (w : string * string) : Prop :=
  exists p, o = Some p /\ decimal_word (mRo p) (chars (fst w)) /\ decimal_word (mB p) (chars (snd w)).
(** the name of an ion: mass number and other marks in front, the element, the charge *)
Definition ion_named (s : str) (el : string) (v : Z) : Prop := exists iso ch, s = iso ++ chars el ++ ch /\ Forall prefix_char iso /\ charge_text v ch.
(** the file has parameters of this bond *)
Definition has_bond (el0 : string) (v0 : Z) (el1 : string) (v1 : Z) : Prop := exists w, In (el0, v0, el1, v1, w) shipped_bonds.
