(** Specification for C99: the scattering factor tables of the library and the data files. *)
From Coq Require Import Ascii String.
From Verif Require Import Base AList RBase Trig Sums Bvs BvsSpec Tables TablesSpec Data DataSpec SftData.
Open Scope R_scope.
Open Scope list_scope.
Notation length := List.length.

(** the data that a table needs *)
Definition data_kind (r : radiation) : kind :=
  match r with SFTXray | SFTElectron => KWk | SFTNeutron => KNeutron | SFTElectronNumber => KIon end.
(** this call does not need the data of the table: no lookup and no custom value *)
Definition untouched (r : radiation) (u : uop) : Prop :=
  match u with ULook _ _ => False | UEdit (SetVal _ _ _ _) => False | UEdit _ => True | ULib c => kind_of c <> data_kind r end.
(** the standard value that the text of the file gives *)
Definition standard (num : str -> option R) (r : radiation) (lines : list str) (s : string) (q : R) : option R :=
  match fresh_answer num lines (std_call r s q) with Val a => Some (real_of a) | _ => None end.
(** the changes of the table, in order *)
Definition edits (h : list (env * uop)) : list sftop := flat_map (fun eu => match snd eu with UEdit o => [o] | _ => [] end) h.
Definition or_invalid {A} (o : option A) : res A := match o with Some a => Val a | None => Exc InvalidArgument end.

(** a decimal number as it is written in the files *)
Definition decimal_word (x : R) (w : str) : Prop := exists ds es, ds <> [] /\ Forall (fun d => d < 10)%nat ds /\ Forall (fun d => d < 10)%nat es /\
  let m := IZR (decimal (ds ++ es)) / 10 ^ length es in
  w = digits_text ds ++ "."%char :: digits_text es /\ x = m \/ w = "-"%char :: digits_text ds ++ "."%char :: digits_text es /\ x = - m.
Definition reads_decimals (num : str -> option R) : Prop := forall x w, decimal_word x w -> num w = Some x.
