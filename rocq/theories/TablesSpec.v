(** Specification for custom scattering factors (C39) and atom radii (C38). *)
From Coq Require Import Ascii String.
From Verif Require Import Base AList RBase Bvs Tables.
Open Scope R_scope.
Open Scope list_scope.

(** what the newest effective call says about a symbol: (source, scale), the calls are listed newest first;
    a call with an unknown source symbol throws and has no effect *)
Fixpoint newest_custom (std : string -> R -> option R) (h : list sftop) (s : string) : option (string * xreal) :=
  match h with
  | [] => None
  | SetAs s' src :: h => if string_dec s' s then Some (src, Fin 1) else newest_custom std h s
  | SetVal s' src v q :: h =>
    match std src q with
    | Some f => if string_dec s' s then Some (src, xdiv v f) else newest_custom std h s
    | None => newest_custom std h s
    end
  | Reset s' :: h => if string_dec s' s then None else newest_custom std h s
  | ResetAll :: _ => None
  end.
Definition custom_after (std : string -> R -> option R) (ops : list sftop) (s : string) : option (string * xreal) := newest_custom std (rev ops) s.
(** no call divides by a zero scattering factor *)
Definition nonzero_sources (std : string -> R -> option R) (ops : list sftop) : Prop :=
  forall s src v q, In (SetVal s src v q) ops -> std src q <> Some 0.

(** *** Radii: the string format *)
Definition is_comma (c : ascii) : Prop := c = ","%char.
Definition blank (c : ascii) : Prop := In c [" "; "009"; "010"; "011"; "012"; "013"]%char.
Definition blank_dec (c : ascii) : {blank c} + {~ blank c} := in_dec ascii_dec c _.
Arguments blank_dec : simpl never.
(** the parts between commas *)
Fixpoint fields (s : str) : list str :=
  match s with
  | [] => [[]]
  | c :: s => if ascii_dec c ","%char then [] :: fields s
              else match fields s with [] => [[c]] | f :: r => (c :: f) :: r end
  end.
Definition unblanked (s : str) : str := filter (fun c => if blank_dec c then false else true) s.
(** the non-blank parts *)
Definition items (s : str) : list str := filter (fun w => match w with [] => false | _ => true end) (map unblanked (fields s)).
(** "symbol:number" *)
Definition item (parse : str -> option R) (w : str) (x : str * R) : Prop :=
  exists num, w = fst x ++ ":"%char :: num /\ ~ In ":"%char (fst x) /\ parse num = Some (snd x).
(** the string lists these radii in this order *)
Definition describes (parse : str -> option R) (s : str) (l : list (str * R)) : Prop := Forall2 (item parse) (items s) l.
(** the last value given for a symbol *)
Fixpoint last_value (s : str) (l : list (str * R)) : option R :=
  match l with
  | [] => None
  | (k, r) :: l => match last_value s l with Some x => Some x | None => if str_dec s k then Some r else None end
  end.
(** texts that survive *)
Definition plain (c : ascii) : Prop := ~ blank c /\ ~ is_comma c.
Definition good_symbol (s : str) : Prop := forall c, In c s -> plain c /\ c <> ":"%char.
Definition good_number (s : str) : Prop := forall c, In c s -> plain c.
(** separators with a comma and otherwise only commas and blanks *)
Definition good_separator (s : str) : Prop := In ","%char s /\ forall c, In c s -> is_comma c \/ blank c.

(** *** Radii: the order in the text *)
(** the first difference decides; a prefix comes first *)
Definition comes_before (a b : str) : Prop :=
  (exists c r, b = a ++ c :: r) \/
  (exists p x y r r', a = p ++ x :: r /\ b = p ++ y :: r' /\ (nat_of_ascii x < nat_of_ascii y)%nat).
Fixpoint separated (sep : str) (ws : list str) : str := match ws with [] => [] | [w] => w | w :: r => w ++ sep ++ separated sep r end.
