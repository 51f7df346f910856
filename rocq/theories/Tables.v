(** Model of ScatteringFactorTable (src/diffpy/srreal/ScatteringFactorTable.{hpp,cpp}) and
    AtomRadiiTable (src/diffpy/srreal/AtomRadiiTable.{hpp,cpp}), ConstantRadiiTable.cpp. *)
From Coq Require Import Ascii String.
From Verif Require Import Base AList RBase Bvs.
Open Scope R_scope.
Open Scope list_scope.

(** *** Scattering factors *)
(** a double as far as it matters here: the ratio [value / fsrc] may leave the reals *)
Inductive xreal := Fin (r : R) | PInf | MInf | NaN.
(** operator== on doubles *)
Definition xeqb (a b : xreal) : bool :=
  match a, b with
  | Fin x, Fin y => Reqb x y
  | PInf, PInf | MInf, MInf => true
  | _, _ => false
  end.
(** v / f; a zero [f] is taken as +0 *)
Definition xdiv (v f : R) : xreal :=
  if Reqb f 0 then if Rltb 0 v then PInf else if Rltb v 0 then MInf else NaN
  else Fin (v / f).
(** f * s *)
Definition xmul (f : R) (s : xreal) : xreal :=
  match s with
  | Fin x => Fin (f * x)
  | PInf => if Rltb 0 f then PInf else if Rltb f 0 then MInf else NaN
  | MInf => if Rltb 0 f then MInf else if Rltb f 0 then PInf else NaN
  | NaN => NaN
  end.

Section Sft.
  (** standardLookup(smbl, q) of the concrete class; [None]: it throws invalid_argument for an unknown symbol *)
  Variable std : string -> R -> option R.

  Definition entry := (string * xreal)%type.
  (** mcustom (ScatteringFactorTable.hpp:58-65) and the number of clicks of mticker *)
  Record sft := mkSft { mcustom : list (string * entry); clicks : nat }.
  Definition sft0 : sft := mkSft [] 0.
  Definition custom (t : sft) (s : string) : option entry := afind string_dec s (mcustom t).

  (** lookup, ScatteringFactorTable.cpp:48-62; [None] is the exception of standardLookup *)
  Definition sft_lookup (t : sft) (smbl : string) (q : R) : option xreal :=
    match custom t smbl with
    | Some (src, scale) => option_map (fun f => xmul f scale) (std src q)
    | None => option_map Fin (std smbl q)
    end.

  Definition entry_eqb (a b : entry) : bool := (if string_dec (fst a) (fst b) then true else false) && xeqb (snd a) (snd b).
  (** the common end of both setCustomAs, ScatteringFactorTable.cpp:69-72 and 82-85 *)
  Definition put_entry (smbl : string) (e : entry) (t : sft) : sft :=
    match custom t smbl with
    | Some e' => if entry_eqb e' e then t else mkSft (aset string_dec smbl e (mcustom t)) (S (clicks t))
    | None => mkSft (aset string_dec smbl e (mcustom t)) (S (clicks t))
    end.
  (** setCustomAs(smbl, srcsmbl), ScatteringFactorTable.cpp:65-73 *)
  Definition setCustomAs (smbl src : string) (t : sft) : sft := put_entry smbl (src, Fin 1) t.
  (** setCustomAs(smbl, srcsmbl, value, q), ScatteringFactorTable.cpp:76-86 *)
  Definition setCustomAsVal (smbl src : string) (value q : R) (t : sft) : outcome sft :=
    match std src q with
    | None => Throw InvalidArgument t
    | Some fsrc => Ok (put_entry smbl (src, xdiv value fsrc) t)
    end.
  (** resetCustom, ScatteringFactorTable.cpp:89-93 *)
  Definition sft_resetCustom (smbl : string) (t : sft) : sft :=
    mkSft (aerase string_dec smbl (mcustom t)) (match custom t smbl with Some _ => S (clicks t) | None => clicks t end).
  (** resetAll, ScatteringFactorTable.cpp:96-100 *)
  Definition sft_resetAll (t : sft) : sft :=
    mkSft [] (match mcustom t with [] => clicks t | _ => S (clicks t) end).
  (** getCustomSymbols, ScatteringFactorTable.cpp:103-112 *)
  Definition getCustomSymbols (t : sft) : list string := akeys (mcustom t).

  Inductive sftop := SetAs (s src : string) | SetVal (s src : string) (v q : R) | Reset (s : string) | ResetAll.
  Definition sft_step (t : sft) (o : sftop) : sft :=
    match o with
    | SetAs s src => setCustomAs s src t
    | SetVal s src v q => match setCustomAsVal s src v q t with Ok t' | Throw _ t' => t' | UB => t end
    | Reset s => sft_resetCustom s t
    | ResetAll => sft_resetAll t
    end.
  Definition sft_run (l : list sftop) : sft := fold_left sft_step l sft0.
End Sft.

(** *** Atom radii *)
Section Radii.
  (** standardLookup of the concrete class (ConstantRadiiTable.cpp:65-67 returns one value) *)
  Variable stdradius : str -> R.
  (** [istringstream >> double] on a text: the number it starts with, or failure.  [ostream << double]. *)
  Variable parse : str -> option R.
  Variable print : R -> str.

  (** CustomRadiiStorage, AtomRadiiTable.hpp:44,67 *)
  Definition radii := list (str * R).

  (** lookup, AtomRadiiTable.cpp:40-46 *)
  Definition rad_lookup (t : radii) (smbl : str) : R :=
    match afind str_dec smbl t with Some r => r | None => stdradius smbl end.
  (** setCustom, AtomRadiiTable.cpp:49-52 *)
  Definition rad_setCustom (smbl : str) (r : R) (t : radii) : radii := aset str_dec smbl r t.

  (** remove_copy_if(isspace), AtomRadiiTable.cpp:58-59 *)
  Definition deblank (s : str) : str := filter (fun c => negb (isspace c)) s.
  (** replace ',' by ' ', AtomRadiiTable.cpp:61 *)
  Definition commas_to_spaces (s : str) : str := map (fun c => if (c =? ",")%char then " "%char else c) s.
  (** [ss1 >> w] until failure: the words between white space, AtomRadiiTable.cpp:62-64 *)
  Fixpoint words_from (w : str) (s : str) : list str :=
    match s with
    | [] => match w with [] => [] | _ => [rev w] end
    | c :: s => if isspace c then match w with [] => words_from [] s | _ => rev w :: words_from [] s end
                else words_from (c :: w) s
    end.
  Definition words (s : str) : list str := words_from [] s.
  (** w.find(':'), substr before and after it, AtomRadiiTable.cpp:66-76 *)
  Fixpoint split_colon (w : str) : option (str * str) :=
    match w with
    | [] => None
    | c :: w => if (c =? ":")%char then Some ([], w) else option_map (fun p => (c :: fst p, snd p)) (split_colon w)
    end.
  (** the loop, AtomRadiiTable.cpp:63-84; [None] is invalid_argument *)
  Fixpoint read_items (ws : list str) (rds : radii) : option radii :=
    match ws with
    | [] => Some rds
    | w :: ws =>
      match split_colon w with
      | None => None
      | Some (smbl, rest) =>
        match parse rest with
        | None => None
        | Some value => read_items ws (aset str_dec smbl value rds)
        end
      end
    end.
  (** fromString, AtomRadiiTable.cpp:55-88; the entries of the temporary map have distinct symbols,
      so that the order of the last loop does not matter *)
  Definition rad_fromString (s : str) (t : radii) : outcome radii :=
    match read_items (words (commas_to_spaces (deblank s))) [] with
    | None => Throw InvalidArgument t
    | Some rds => Ok (fold_left (fun t kv => aset str_dec (fst kv) (snd kv) t) rds t)
    end.
  (** resetCustom, AtomRadiiTable.cpp:91-94; resetAll, AtomRadiiTable.cpp:97-100 *)
  Definition rad_resetCustom (smbl : str) (t : radii) : radii := aerase str_dec smbl t.
  Definition rad_resetAll (t : radii) : radii := [].

  (** std::sort of the symbols, AtomRadiiTable.cpp:113-118: characters are compared as unsigned *)
  Fixpoint str_leb (a b : str) : bool :=
    match a, b with
    | [], _ => true
    | _, [] => false
    | x :: a, y :: b => (nat_of_ascii x <? nat_of_ascii y)%nat || ((nat_of_ascii x =? nat_of_ascii y)%nat && str_leb a b)
    end.
  Fixpoint sort_insert (x : str) (l : list str) : list str :=
    match l with [] => [x] | y :: l' => if str_leb x y then x :: l else y :: sort_insert x l' end.
  Definition sort_symbols (l : list str) : list str := fold_right sort_insert [] l.
  (** toString, AtomRadiiTable.cpp:110-127; mcustomradius.at finds every symbol *)
  Fixpoint rad_join (sep : str) (t : radii) (first : bool) (l : list str) : str :=
    match l with
    | [] => []
    | s :: l => (if first then [] else sep) ++ s ++ ":"%char :: match afind str_dec s t with Some r => print r | None => [] end ++ rad_join sep t false l
    end.
  Definition rad_toString (sep : str) (t : radii) : str := rad_join sep t true (sort_symbols (akeys t)).

  Inductive radop := RSet (s : str) (r : R) | RFrom (s : str) | RReset (s : str) | RResetAll.
  Definition rad_step (t : radii) (o : radop) : radii :=
    match o with
    | RSet s r => rad_setCustom s r t
    | RFrom s => match rad_fromString s t with Ok t' | Throw _ t' => t' | UB => t end
    | RReset s => rad_resetCustom s t
    | RResetAll => rad_resetAll t
    end.
  Definition rad_run (l : list radop) : radii := fold_left rad_step l [].
End Radii.
