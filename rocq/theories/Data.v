(** Model of the built-in data tables: src/diffpy/srreal/scatteringfactordata.cpp, src/diffpy/runtimepath.cpp,
    the loader of BVParametersTable.cpp and BVParam::setFromCifLine.
    A text file is the list of its lines; std::string is a list of characters, double is R, int is Z (no overflow). *)
From Coq Require Import Ascii String Decimal DecimalString.
From Verif Require Import Base AList RBase Trig Bvs Tables.
Open Scope R_scope.
Open Scope list_scope.
Notation length := List.length.

(** a string literal of the program *)
Definition lit (s : string) : str := list_ascii_of_string s.
(** What a call gives: a value, an exception, or undefined behaviour.  Not a model of a particular function. *)
Inductive res (A : Type) := Val (a : A) | Exc (e : exn) | Bad.
Arguments Val {A} _.
Arguments Exc {A} _.
Arguments Bad {A}.

(** *** Text *)
(** w.compare(0, p.size(), p) == 0, runtimepath.cpp:155-156, scatteringfactordata.cpp:144 and 154 *)
Definition starts (p w : str) : bool := if str_dec (firstn (length p) w) p then true else false.
(** getline(fpline, w, sep) until failure, runtimepath.cpp:196-198: the last piece is left out when it is empty *)
Fixpoint split_from (sep : ascii) (w : str) (s : str) : list str :=
  match s with
  | [] => match w with [] => [] | _ => [rev w] end
  | c :: s => if (c =? sep)%char then rev w :: split_from sep [] s else split_from sep (c :: w) s
  end.
Definition split (sep : ascii) (s : str) : list str := split_from sep [] s.
(** LineReader::isignored with the comment mark #, runtimepath.cpp:147-158 *)
Definition isignored (ws : list str) : bool := match ws with [] => true | w :: _ => starts (lit "#") w end.

(** formatted extraction from a stream skips white space first: [istream >> ...] *)
Fixpoint skip_spaces (s : str) : str :=
  match s with [] => [] | c :: r => if isspace c then skip_spaces r else s end.
Fixpoint take_word (s : str) : str * str :=
  match s with [] => ([], []) | c :: r => if isspace c then ([], s) else let '(w, t) := take_word r in (c :: w, t) end.
(** [istream >> string]: [None] is the failure at the end of the text *)
Definition read_word (s : str) : option (str * str) :=
  match take_word (skip_spaces s) with ([], _) => None | p => Some p end.
Definition digit_value (c : ascii) : option Z :=
  let n := nat_of_ascii c in if ((48 <=? n) && (n <=? 57))%nat then Some (Z.of_nat n - 48)%Z else None.
Fixpoint take_digits (acc : Z) (s : str) : Z * str :=
  match s with
  | [] => (acc, [])
  | c :: r => match digit_value c with Some d => take_digits (10 * acc + d) r | None => (acc, s) end
  end.
(** digits, at least one *)
Definition read_nat (s : str) : option (Z * str) :=
  match s with c :: r => match digit_value c with Some d => Some (take_digits d r) | None => None end | [] => None end.
(** [istream >> int]: optional sign and digits; the reading stops behind the last digit *)
Definition read_int (s : str) : option (Z * str) :=
  match skip_spaces s with
  | c :: r =>
    if (c =? "+")%char then read_nat r
    else if (c =? "-")%char then option_map (fun p => (- fst p, snd p)%Z) (read_nat r)
    else read_nat (c :: r)
  | [] => None
  end.
(** [for (int v; fpline >> v;)]; every reading consumes a character, so the length of the text bounds their number *)
Fixpoint read_ints (fuel : nat) (s : str) : list Z :=
  match fuel with
  | O => []
  | S k => match read_int s with Some (v, s') => v :: read_ints k s' | None => [] end
  end.
(** [ostream << int] of a number that is not negative *)
Definition dec (n : Z) : str := lit (NilZero.string_of_uint (N.to_uint (Z.to_N n))).

Section Data.
(** [istream >> double] on a word: the number it starts with, or failure *)
Variable num : str -> option R.

(** *** Waasmaier-Kirfel formulas *)
(** class WaasKirfFormula, scatteringfactordata.cpp:47-100; the five a and the five b *)
Record wkform := mkWK { wa : list R; wb : list R; wc : R }.
(** xrayatstol, scatteringfactordata.cpp:68-76 *)
Definition xrayatstol (f : wkform) (stol : R) : R :=
  fold_left (fun rv ab => rv + fst ab * exp (- snd ab * stol * stol)) (combine (wa f) (wb f)) (wc f).
(** Z, scatteringfactordata.cpp:78-83 *)
Definition wkZ (f : wkform) : R := IZR (Rround (fold_left (fun rv a => rv + a) (wa f) (wc f))).
(** electronatstol, scatteringfactordata.cpp:85-93; [None] stands for DOUBLE_MAX *)
Definition electronatstol (f : wkform) (stol : R) : option R :=
  if eps_eq stol 0 SQRT_DOUBLE_EPS then None
  else Some (0.023934 * (wkZ f - xrayatstol f stol) / (stol * stol)).

Definition wktable := list (str * wkform).
(** the eleven numbers of a data line, scatteringfactordata.cpp:162-174.  Simplified: each word is read by itself. *)
Definition read_formula (ws : list str) : option wkform :=
  match map num ws with
  | [Some a0; Some a1; Some a2; Some a3; Some a4; Some c; Some b0; Some b1; Some b2; Some b3; Some b4] =>
    Some (mkWK [a0; a1; a2; a3; a4] [b0; b1; b2; b3; b4] c)
  | _ => None
  end.
(** the reading loop of getWKFormulasSet, scatteringfactordata.cpp:142-184; [sym] is wk.symbol.
    At the end of the file the extraction in line 161 leaves a line that does not have eleven numbers. *)
Fixpoint read_wk (t : wktable) (sym : str) (lines : list str) : outcome wktable :=
  match lines with
  | [] => Ok t
  | l :: rest =>
    let ws := words l in
    match ws with
    | [] => read_wk t sym rest
    | w :: _ =>
      if starts (lit "#S") w then
        if (length ws <? 3)%nat then Throw RuntimeError t else read_wk t (nth 2 ws []) rest
      else if starts (lit "#L") w then
        match sym, rest with
        | [], _ | _, [] => Throw RuntimeError t
        | _, d :: rest' =>
          match read_formula (words d) with
          | None => Throw RuntimeError t
          | Some f =>
            match afind str_dec sym t with
            | Some _ => Throw RuntimeError t
            | None => read_wk (aset str_dec sym f t) [] rest'
            end
          end
        end
      else read_wk t sym rest
    end
  end.
(** findWKFormula, scatteringfactordata.cpp:189-215 *)
Definition find_wk (t : wktable) (smbl : str) : option wkform :=
  match afind str_dec smbl t with
  | Some f => Some f
  | None =>
    let v := atomValence smbl in
    if (v =? 0)%Z then afind str_dec (atomBareSymbol smbl) t
    else if (Z.abs v =? 1)%Z then afind str_dec (atomBareSymbol smbl ++ lit (if (0 <? v)%Z then "1+" else "1-")) t
    else None
  end.

(** *** Electron numbers *)
Definition entable := list (str * Z).
(** insert of an unordered_map: an existing entry stays *)
Definition insert {V} (k : str) (v : V) (t : list (str * V)) : list (str * V) :=
  match afind str_dec k t with Some _ => t | None => aset str_dec k v t end.
Definition sign_char (v : Z) : ascii := if (0 <? v)%Z then "+"%char else "-"%char.
(** the ion symbol, scatteringfactordata.cpp:250-251 *)
Definition ion_symbol (el : str) (v : Z) : str := el ++ dec (Z.abs v) ++ [sign_char v].
(** the body of the loop over the lines, scatteringfactordata.cpp:238-253; [None] is the exception *)
Definition read_ion_line (t : entable) (l : str) : option entable :=
  match read_word l with
  | None => None
  | Some (element, s) =>
    match read_int s with
    | None => None
    | Some (z, s') =>
      Some (fold_left (fun t v => insert (ion_symbol element v) (z - v)%Z t) (read_ints (length s') s') (insert element z t))
    end
  end.
(** getElectronNumberTable, scatteringfactordata.cpp:235-262 *)
Fixpoint read_ions (t : entable) (lines : list str) : outcome entable :=
  match lines with
  | [] => if (length t <? 447)%nat then Throw RuntimeError t else Ok t
  | l :: rest =>
    if isignored (words l) then read_ions t rest
    else match read_ion_line t l with None => Throw RuntimeError t | Some t' => read_ions t' rest end
  end.
(** electronnumber, scatteringfactordata.cpp:386-403, the part after the table is there *)
Definition find_en (t : entable) (smbl : str) : option Z :=
  match afind str_dec smbl t with
  | Some z => Some z
  | None =>
    let v := atomValence smbl in
    afind str_dec (atomBareSymbol smbl ++ if (v =? 0)%Z then [] else dec (Z.abs v) ++ [sign_char v]) t
  end.

(** *** Neutron scattering lengths *)
Definition bctable := list (str * R).
(** the characters 0123456789-, scatteringfactordata.cpp:295 *)
Definition isotope_char (c : ascii) : bool := match digit_value c with Some _ => true | None => (c =? "-")%char end.
(** find_first_of('-') and what is before and after it *)
Fixpoint split_dash (s : str) : option (str * str) :=
  match s with
  | [] => None
  | c :: r => if (c =? "-")%char then Some ([], r) else option_map (fun p => (c :: fst p, snd p)) (split_dash r)
  end.
(** find_last_of('-') and what is before and after it *)
Definition split_last_dash (s : str) : option (str * str) :=
  option_map (fun p => (rev (snd p), rev (fst p))) (split_dash (rev s)).
(** the atom symbol of a line, scatteringfactordata.cpp:294-305 *)
Definition nsf_symbol (w : str) : option str :=
  match find_first_not isotope_char w with
  | None => None
  | Some p0 =>
    let s := skipn p0 w in
    Some (match split_last_dash s with Some (a, b) => b ++ "-"%char :: a | None => s end)
  end.
(** the body of the loop over the lines, scatteringfactordata.cpp:288-340 *)
Definition read_nsf_line (t : bctable) (ws : list str) : outcome bctable :=
  if negb (length ws =? 11)%nat then Throw RuntimeError t else
  match nth 3 ws [] with
  | [] => Ok t
  | w3 =>
    match nsf_symbol (nth 0 ws []) with
    | None => Throw RuntimeError t
    | Some smbl =>
      match num w3 with
      | None => Throw RuntimeError t
      | Some bc =>
        match afind str_dec smbl t with
        | Some _ => Throw RuntimeError t
        | None =>
          let t := aset str_dec smbl bc t in
          match split_dash smbl with
          | None => Ok t
          | Some (_, el) =>
            let chlf := nth 1 ws [] in
            let present := match afind str_dec el t with Some _ => true | None => false end in
            if str_dec chlf (lit "100") then
              if present then Throw RuntimeError t else Ok (aset str_dec el bc t)
            else if present then Ok t
            else match rev chlf with
                 | [] => UB
                 | c :: _ => if (c =? "Y")%char then Ok (aset str_dec el bc t) else Ok t
                 end
          end
        end
      end
    end
  end.
Fixpoint read_nsf (t : bctable) (lines : list str) : outcome bctable :=
  match lines with
  | [] => Ok t
  | l :: rest =>
    if isignored (split "," l) then read_nsf t rest
    else match read_nsf_line t (split "," l) with
         | Ok t' => read_nsf t' rest
         | Throw e t' => Throw e t'
         | UB => UB
         end
  end.
(** the aliases, scatteringfactordata.cpp:343-345; [at] throws out_of_range *)
Definition add_alias (name src : string) (o : outcome bctable) : outcome bctable :=
  match o with
  | Ok t => match afind str_dec (lit src) t with Some b => Ok (insert (lit name) b t) | None => Throw OutOfRange t end
  | _ => o
  end.
(** getNeutronBCTable, scatteringfactordata.cpp:282-345 *)
Definition read_nsf_file (lines : list str) : outcome bctable :=
  add_alias "T" "3-H" (add_alias "D" "2-H" (add_alias "n" "1-n" (read_nsf [] lines))).
(** bcneutron, scatteringfactordata.cpp:411-423; its set of characters is that of AtomUtils.cpp:28 *)
Definition find_bc (t : bctable) (smbl : str) : option R :=
  match afind str_dec smbl t with
  | Some b => Some b
  | None => afind str_dec (match find_last_not trail_char smbl with Some pe => firstn (pe + 1) smbl | None => smbl end) t
  end.

(** *** Bond valence parameters *)
(** a word read as a number by [linefp >> double] *)
Definition read_num (s : str) : option (R * str) :=
  match read_word s with Some (w, s') => option_map (fun x => (x, s')) (num w) | None => None end.
(** setFromCifLine, BVParam.cpp:94-108; the reference id is left out.  Simplified: the numbers are read word by word. *)
Definition setFromCifLine (l : str) : option bvparam :=
  match read_word l with None => None | Some (a0, s) =>
  match read_int s with None => None | Some (v0, s) =>
  match read_word s with None => None | Some (a1, s) =>
  match read_int s with None => None | Some (v1, s) =>
  match read_num s with None => None | Some (Ro, s) =>
  match read_num s with None => None | Some (B, s) =>
  match read_word s with None => None | Some _ => Some (mkBV a0 v0 a1 v1 Ro B)
  end end end end end end end.
(** the header, BVParametersTable.cpp:177-180 *)
Fixpoint skip_to_B (lines : list str) : list str :=
  match lines with
  | [] => []
  | l :: rest => match words l with
                 | w :: _ => if str_dec w (lit "_valence_param_B") then rest else skip_to_B rest
                 | [] => skip_to_B rest
                 end
  end.
(** up to an empty line, BVParametersTable.cpp:182 *)
Fixpoint skip_to_blank (lines : list str) : list str :=
  match lines with [] => [] | l :: rest => match words l with [] => rest | _ => skip_to_blank rest end end.
(** the data lines, BVParametersTable.cpp:184-191; the assertion is left out: insert keeps the first of two entries *)
Fixpoint read_bv_lines (t : list bvparam) (lines : list str) : outcome (list bvparam) :=
  match lines with
  | [] => Ok t
  | l :: rest =>
    if isignored (words l) then read_bv_lines t rest
    else match setFromCifLine l with
         | None => Throw InvalidArgument t
         | Some p => read_bv_lines (bvinsert p t) rest
         end
  end.
Definition read_bv (lines : list str) : outcome (list bvparam) := read_bv_lines [] (skip_to_blank (skip_to_B lines)).

(** *** Paths of the data files *)
(** What the process sees when a call is made: the variable DIFFPYRUNTIME, directories, the resolution of a path
    ([None] is the null pointer), the files that can be opened, and the two candidates derived from the place of the library
    (runtimepath.cpp:100 and 109-110). *)
Record env := mkEnv { e_var : option str; e_isdir : str -> bool; e_real : str -> option str; e_file : str -> option (list str);
                      e_d1 : str; e_d2 : str }.
(** the static variables of diffpyruntime, runtimepath.cpp:71-74 and 79; [rt_lib] is librt when did_librt *)
Record rtcache := mkRt { rt_lib : option str; rt_did : bool; rt_dprt : str; rt_env : str }.
Definition rt0 : rtcache := mkRt None false [] [].
(** removal of the trailing slashes, runtimepath.cpp:84-87 *)
Definition strip_slashes (p : str) : str :=
  match find_last_not (fun c => (c =? "/")%char) p with None => firstn 1 p | Some pt => firstn (pt + 1) p end.
(** diffpyruntime, runtimepath.cpp:68-120; assigning a null pointer to a std::string is undefined *)
Definition diffpyruntime (e : env) (r : rtcache) : rtcache * res str :=
  match e_var e with
  | Some ((_ :: _) as pe) =>
    if rt_did r && (if str_dec (rt_dprt r) pe then true else false) then (r, Val (rt_env r))
    else
      let d := strip_slashes pe in
      if e_isdir e d then
        match e_real e d with
        | Some q => (mkRt (rt_lib r) true pe q, Val q)
        | None => (mkRt (rt_lib r) false pe d, Bad)
        end
      else (mkRt (rt_lib r) false pe d, Exc RuntimeError)
  | _ =>
    match rt_lib r with
    | Some q => (r, Val q)
    | None =>
      let found d := match e_real e d with Some q => (mkRt (Some q) (rt_did r) (rt_dprt r) (rt_env r), Val q) | None => (r, Bad) end in
      if e_isdir e (e_d1 e) then found (e_d1 e)
      else if e_isdir e (e_d2 e) then found (e_d2 e)
      else (r, Exc RuntimeError)
    end
  end.
(** datapath, runtimepath.cpp:129-134 *)
Definition datapath (e : env) (r : rtcache) (f : str) : rtcache * res str :=
  match diffpyruntime e r with
  | (r', Val d) => (r', Val (d ++ match f with [] => [] | _ => "/"%char :: f end))
  | p => p
  end.

(** *** The tables, loaded on demand *)
(** The common pattern of the loaders (scatteringfactordata.cpp:134-139 and 185, 226-233, 276-281, BVParametersTable.cpp:167-173):
    the static pointer is set to an empty table, which is then filled from the file.  When an exception escapes,
    the pointer keeps what has been read so far. *)
Definition load {T} (empty : T) (read : list str -> outcome T) (file : string) (e : env) (r : rtcache) (cur : option T) :
  rtcache * option T * res T :=
  match cur with
  | Some t => (r, cur, Val t)
  | None =>
    match datapath e r (lit file) with
    | (r', Exc x) => (r', Some empty, Exc x)
    | (r', Bad) => (r', Some empty, Bad)
    | (r', Val p) =>
      match e_file e p with
      | None => (r', Some empty, Exc RuntimeError)
      | Some lines =>
        match read lines with
        | Ok t => (r', Some t, Val t)
        | Throw x t => (r', Some t, Exc x)
        | UB => (r', Some empty, Bad)
        end
      end
    end
  end.

(** the static variables of the library *)
Record lib := mkLib { l_rt : rtcache; l_wk : option wktable; l_en : option entable; l_bc : option bctable; l_bv : option (list bvparam) }.
Definition lib0 : lib := mkLib rt0 None None None None.

(** a lookup that throws invalid_argument when nothing is found *)
Definition orThrow {A} (o : option A) : res A := match o with Some a => Val a | None => Exc InvalidArgument end.
Definition andThen {A B} (x : res A) (f : A -> res B) : res B := match x with Val a => f a | Exc e => Exc e | Bad => Bad end.

(** the calls; scatteringfactordata.cpp:357-424, runtimepath.cpp:129-134; [CBv k] looks [k] up in the standard parameters,
    BVParametersTable.cpp:67-69 *)
Inductive call :=
| CXray (smbl : str) (q : R)
| CElectron (smbl : str) (q : R)
| CNumber (smbl : str)
| CNeutron (smbl : str)
| CBv (k : bvparam)
| CPath (f : str).
Inductive answer := AReal (x : R) | AHuge | AInt (z : Z) | ABv (p : option bvparam) | APath (p : str).
(** getWKFormulasSet, scatteringfactordata.cpp:130-186 *)
Definition get_wk (e : env) (L : lib) : lib * res wktable :=
  let '(r, t, x) := load [] (read_wk [] []) "f0_WaasKirf.dat" e (l_rt L) (l_wk L) in (mkLib r t (l_en L) (l_bc L) (l_bv L), x).
(** getElectronNumberTable, scatteringfactordata.cpp:222-265 *)
Definition get_en (e : env) (L : lib) : lib * res entable :=
  let '(r, t, x) := load [] (read_ions []) "ionlist.dat" e (l_rt L) (l_en L) in (mkLib r (l_wk L) t (l_bc L) (l_bv L), x).
(** getNeutronBCTable, scatteringfactordata.cpp:271-347 *)
Definition get_bc (e : env) (L : lib) : lib * res bctable :=
  let '(r, t, x) := load [] read_nsf_file "nsftable.dat" e (l_rt L) (l_bc L) in (mkLib r (l_wk L) (l_en L) t (l_bv L), x).
(** getStandardSetOfBVParam, BVParametersTable.cpp:162-194 *)
Definition get_bv (e : env) (L : lib) : lib * res (list bvparam) :=
  let '(r, t, x) := load [] read_bv "bvparm2011sel.cif" e (l_rt L) (l_bv L) in (mkLib r (l_wk L) (l_en L) (l_bc L) t, x).
(** fxrayatq, felectronatq, electronnumber, bcneutron (scatteringfactordata.cpp:357-424), datapath *)
Definition run_call (c : call) (e : env) (L : lib) : lib * res answer :=
  match c with
  | CXray smbl q => let '(L', x) := get_wk e L in
    (L', andThen x (fun t => andThen (orThrow (find_wk t smbl)) (fun f => Val (AReal (xrayatstol f (q / (4 * PI)))))))
  | CElectron smbl q => let '(L', x) := get_wk e L in
    (L', andThen x (fun t => andThen (orThrow (find_wk t smbl)) (fun f =>
      Val (match electronatstol f (q / (4 * PI)) with Some y => AReal y | None => AHuge end))))
  | CNumber smbl => let '(L', x) := get_en e L in (L', andThen x (fun t => andThen (orThrow (find_en t smbl)) (fun z => Val (AInt z))))
  | CNeutron smbl => let '(L', x) := get_bc e L in (L', andThen x (fun t => andThen (orThrow (find_bc t smbl)) (fun b => Val (AReal b))))
  | CBv k => let '(L', x) := get_bv e L in (L', andThen x (fun t => Val (ABv (bvfind k t))))
  | CPath f => let '(r, x) := datapath e (l_rt L) f in
    (mkLib r (l_wk L) (l_en L) (l_bc L) (l_bv L), andThen x (fun p => Val (APath p)))
  end.
(** a history: every call with what it sees; the answers in the same order *)
Fixpoint run (h : list (env * call)) (L : lib) : lib * list (res answer) :=
  match h with
  | [] => (L, [])
  | (e, c) :: h => let '(L', a) := run_call c e L in let '(L'', l) := run h L' in (L'', a :: l)
  end.
End Data.
