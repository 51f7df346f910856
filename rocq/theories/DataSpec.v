(** Specification for the built-in data tables (C77-C82): what the text of the files says, independent of the readers. *)
From Coq Require Import Ascii String.
From Verif Require Import Base RBase Trig Sums Bvs BvsSpec Data.
Open Scope R_scope.
Open Scope list_scope.
Notation length := List.length.

(** *** Text *)
Definition blank (c : ascii) : Prop := In c ([" "; "009"; "010"; "011"; "012"; "013"])%char.
(** the line consists of these words, with white space between them *)
Inductive is_line : list str -> str -> Prop :=
| line_end s : Forall blank s -> is_line [] s
| line_word sp w s ws : Forall blank sp -> w <> [] -> Forall (fun c => ~ blank c) w ->
    (s = [] \/ exists c r, s = c :: r /\ blank c) -> is_line ws s -> is_line (w :: ws) (sp ++ w ++ s).
(** the text of an integer: digits, with or without a sign *)
Definition decimal (ds : list nat) : Z := fold_left (fun a d => 10 * a + Z.of_nat d)%Z ds 0%Z.
Definition digits_text (ds : list nat) : str := map (fun d => nth d (chars "0123456789") "0"%char) ds.
Definition number_text (v : Z) (w : str) : Prop := exists ds, ds <> [] /\ Forall (fun d => d < 10)%nat ds /\
  (w = digits_text ds /\ v = decimal ds \/ w = "+"%char :: digits_text ds /\ v = decimal ds \/ w = "-"%char :: digits_text ds /\ v = (- decimal ds)%Z).
Definition letter (c : ascii) : Prop := In c (chars "ABCDEFGHIJKLMNOPQRSTUVWXYZabcdefghijklmnopqrstuvwxyz").
(** the name of an element *)
Definition element (s : str) : Prop := s <> [] /\ Forall letter s.
(** empty lines and comments *)
Definition skipped (l : str) : Prop := is_line [] l \/ exists w ws, is_line (("#"%char :: w) :: ws) l.
(** a charge as it is written behind the symbol: nothing, + or -, a digit up to 8 and the sign *)
Definition charge_text (v : Z) (ch : str) : Prop :=
  ch = [] /\ v = 0%Z \/ (exists sg, is_sign sg /\ ch = [sg] /\ v = sign_value sg) \/
  (exists sg k, is_sign sg /\ (k <= 8)%nat /\ ch = [charge_digit k; sg] /\ v = (sign_value sg * Z.of_nat k)%Z).

(** the answer of a new process that can open every file and finds [lines] in it *)
Definition sees (lines : list str) : env := mkEnv None (fun _ => true) (fun p => Some p) (fun _ => Some lines) [] [].
Definition fresh_answer (num : str -> option R) (lines : list str) (c : call) : res answer := snd (run_call num c (sees lines) lib0).

(** *** Electron numbers: element, atomic number, charges of the ions *)
Definition ion := (str * Z * list Z)%type.
Inductive ion_file : list ion -> list str -> Prop :=
| ions_end : ion_file [] []
| ions_skip l recs lines : skipped l -> ion_file recs lines -> ion_file recs (l :: lines)
| ions_line el z vs zt vts l recs lines : is_line (el :: zt :: vts) l -> number_text z zt -> Forall2 number_text vs vts ->
    ion_file recs lines -> ion_file ((el, z, vs) :: recs) (l :: lines).
Definition ion_name (r : ion) : str := fst (fst r).
Definition ion_charges (r : ion) : list Z := snd r.
(** elements and ions that are listed *)
Definition listed (recs : list ion) : nat := fold_right (fun r n => 1 + length (ion_charges r) + n)%nat 0%nat recs.
Definition good_ions (recs : list ion) : Prop :=
  NoDup (map ion_name recs) /\
  forall r, In r recs -> element (ion_name r) /\ NoDup (ion_charges r) /\ forall v, In v (ion_charges r) -> v <> 0%Z /\ (-8 <= v <= 8)%Z.

(** *** X-ray and electron scattering: symbol, a1..a5, c, b1..b5 *)
Definition wkrec := (str * (list R * R * list R))%type.
(** every word is a number of the file *)
Definition numbers (num : str -> option R) (ws : list str) (xs : list R) : Prop := Forall2 (fun w x => num w = Some x) ws xs.
(** a line that does not start with #S or #L *)
Definition other_line (l : str) : Prop := is_line [] l \/ exists w ws, is_line (w :: ws) l /\
  (forall r, w <> "#"%char :: "S"%char :: r) /\ (forall r, w <> "#"%char :: "L"%char :: r).
Inductive wk_file (num : str -> option R) : list wkrec -> list str -> Prop :=
| wk_end : wk_file num [] []
| wk_other l recs lines : other_line l -> wk_file num recs lines -> wk_file num recs (l :: lines)
| wk_block sym a b c s n ls more mid mid' sl ll dl dws recs lines :
    is_line (("#"%char :: "S"%char :: s) :: n :: sym :: more) sl -> Forall other_line mid ->
    is_line (("#"%char :: "L"%char :: ls) :: mid') ll -> is_line dws dl -> numbers num dws (a ++ c :: b) ->
    length a = 5%nat -> length b = 5%nat ->
    wk_file num recs lines -> wk_file num ((sym, (a, c, b)) :: recs) (sl :: mid ++ ll :: dl :: lines).
Definition wk_name (r : wkrec) : str := fst r.
(** the sum of five Gaussians and a constant; s = sin(theta)/lambda *)
Definition five_gaussians (r : wkrec) (s : R) : R :=
  let '(_, (a, c, b)) := r in c + sumf (fun i => nth i a 0 * exp (- nth i b 0 * s²)) (seq 0 5).
Definition q_to_s (q : R) : R := q / (4 * PI).

(** the name of an atom or ion in the files: Ca, Ca2+ *)
Definition standard_name (el : str) (v : Z) (name : str) : Prop :=
  v = 0%Z /\ name = el \/ exists sg k, is_sign sg /\ (1 <= k <= 8)%nat /\ name = el ++ [charge_digit k; sg] /\ v = (sign_value sg * Z.of_nat k)%Z.
Definition good_wk (recs : list wkrec) : Prop :=
  NoDup (map wk_name recs) /\ forall r, In r recs -> exists el v, element el /\ standard_name el v (wk_name r).

(** *** Neutrons *)
(** a line with a scattering length: an element with its atomic number, or an isotope with mass number and abundance or half-life *)
Inductive nrec := Element (Z el : str) (b : R) | Isotope (Z el A life : str) (b : R).
Definition is_digits (s : str) : Prop := s <> [] /\ Forall (fun c => In c (chars "0123456789")) s.
(** eleven items with commas between them; the last one is not empty *)
Fixpoint joined (ws : list str) : str := match ws with [] => [] | [w] => w | w :: r => w ++ ","%char :: joined r end.
Definition items (ws : list str) (l : str) : Prop :=
  length ws = 11%nat /\ Forall (fun w => ~ In ","%char w) ws /\ last ws [] <> [] /\ l = joined ws.
Definition nrec_ok (r : nrec) : Prop :=
  match r with
  | Element Z el b => is_digits Z /\ element el
  | Isotope Z el A life b => is_digits Z /\ element el /\ is_digits A
  end.
Definition nrec_items (num : str -> option R) (r : nrec) (ws : list str) : Prop :=
  match r with
  | Element Z el b => nth 0 ws [] = Z ++ "-"%char :: el /\ nth 3 ws [] <> [] /\ num (nth 3 ws []) = Some b
  | Isotope Z el A life b => nth 0 ws [] = Z ++ "-"%char :: el ++ "-"%char :: A /\ nth 1 ws [] = life /\ nth 3 ws [] <> [] /\ num (nth 3 ws []) = Some b
  end.
Inductive nsf_file (num : str -> option R) : list nrec -> list str -> Prop :=
| nsf_end : nsf_file num [] []
| nsf_skip l recs lines : (l = [] \/ exists r, l = "#"%char :: r) -> nsf_file num recs lines -> nsf_file num recs (l :: lines)
| nsf_none l ws recs lines : items ws l -> (forall r, nth 0 ws [] <> "#"%char :: r) -> nth 3 ws [] = [] ->
    nsf_file num recs lines -> nsf_file num recs (l :: lines)
| nsf_line r l ws recs lines : items ws l -> nrec_ok r -> nrec_items num r ws -> nsf_file num recs lines -> nsf_file num (r :: recs) (l :: lines).
(** the isotope that stands for its element: the only one, or one with a half-life in years *)
Definition stands_for (el : str) (r : nrec) : Prop :=
  match r with
  | Element _ el' _ => el' = el
  | Isotope _ el' _ life _ => el' = el /\ (life = chars "100" \/ head (rev life) = Some "Y"%char)
  end.
Definition must_be_first (el : str) (r : nrec) : Prop :=
  match r with Element _ el' _ => el' = el | Isotope _ el' _ life _ => el' = el /\ life = chars "100" end.
Definition isotope_of (el A : str) (r : nrec) : Prop := match r with Isotope _ el' A' _ _ => el' = el /\ A' = A | _ => False end.
Definition nrec_b (r : nrec) : R := match r with Element _ _ b | Isotope _ _ _ _ b => b end.
(** no isotope twice, no entry of an element after another that stands for it, and every isotope says how it occurs *)
Definition good_nsf (recs : list nrec) : Prop :=
  (forall l1 r1 l2 r2 l3 el A, recs = l1 ++ r1 :: l2 ++ r2 :: l3 -> isotope_of el A r1 -> ~ isotope_of el A r2) /\
  (forall l1 r1 l2 r2 l3 el, recs = l1 ++ r1 :: l2 ++ r2 :: l3 -> stands_for el r1 -> ~ must_be_first el r2) /\
  (forall r, In r recs -> match r with Isotope _ _ _ life _ => life <> [] | _ => True end).

(** the neutron, deuterium and tritium must be there *)
Definition has_isotope (recs : list nrec) (el A : str) : Prop := exists r, In r recs /\ isotope_of el A r.
Definition complete_nsf (recs : list nrec) : Prop := has_isotope recs (chars "n") (chars "1") /\ has_isotope recs (chars "H") (chars "2") /\ has_isotope recs (chars "H") (chars "3").

(** *** Bond valence parameters *)
Definition bvrec := (str * Z * str * Z * R * R)%type.
Definition bv_param (r : bvrec) : key * (R * R) := let '(a0, v0, a1, v1, Ro, B) := r in (bond_key a0 v0 a1 v1, (Ro, B)).
Inductive bv_lines (num : str -> option R) : list bvrec -> list str -> Prop :=
| bvl_end : bv_lines num [] []
| bvl_skip l recs lines : skipped l -> bv_lines num recs lines -> bv_lines num recs (l :: lines)
| bvl_line a0 v0 t0 a1 v1 t1 Ro wRo B wB ref more l recs lines :
    is_line (a0 :: t0 :: a1 :: t1 :: wRo :: wB :: ref :: more) l -> (forall r, a0 <> "#"%char :: r) ->
    number_text v0 t0 -> number_text v1 t1 -> num wRo = Some Ro -> num wB = Some B ->
    bv_lines num recs lines -> bv_lines num ((a0, v0, a1, v1, Ro, B) :: recs) (l :: lines).
(** the bond and the values of the parameters that are returned *)
Definition value_of (o : option bvparam) : option (key * (R * R)) := option_map (fun p => (key_of p, (mRo p, mB p))) o.
(** header, the line _valence_param_B, the rest of the header, an empty line, and the records *)
Definition bv_file (num : str -> option R) (recs : list bvrec) (lines : list str) : Prop :=
  exists h1 hl h2 bl body, lines = h1 ++ hl :: h2 ++ bl :: body /\
    Forall (fun l => forall ws, ~ is_line (chars "_valence_param_B" :: ws) l) h1 /\ (exists ws, is_line (chars "_valence_param_B" :: ws) hl) /\
    Forall (fun l => ~ is_line [] l) h2 /\ is_line [] bl /\ bv_lines num recs body.
(** the first record of a bond *)
Fixpoint first_param (recs : list bvrec) (k : key) : option (R * R) :=
  match recs with [] => None | r :: rest => if key_dec (fst (bv_param r)) k then Some (snd (bv_param r)) else first_param rest k end.

(** *** Histories *)
(** what kind of data a call needs *)
Inductive kind := KWk | KIon | KNeutron | KBv | KPath.
Definition kind_of (c : call) : kind :=
  match c with CXray _ _ | CElectron _ _ => KWk | CNumber _ => KIon | CNeutron _ => KNeutron | CBv _ => KBv | CPath _ => KPath end.
Definition file_of (k : kind) : string :=
  match k with KWk => "f0_WaasKirf.dat" | KIon => "ionlist.dat" | KNeutron => "nsftable.dat" | KBv => "bvparm2011sel.cif" | KPath => "" end.
(** a complete file of its kind *)
Definition well_formed (num : str -> option R) (k : kind) (lines : list str) : Prop :=
  match k with
  | KWk => exists recs, wk_file num recs lines /\ good_wk recs
  | KIon => exists recs, ion_file recs lines /\ good_ions recs /\ (447 <= listed recs)%nat
  | KNeutron => exists recs, nsf_file num recs lines /\ good_nsf recs /\ complete_nsf recs
  | KBv => exists recs, bv_file num recs lines
  | KPath => True
  end.
(** the answer of an empty table *)
Definition empty_answer (c : call) : res answer := match c with CBv _ => Val (ABv None) | _ => Exc InvalidArgument end.
(** in this state the file cannot be found or opened *)
Definition cannot_open (num : str -> option R) (k : kind) (e : env) (L : lib) : Prop :=
    (exists x, snd (run_call num (CPath (chars (file_of k))) e L) = Exc x) \/ (exists p, snd (run_call num (CPath (chars (file_of k))) e L) = Val (APath p) /\ e_file e p = None).
(** *** Paths *)
(** same directories, any value of the variable *)
Definition same_fs (e e' : env) : Prop := (forall p, e_isdir e p = e_isdir e' p) /\ (forall p, e_real e p = e_real e' p) /\ e_d1 e = e_d1 e' /\ e_d2 e = e_d2 e'.
(** the variable has this value, or is unset or empty as this one *)
Definition has_var (e : env) (v : option str) : Prop := match v with Some (c :: p) => e_var e = v | _ => match e_var e with Some (_ :: _) => False | _ => True end end.
(** the path without its trailing slashes; the root stays *)
Definition no_trailing (p d : str) : Prop :=
  (exists n, p = d ++ repeat "/"%char n) /\ (d = ["/"%char] \/ d <> [] /\ head (rev d) <> Some "/"%char).
(** a file in a directory, or the directory itself *)
Definition in_dir (q f : str) : str := q ++ match f with [] => [] | _ => "/"%char :: f end.
