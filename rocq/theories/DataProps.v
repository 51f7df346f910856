(** C77-C82: the data tables that come with the library and the path to them. *)
From Coq Require Import Ascii String.
From Verif Require Import Base RBase Trig Sums Bvs BvsSpec BvsProofs Data DataSpec DataText DataIons DataNsf DataHist DataExample DataShipped DataShippedProofs.
Open Scope R_scope.
Open Scope list_scope.
Notation length := List.length.

(** *** C77: electron numbers *)
(** An isotope prefix and every way to write the charge are accepted; the number of electrons is the atomic number minus
    the charge, and a charge that is not listed is an invalid_argument. *)
Theorem C77_electron_number num recs lines el z vs iso v ch : ion_file recs lines -> good_ions recs -> (447 <= listed recs)%nat -> In (el, z, vs) recs ->
  Forall prefix_char iso -> charge_text v ch ->
  fresh_answer num lines (CNumber (iso ++ el ++ ch)) =
    if Z.eq_dec v 0 then Val (AInt z) else if in_dec Z.eq_dec v vs then Val (AInt (z - v)) else Exc InvalidArgument.
Proof. apply electron_number. Qed.
Print Assumptions C77_electron_number.
Theorem C77_unknown num recs lines sym iso v ch : ion_file recs lines -> good_ions recs -> (447 <= listed recs)%nat ->
  element sym -> ~ In sym (map ion_name recs) -> Forall prefix_char iso -> charge_text v ch ->
  fresh_answer num lines (CNumber (iso ++ sym ++ ch)) = Exc InvalidArgument.
Proof. apply electron_unknown. Qed.
Print Assumptions C77_unknown.
(** A file with fewer than 447 entries is refused. *)
Theorem C77_incomplete_file num recs lines s : ion_file recs lines -> good_ions recs -> (listed recs < 447)%nat ->
  fresh_answer num lines (CNumber s) = Exc RuntimeError.
Proof. apply electron_incomplete. Qed.
Print Assumptions C77_incomplete_file.
(** The file in the source tree has exactly 447 entries; this is what it gives. *)
Theorem C77_shipped_file num el z vs iso v ch : In (el, z, vs) shipped_ions -> Forall prefix_char iso -> charge_text v ch ->
  fresh_answer num (map chars ionlist_dat) (CNumber (iso ++ chars el ++ ch)) =
    if Z.eq_dec v 0 then Val (AInt z) else if in_dec Z.eq_dec v vs then Val (AInt (z - v)) else Exc InvalidArgument.
Proof.
  intros Hin. apply (electron_number num ion_records ion_lines); [apply ions_shipped|apply ions_good|rewrite (proj2 ions_good); apply le_n|].
  change (chars el, z, vs) with (ion_of (el, z, vs)). now apply in_map.
Qed.
Print Assumptions C77_shipped_file.
Example C77_nonvacuous : (exists recs lines, ion_file recs lines /\ good_ions recs /\ (447 <= listed recs)%nat /\ In (chars "Na", 11%Z, charges16) recs) /\
  In ("Na"%string, 11%Z, [-1; 1]%Z) shipped_ions /\ charge_text 1 (chars "+") /\ charge_text 1 (chars "1+") /\ charge_text 2 (chars "2+") /\ Forall prefix_char (chars "23-").
Proof.
  split; [exists ions27, ionlines27; split; [apply file27|split; [apply good27|split; [apply good27|]]]; unfold ions27; apply in_map_iff; exists (chars "Na"); split; [reflexivity|]; unfold names27; apply in_or_app; right; now left|].
  split; [cbn; tauto|]. split; [right; left; exists "+"%char; repeat split; now left|]. split; [right; right; exists "+"%char, 1%nat; repeat split; auto; try lia; now left|].
  split; [right; right; exists "+"%char, 2%nat; repeat split; auto; try lia; now left|]. repeat constructor; unfold prefix_char; cbn; tauto.
Qed.

(** *** C78: X-ray and electron scattering factors *)
(** Neutral atoms and charges +1 and -1 can be written with an isotope prefix and with or without the digit; other ions as
    they are in the table. *)
Theorem C78_xray_partial num recs lines r el v iso ch q : wk_file num recs lines -> good_wk recs -> In r recs -> element el -> standard_name el v (wk_name r) ->
  Forall prefix_char iso -> charge_text v ch -> (-1 <= v <= 1)%Z \/ iso ++ el ++ ch = wk_name r ->
  fresh_answer num lines (CXray (iso ++ el ++ ch) q) = Val (AReal (five_gaussians r (q_to_s q))).
Proof. apply xray_named. Qed.
Print Assumptions C78_xray_partial.
(** An isotope of an ion with a higher charge is not found, although its electron number is (C77). *)
Theorem C78_higher_charge_refuted : exists num recs lines r iso, wk_file num recs lines /\ good_wk recs /\ In r recs /\ standard_name (chars "Ca") 2 (wk_name r) /\
  Forall prefix_char iso /\ charge_text 2 (chars "2+") /\
  fresh_answer num lines (CXray (chars "Ca" ++ chars "2+") 0) = Val (AReal (five_gaussians r 0)) /\
  fresh_answer num lines (CXray (iso ++ chars "Ca" ++ chars "2+") 0) = Exc InvalidArgument.
Proof. exact higher_charge. Qed.
Print Assumptions C78_higher_charge_refuted.
(** The Mott-Bethe formula with the charge number of the nucleus and electrons rounded to an integer; at Q near 0 DOUBLE_MAX. *)
Theorem C78_electron_partial num recs lines r el v iso ch q : wk_file num recs lines -> good_wk recs -> In r recs -> element el -> standard_name el v (wk_name r) ->
  Forall prefix_char iso -> charge_text v ch -> (-1 <= v <= 1)%Z \/ iso ++ el ++ ch = wk_name r -> let s := q_to_s q in
  (Rabs s <= SQRT_DOUBLE_EPS -> fresh_answer num lines (CElectron (iso ++ el ++ ch) q) = Val AHuge) /\
  (SQRT_DOUBLE_EPS < Rabs s -> exists Z : Z, Rabs (IZR Z - five_gaussians r 0) <= 1 / 2 /\
    fresh_answer num lines (CElectron (iso ++ el ++ ch) q) = Val (AReal (0.023934 * (IZR Z - five_gaussians r s) / s²))).
Proof. apply electron_named. Qed.
Print Assumptions C78_electron_partial.
Theorem C78_unknown num recs lines el v iso ch q : wk_file num recs lines -> good_wk recs -> element el -> Forall prefix_char iso -> charge_text v ch ->
  (forall r, In r recs -> ~ standard_name el v (wk_name r)) ->
  fresh_answer num lines (CXray (iso ++ el ++ ch) q) = Exc InvalidArgument /\ fresh_answer num lines (CElectron (iso ++ el ++ ch) q) = Exc InvalidArgument.
Proof. apply xray_unknown. Qed.
Print Assumptions C78_unknown.
Theorem C78_even num lines s q : fresh_answer num lines (CXray s (- q)) = fresh_answer num lines (CXray s q) /\
  fresh_answer num lines (CElectron s (- q)) = fresh_answer num lines (CElectron s q).
Proof. apply even. Qed.
Print Assumptions C78_even.
(** The file in the source tree: every entry is found under its own name, and its eleven numbers are used. *)
Theorem C78_shipped_file num sym ws q : In (sym, ws) shipped_formulas -> (forall r w, In r shipped_formulas -> In w (snd r) -> num (chars w) <> None) ->
  exists r, wk_name r = chars sym /\ numbers num (map chars ws) (let '(_, (a, c, b)) := r in a ++ c :: b) /\
    fresh_answer num (map chars waaskirf_dat) (CXray (chars sym) q) = Val (AReal (five_gaussians r (q_to_s q))).
Proof.
  intros Hin Hn. exists (wrec_of num (sym, ws)). split; [reflexivity|].
  assert (Hr : In (wrec_of num (sym, ws)) (wk_records num)) by now apply in_map.
  pose proof (wk_shipped num Hn) as HF. pose proof (wk_good_shipped num) as HG.
  split.
  - assert (L : length ws = 11%nat).
    { assert (H : forallb (fun r => (length (snd r) =? 11)%nat) shipped_formulas = true) by (vm_compute; reflexivity). rewrite forallb_forall in H. now apply Nat.eqb_eq, (H (sym, ws)). }
    unfold wrec_of. cbn [fst snd]. replace (firstn 5 (vals num ws) ++ nth 5 (vals num ws) 0 :: skipn 6 (vals num ws)) with (vals num ws).
    + apply vals_numbers. intros w Hw. now apply (Hn (sym, ws)).
    + assert (LV : length (vals num ws) = 11%nat) by (unfold vals; now rewrite map_length). clear - LV. set (v := vals num ws) in *. do 6 (destruct v as [|? v]; [discriminate|]). reflexivity.
  - destruct HG as [HG1 HG2]. destruct (HG2 _ Hr) as (el & v & He & Hs). cbn [wk_name wrec_of fst] in Hs.
    destruct Hs as [[-> Hs]|(sg & k & Hsg & Hk & Hs & Hv)].
    + pose proof (xray_named num _ _ _ el 0 [] [] q HF (conj HG1 HG2) Hr He) as H. cbn [app] in H. rewrite app_nil_r in H. rewrite Hs. apply H; [left; auto|constructor|now left|left; lia].
    + pose proof (xray_named num _ _ _ el v [] [charge_digit k; sg] q HF (conj HG1 HG2) Hr He) as H. cbn [app] in H. rewrite Hs. apply H; [right; exists sg, k; auto|constructor|right; right; exists sg, k; repeat split; auto; lia|right; symmetry; exact Hs].
Qed.
Print Assumptions C78_shipped_file.
Example C78_nonvacuous : wk_file some_num [wkH; wkCa] wklines /\ good_wk [wkH; wkCa] /\ standard_name (chars "H") 0 (wk_name wkH) /\ standard_name (chars "Ca") 2 (wk_name wkCa) /\
  In ("Ca2+"%string, ["8.501441"; "12.880483"; "9.765095"; "7.156669"; "0.711160"; "-21.013187"; "10.525848"; "-0.004033"; "0.010692"; "0.684443"; "27.231771"]%string) shipped_formulas /\
  length shipped_formulas = 211%nat.
Proof. split; [apply wk_example|]. split; [apply wk_good|]. split; [apply name_H|]. split; [apply name_Ca|]. split; [cbn; tauto|reflexivity]. Qed.

(** *** C79: neutron scattering lengths *)
(** An isotope has the value of its line, whatever is written behind the symbol. *)
Theorem C79_isotope num recs lines Z el A life b ch : nsf_file num recs lines -> good_nsf recs -> complete_nsf recs -> In (Isotope Z el A life b) recs -> Forall suffix_char ch ->
  fresh_answer num lines (CNeutron (A ++ "-"%char :: el ++ ch)) = Val (AReal b).
Proof. apply neutron_isotope. Qed.
Print Assumptions C79_isotope.
(** An element has the value of its own line, or of its only or long-lived isotope: the first such line in the file. *)
Theorem C79_element num recs lines el l1 r l2 ch : nsf_file num recs lines -> good_nsf recs -> complete_nsf recs -> element el ->
  recs = l1 ++ r :: l2 -> stands_for el r -> (forall x, In x l1 -> ~ stands_for el x) -> Forall suffix_char ch ->
  fresh_answer num lines (CNeutron (el ++ ch)) = Val (AReal (nrec_b r)).
Proof. apply neutron_element. Qed.
Print Assumptions C79_element.
(** n, D and T stand for 1-n, 2-H and 3-H. *)
Theorem C79_alias num recs lines name el A r ch : nsf_file num recs lines -> good_nsf recs -> complete_nsf recs ->
  In (name, el, A) [(chars "n", chars "n", chars "1"); (chars "D", chars "H", chars "2"); (chars "T", chars "H", chars "3")] ->
  (forall x, In x recs -> ~ stands_for name x) -> In r recs -> isotope_of el A r -> Forall suffix_char ch ->
  fresh_answer num lines (CNeutron (name ++ ch)) = Val (AReal (nrec_b r)).
Proof. apply neutron_alias. Qed.
Print Assumptions C79_alias.
Theorem C79_unknown num recs lines el ch : nsf_file num recs lines -> good_nsf recs -> complete_nsf recs -> element el -> ~ In el [chars "n"; chars "D"; chars "T"] ->
  (forall x, In x recs -> ~ stands_for el x) -> Forall suffix_char ch -> fresh_answer num lines (CNeutron (el ++ ch)) = Exc InvalidArgument.
Proof. apply neutron_unknown. Qed.
Print Assumptions C79_unknown.
(** The file in the source tree. *)
Theorem C79_shipped_isotope num Z el A life w b ch : (forall r, In r shipped_neutrons -> num (chars (snd r)) <> None) ->
  In (Z, el, Some (A, life), w) shipped_neutrons -> num (chars w) = Some b -> Forall suffix_char ch ->
  fresh_answer num (map chars nsftable_dat) (CNeutron (chars A ++ "-"%char :: chars el ++ ch)) = Val (AReal b).
Proof.
  intros Hn Hin Hw. apply (neutron_isotope num (nsf_records num) _ (chars Z) (chars el) (chars A) (chars life)); [now apply nsf_shipped|apply nsf_good_shipped|apply nsf_complete_shipped|].
  replace (Isotope (chars Z) (chars el) (chars A) (chars life) b) with (nrec_of num (Z, el, Some (A, life), w)); [now apply in_map|]. cbn. unfold value. now rewrite Hw.
Qed.
Print Assumptions C79_shipped_isotope.
Theorem C79_shipped_element num Z el w b ch : (forall r, In r shipped_neutrons -> num (chars (snd r)) <> None) ->
  In (Z, el, None, w) shipped_neutrons -> num (chars w) = Some b -> Forall suffix_char ch ->
  fresh_answer num (map chars nsftable_dat) (CNeutron (chars el ++ ch)) = Val (AReal b).
Proof.
  intros Hn Hin Hw Hch. pose proof (nsf_shipped num Hn) as HF. pose proof (nsf_good_shipped num) as HG.
  assert (Hr : In (Element (chars Z) (chars el) b) (nsf_records num)).
  { replace (Element (chars Z) (chars el) b) with (nrec_of num (Z, el, None, w)); [now apply in_map|]. cbn. unfold value. now rewrite Hw. }
  assert (He : element (chars el)).
  { assert (H : forallb (fun r : string * string * option (string * string) * string => elementb (chars (snd (fst (fst r))))) shipped_neutrons = true) by (vm_compute; reflexivity).
    rewrite forallb_forall in H. apply elementb_sound. exact (H _ Hin). }
  apply in_split in Hr as (l1 & l2 & E). change b with (nrec_b (Element (chars Z) (chars el) b)).
  apply (neutron_element num (nsf_records num) _ (chars el) l1 _ l2); auto; [apply nsf_complete_shipped|reflexivity|].
  intros x Hx Hs. apply in_split in Hx as (m1 & m2 & ->). rewrite <- app_assoc in E. cbn [app] in E. destruct HG as (_ & HG & _).
  now apply (HG _ _ _ _ _ (chars el) E).
Qed.
Print Assumptions C79_shipped_element.
Theorem C79_shipped_alias num Z el A life w b name ch : (forall r, In r shipped_neutrons -> num (chars (snd r)) <> None) ->
  In (name, el, A) [("n", "n", "1"); ("D", "H", "2"); ("T", "H", "3")]%string -> In (Z, el, Some (A, life), w) shipped_neutrons -> num (chars w) = Some b -> Forall suffix_char ch ->
  fresh_answer num (map chars nsftable_dat) (CNeutron (chars name ++ ch)) = Val (AReal b).
Proof.
  intros Hn Ha Hin Hw Hch. replace b with (nrec_b (nrec_of num (Z, el, Some (A, life), w))) by (cbn; unfold value; now rewrite Hw).
  apply (neutron_alias num (nsf_records num) _ (chars name) (chars el) (chars A)); [now apply nsf_shipped|apply nsf_good_shipped|apply nsf_complete_shipped| | |now apply in_map|cbn; auto|auto].
  - cbn in Ha. decompose [or] Ha; try contradiction; match goal with H : _ = _ |- _ => injection H as <- <- <- end; cbn; tauto.
  - apply no_alias_entry. cbn in Ha. decompose [or] Ha; try contradiction; match goal with H : _ = _ |- _ => injection H as <- <- <- end; cbn; tauto.
Qed.
Print Assumptions C79_shipped_alias.
Example C79_nonvacuous : nsf_file some_num nsf_recs nsf_lines /\ good_nsf nsf_recs /\ complete_nsf nsf_recs /\ length shipped_neutrons = 336%nat /\
  In ("6"%string, "C"%string, Some ("12", "98.89")%string, "6.6535(14)"%string) shipped_neutrons /\ Forall suffix_char (chars "-12") /\
  fresh_answer some_num nsf_lines (CNeutron (chars "H")) = Val (AReal 2) /\ fresh_answer some_num nsf_lines (CNeutron (chars "D")) = Val (AReal 3).
Proof.
  split; [apply nsf_example|]. split; [apply nsf_good|]. split; [apply nsf_complete|]. split; [reflexivity|]. split; [cbn; tauto|]. split; [repeat constructor; unfold suffix_char; cbn; tauto|]. split.
  - pose proof (neutron_element some_num nsf_recs nsf_lines (chars "H") [Isotope (chars "0") (chars "n") (chars "1") (chars "618 S") 1] (Element (chars "1") (chars "H") 2)
      [Isotope (chars "1") (chars "H") (chars "2") (chars "0.0149") 3; Isotope (chars "1") (chars "H") (chars "3") (chars "12.26 Y") 4; Isotope (chars "4") (chars "Be") (chars "9") (chars "100") 5] []
      nsf_example nsf_good nsf_complete el_H eq_refl eq_refl) as H. rewrite app_nil_r in H. apply H; [|constructor]. intros x [<-|[]] [E _]. discriminate.
  - pose proof (neutron_alias some_num nsf_recs nsf_lines (chars "D") (chars "H") (chars "2") (Isotope (chars "1") (chars "H") (chars "2") (chars "0.0149") 3) [] nsf_example nsf_good nsf_complete) as H.
    rewrite app_nil_r in H. apply H; [cbn; tauto| |cbn; tauto|split; reflexivity|constructor].
    intros x Hx. cbn [nsf_recs In] in Hx. decompose [or] Hx; subst; cbn; try (intros [E _]; discriminate); try discriminate; contradiction.
Qed.

(** *** C80: the tables in the life of a process *)
(** The first call that needs a table reads it; if the file is complete, that call and all later ones answer as a new process
    that sees this text, whatever has happened to the file or to DIFFPYRUNTIME, and whatever other calls there are. *)
Theorem C80_read_once num h1 e c h2 p lines : kind_of c <> KPath -> (forall e' c', In (e', c') h1 -> kind_of c' <> kind_of c) ->
  snd (run_call num (CPath (chars (file_of (kind_of c)))) e (fst (run num h1 lib0))) = Val (APath p) -> e_file e p = Some lines -> well_formed num (kind_of c) lines ->
  forall i e' c', nth_error (h1 ++ (e, c) :: h2) i = Some (e', c') -> kind_of c' = kind_of c ->
  nth_error (snd (run num (h1 ++ (e, c) :: h2) lib0)) i = Some (fresh_answer num lines c').
Proof. apply once. Qed.
Print Assumptions C80_read_once.
(** When the file cannot be opened at the first call, all later calls answer from an empty table. *)
Theorem C80_failed_for_good num h1 e c h2 : kind_of c <> KPath -> (forall e' c', In (e', c') h1 -> kind_of c' <> kind_of c) ->
  cannot_open num (kind_of c) e (fst (run num h1 lib0)) ->
  forall i e' c', nth_error h2 i = Some (e', c') -> kind_of c' = kind_of c ->
  nth_error (snd (run num (h1 ++ (e, c) :: h2) lib0)) (S (length h1) + i) = Some (empty_answer c').
Proof. apply history_failed. Qed.
Print Assumptions C80_failed_for_good.
(** A call does not recover when the file is there again. *)
Theorem C80_recovery_refuted : exists num lines h, well_formed num KIon lines /\
  h = [(no_file, CNumber (chars "Na")); (sees lines, CNumber (chars "Na"))] /\
  fresh_answer num lines (CNumber (chars "Na")) = Val (AInt 11) /\
  snd (run num h lib0) = [Exc RuntimeError; Exc InvalidArgument].
Proof. exact recovers_not. Qed.
Print Assumptions C80_recovery_refuted.
Example C80_nonvacuous num : cannot_open num KIon no_file lib0 /\ well_formed some_num KWk wklines /\ well_formed some_num KNeutron nsf_lines /\ well_formed some_num KBv bv_example_lines.
Proof.
  split; [right; eexists; split; reflexivity|]. split; [exists [wkH; wkCa]; split; [apply wk_example|apply wk_good]|].
  split; [exists nsf_recs; split; [apply nsf_example|split; [apply nsf_good|apply nsf_complete]]|exists bv_example_recs; apply bv_example].
Qed.

(** *** C81: paths *)
(** With a file system that does not change, the path is that of the current value of DIFFPYRUNTIME, without trailing slashes
    and with links resolved, and of the library's own directory when the variable is unset or empty. *)
Theorem C81_datapath num h e f : (forall e' c', In (e', c') h -> same_fs e e') ->
  let x := snd (run_call num (CPath f) e (fst (run num h lib0))) in
  match e_var e with
  | Some ((_ :: _) as pe) => forall d, no_trailing pe d ->
      (e_isdir e d = false -> x = Exc RuntimeError) /\ (forall q, e_isdir e d = true -> e_real e d = Some q -> x = Val (APath (in_dir q f)))
  | _ => (e_isdir e (e_d1 e) = false -> e_isdir e (e_d2 e) = false -> x = Exc RuntimeError) /\
      (forall q, e_isdir e (e_d1 e) = true -> e_real e (e_d1 e) = Some q -> x = Val (APath (in_dir q f))) /\
      (forall q, e_isdir e (e_d1 e) = false -> e_isdir e (e_d2 e) = true -> e_real e (e_d2 e) = Some q -> x = Val (APath (in_dir q f)))
  end.
Proof. apply path_value. Qed.
Print Assumptions C81_datapath.
(** With a file system that changes: the answer is one that this call or an earlier one with the same variable had to give. *)
Theorem C81_changing_directories num h e f p : snd (run_call num (CPath f) e (fst (run num h lib0))) = Val (APath p) ->
  exists e', (e' = e \/ exists c', In (e', c') h) /\ has_var e' (e_var e) /\ snd (run_call num (CPath f) e' lib0) = Val (APath p).
Proof. apply path_seen. Qed.
Print Assumptions C81_changing_directories.
Example C81_nonvacuous : no_trailing (chars "/a//") (chars "/a") /\ no_trailing (chars "//") (chars "/") /\ same_fs (env_var "/a") (env_var "/b/c") /\
  forall num, snd (run num [(env_var "/a//", CPath (chars "x")); (env_var "/b/c", CPath []); (env_var "/nowhere", CPath []); (env_var "/a", CPath [])] lib0) =
    [Val (APath (chars "/a/x")); Val (APath (chars "/b/c")); Exc RuntimeError; Val (APath (chars "/a"))].
Proof.
  split; [split; [exists 2%nat; reflexivity|right; split; discriminate]|]. split; [split; [exists 1%nat; reflexivity|now left]|]. split; [repeat split; auto|]. reflexivity.
Qed.

(** *** C82: standard bond valence parameters *)
(** A lookup gives the first record of the file for that bond, in either order of its atoms. *)
Theorem C82_standard_parameters num recs lines k : bv_file num recs lines ->
  exists o, fresh_answer num lines (CBv k) = Val (ABv o) /\ value_of o = option_map (pair (key_of k)) (first_param recs (key_of k)).
Proof. apply bv_main. Qed.
Print Assumptions C82_standard_parameters.
Example C82_nonvacuous : bv_file some_num bv_example_recs bv_example_lines /\
  first_param bv_example_recs (bond_key (chars "Cl") (-1) (chars "Na") 1) = Some (2, 1).
Proof.
  split; [apply bv_example|]. unfold bv_example_recs. cbn [first_param bv_param fst snd].
  match goal with |- (if ?b then _ else _) = _ => destruct b as [_|N] end; [reflexivity|]. exfalso. apply N. vm_compute. reflexivity.
Qed.
