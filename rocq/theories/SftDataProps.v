(** Property C99: the four scattering factor tables of the library in the life of a process, and the files they come from. *)
From Coq Require Import Ascii String.
From Verif Require Import Base AList RBase Trig Sums Bvs BvsSpec BvsProofs Tables TablesSpec TablesProofs TablesProps Data DataSpec DataText DataIons DataWk DataNsf DataHist DataExample DataShipped DataShippedProofs DataProps SftData SftDataSpec SftDataProofs SftDataShipped.
Open Scope R_scope.
Open Scope list_scope.
Notation length := List.length.

(** Any history of one table and of the library, in which the file is complete when the table is first needed: a lookup gives
    the value of the file for that symbol, or for its custom source times the scale, or invalid_argument. *)
Theorem C99_lookups num r h1 e u h2 p lines : (forall e' u', In (e', u') h1 -> untouched r u') -> ~ untouched r u ->
  snd (run_call num (CPath (chars (file_of (data_kind r)))) e (fst (fst (urun num r h1 (lib0, sft0))))) = Val (APath p) -> e_file e p = Some lines -> well_formed num (data_kind r) lines ->
  let h := h1 ++ (e, u) :: h2 in let std := standard num r lines in
  forall i e' s q, nth_error h i = Some (e', ULook s q) ->
  nth_error (snd (urun num r h (lib0, sft0))) i = Some (Looked (
    match custom_after std (edits (firstn i h)) s with
    | None => match std s q with Some f => Val (Fin f) | None => Exc InvalidArgument end
    | Some (src, scale) => match std src q with Some f => Val (xmul f scale) | None => Exc InvalidArgument end
    end)).
Proof.
  intros H1 HU HP HF HW h std i e' s q Hi. pose proof (tables_run num r lines (formed_readable _ _ _ HW) h1 e u h2 p H1 HU HP HF i e' s q Hi) as E. fold h in E. rewrite E. f_equal. f_equal. fold std. rewrite C39_lookup.
  destruct (custom_after std (edits (firstn i h)) s) as [[src scale]|]; [destruct (std src q)|destruct (std s q)]; reflexivity.
Qed.
Print Assumptions C99_lookups.
(** Which data: X-ray factors at q, electron factors at q (DOUBLE_MAX near zero), scattering lengths and electron numbers at any q. *)
Theorem C99_kinds num lines s q :
  (forall x, standard num SFTXray lines s q = Some x <-> fresh_answer num lines (CXray (chars s) q) = Val (AReal x)) /\
  (forall x, fresh_answer num lines (CElectron (chars s) q) = Val (AReal x) -> standard num SFTElectron lines s q = Some x) /\
  (fresh_answer num lines (CElectron (chars s) q) = Val AHuge -> standard num SFTElectron lines s q = Some PdfGrid.DOUBLE_MAX) /\
  (forall x, standard num SFTNeutron lines s q = Some x <-> fresh_answer num lines (CNeutron (chars s)) = Val (AReal x)) /\
  (forall n, fresh_answer num lines (CNumber (chars s)) = Val (AInt n) -> standard num SFTElectronNumber lines s q = Some (IZR n)) /\
  (forall q', standard num SFTNeutron lines s q' = standard num SFTNeutron lines s q /\ standard num SFTElectronNumber lines s q' = standard num SFTElectronNumber lines s q).
Proof.
  unfold standard. cbn [std_call]. change (list_ascii_of_string s) with (chars s). rewrite fresh_wk, DataNsf.fresh_bc.
  split; [|split; [|split; [|split; [|split]]]].
  - intros x. destruct (read_wk num [] [] lines); [|split; discriminate|split; discriminate]. destruct (find_wk _ _); [|split; discriminate]. cbn [real_of]. split; intros E; [injection E as <-|injection E as <-]; reflexivity.
  - intros x ->. reflexivity.
  - intros ->. reflexivity.
  - intros x. destruct (read_nsf_file num lines); [|split; discriminate|split; discriminate]. destruct (find_bc _ _); [|split; discriminate]. cbn [real_of]. split; intros E; injection E as <-; reflexivity.
  - intros n ->. reflexivity.
  - intros q'. split; reflexivity.
Qed.
Print Assumptions C99_kinds.
(** The class names are those of the registry, one for each table; so are the types of radiation. *)
Theorem C99_names r r' : (sft_type r = sft_type r' -> r = r') /\ (radiationType r = radiationType r' -> r = r') /\ In (sft_type r, radiationType r) [("xray", "X"); ("electron", "E"); ("neutron", "N"); ("electronnumber", "EN")]%string.
Proof. split; [|split]; [destruct r, r'; reflexivity || discriminate|destruct r, r'; reflexivity || discriminate|destruct r; cbn; tauto]. Qed.
Print Assumptions C99_names.
(** The files in the source tree: for every atom and ion of the X-ray file but the valence states Cval and Siva and the ions Pr4+,
    Ir3+ and Ra2+, the X-ray factor at zero is the number of electrons of the ion list within 0.04, and the electron factor is
    that of the Mott-Bethe formula with this number. *)
Definition xray_dat : list str := map chars waaskirf_dat.
Definition ion_dat : list str := map chars ionlist_dat.
Theorem C99_shipped num sym ws : reads_decimals num -> In (sym, ws) shipped_formulas -> ~ In sym ["Cval"; "Siva"; "Pr4+"; "Ir3+"; "Ra2+"]%string ->
  exists n f, (forall q, standard num SFTElectronNumber ion_dat sym q = Some (IZR n)) /\ (forall q, standard num SFTXray xray_dat sym q = Some (f q)) /\
    Rabs (f 0 - IZR n) <= 4 / 100 /\
    forall q, SQRT_DOUBLE_EPS < Rabs (q_to_s q) -> standard num SFTElectron xray_dat sym q = Some (0.023934 * (IZR n - f q) / (q_to_s q)²).
Proof.
  intros HN Hin Hne. destruct (near_number num HN sym ws Hin) as (o & Eo & H). destruct o as [n|]; [|now destruct Hne].
  assert (E0 : q_to_s 0 = 0) by (unfold q_to_s, Rdiv; ring). set (f := fun q => five_gaussians (wrec_of num (sym, ws)) (q_to_s q)).
  exists n, f. split; [|split; [|split]].
  - intros q. unfold standard. cbn [std_call]. change (list_ascii_of_string sym) with (chars sym). change ion_dat with ion_lines. rewrite (number_is num sym), <- Eo. reflexivity.
  - intros q. unfold standard. cbn [std_call]. change (list_ascii_of_string sym) with (chars sym). change xray_dat with wk_lines_shipped. now rewrite (proj1 (xray_is num HN sym ws q Hin)).
  - unfold f. rewrite E0. exact H.
  - intros q Hq. destruct (proj2 (proj2 (xray_is num HN sym ws q Hin)) Hq) as (Z & HZ & E). unfold standard. cbn [std_call]. change (list_ascii_of_string sym) with (chars sym). change xray_dat with wk_lines_shipped. rewrite E.
    assert (Z = n) as ->; [|reflexivity]. clear - H HZ. pose proof (Rle_abs (five_gaussians (wrec_of num (sym, ws)) 0 - IZR n)) as R1. pose proof (Rle_abs (- (five_gaussians (wrec_of num (sym, ws)) 0 - IZR n))) as R2. pose proof (Rle_abs (IZR Z - five_gaussians (wrec_of num (sym, ws)) 0)) as R3. pose proof (Rle_abs (- (IZR Z - five_gaussians (wrec_of num (sym, ws)) 0))) as R4. rewrite Rabs_Ropp in R2, R4. assert (A : (-1 < IZR (Z - n) < 1)) by (rewrite minus_IZR; lra). destruct A as [A B]. apply lt_IZR in A, B. lia.
Qed.
Print Assumptions C99_shipped.
(** Three ions have X-ray factors but no electron number; the list has Ra2- instead of Ra2+. *)
Theorem C99_every_ion_refuted num sym q : reads_decimals num -> In sym ["Pr4+"; "Ir3+"; "Ra2+"]%string ->
  (exists f, standard num SFTXray xray_dat sym q = Some f) /\ standard num SFTElectronNumber ion_dat sym q = None /\ standard num SFTElectronNumber ion_dat "Ra2-" q = Some 90.
Proof.
  intros HN H. split; [|split].
  - assert (X : exists ws, In (sym, ws) shipped_formulas).
    { assert (B : forallb (fun s => existsb (fun r => String.eqb (fst r) s) shipped_formulas) ["Pr4+"; "Ir3+"; "Ra2+"]%string = true) by (vm_compute; reflexivity). rewrite forallb_forall in B. specialize (B sym H).
      apply existsb_exists in B as ([s' ws] & B1 & B2). apply String.eqb_eq in B2. cbn [fst] in B2. subst s'. now exists ws. }
    destruct X as (ws & Hin). eexists. unfold standard. cbn [std_call]. change (list_ascii_of_string sym) with (chars sym). change xray_dat with wk_lines_shipped. rewrite (proj1 (xray_is num HN sym ws q Hin)). reflexivity.
  - unfold standard. cbn [std_call]. change (list_ascii_of_string sym) with (chars sym). change ion_dat with ion_lines. rewrite (number_is num sym), numberless_ok; [reflexivity|]. unfold numberless. cbn [In] in H |- *. tauto.
  - unfold standard. change (std_call SFTElectronNumber "Ra2-" q) with (CNumber (chars "Ra2-")). change ion_dat with ion_lines. rewrite (number_is num "Ra2-"). replace (find_en en_shipped (chars "Ra2-")) with (Some 90%Z) by (vm_compute; reflexivity). reflexivity.
Qed.
Print Assumptions C99_every_ion_refuted.
(** A custom value of an electron table set without q is meant for q = 0, where the standard value is DOUBLE_MAX: the custom value
    is then returned at zero, and practically nothing at any other q. *)
Theorem C99_electron_default_q_refuted num lines ops s src v : let std := standard num SFTElectron lines in std src 0 <> None -> Rabs v <= 10 ^ 3 ->
  exists t, setCustomAsVal std s src v 0 (sft_run std ops) = Ok t /\ sft_lookup std t s 0 = Some (Fin v) /\
    forall q f, std src q = Some f -> Rabs f <= 10 ^ 6 -> exists x, sft_lookup std t s q = Some (Fin x) /\ Rabs x <= / 10 ^ 290.
Proof.
  intros std Hs Hv. assert (MX : 10 ^ 299 <= PdfGrid.DOUBLE_MAX). { unfold PdfGrid.DOUBLE_MAX. rewrite pow_IZR. apply IZR_le. vm_compute. discriminate. }
  assert (P0 : 0 < 10 ^ 299) by (apply pow_lt; lra).
  assert (E : std src 0 = Some PdfGrid.DOUBLE_MAX).
  { unfold std, standard in *. cbn [std_call] in *. rewrite fresh_el in *. destruct (read_wk num [] [] lines); try congruence. destruct (find_wk _ _) as [f|]; [|congruence].
    assert (Z : electronatstol f (0 / (4 * PI)) = None). { unfold electronatstol, eps_eq. replace (0 / (4 * PI)) with 0 by (unfold Rdiv; ring). replace (Rleb _ _) with true; [reflexivity|]. symmetry. apply Rleb_true. rewrite Rminus_0_r, Rabs_R0. unfold SQRT_DOUBLE_EPS. lra. }
    rewrite Z in *. reflexivity. }
  destruct (C39_value std ops s src v 0 PdfGrid.DOUBLE_MAX E ltac:(lra)) as (t & E1 & E2 & (k & E3) & _). exists t. split; [exact E1|]. split; [exact E2|].
  assert (Hk : k = v / PdfGrid.DOUBLE_MAX). { rewrite (E3 0), E in E2. cbn in E2. injection E2 as E2. rewrite <- E2. field. lra. }
  intros q f Hf Hb. exists (f * k). split; [now rewrite E3, Hf|]. rewrite Hk. unfold Rdiv. rewrite !Rabs_mult, Rabs_inv, (Rabs_pos_eq PdfGrid.DOUBLE_MAX) by lra.
  assert (A : / PdfGrid.DOUBLE_MAX <= / 10 ^ 299) by now apply Rinv_le_contravar.
  assert (B : 0 <= Rabs f) by apply Rabs_pos. assert (C : 0 <= Rabs v) by apply Rabs_pos. assert (D : 0 < / PdfGrid.DOUBLE_MAX) by (apply Rinv_0_lt_compat; lra).
  apply Rle_trans with (10 ^ 6 * (10 ^ 3 * / 10 ^ 299)).
  - apply Rmult_le_compat; auto; [apply Rmult_le_pos; lra|]. apply Rmult_le_compat; auto; lra.
  - replace (10 ^ 299) with (10 ^ 6 * 10 ^ 3 * 10 ^ 290) by (rewrite <- !pow_add; reflexivity). right. field.
Qed.
Print Assumptions C99_electron_default_q_refuted.
(** A history: a custom copy, a lookup that reads the file, a change, lookups when the file is not there any more. *)
Definition sample_before : list (env * uop) := [(no_file, UEdit (SetAs "D" "H")); (no_file, ULib (CNumber (chars "Na")))]%string.
Definition sample_after : list (env * uop) := [(no_file, ULook "D" 0); (no_file, UEdit (Reset "D")); (no_file, ULook "D" 0)]%string.
Definition sample : list (env * uop) := sample_before ++ (sees wklines, ULook "Ca2+" 0) :: sample_after.
Example C99_nonvacuous :
  reads_decimals plain_num /\ In ("H"%string, firstn 11 (snd (nth 0 shipped_formulas (""%string, [])))) shipped_formulas /\ well_formed some_num KWk wklines /\
  (forall e u, In (e, u) sample_before -> untouched SFTXray u) /\ ~ untouched SFTXray (ULook "Ca2+" 0) /\
  (exists p, snd (run_call some_num (CPath (chars (file_of KWk))) (sees wklines) (fst (fst (urun some_num SFTXray sample_before (lib0, sft0))))) = Val (APath p) /\ e_file (sees wklines) p = Some wklines) /\
  nth_error (snd (urun some_num SFTXray sample (lib0, sft0))) 2 = Some (Looked (Val (Fin (five_gaussians wkCa 0)))) /\
  nth_error (snd (urun some_num SFTXray sample (lib0, sft0))) 3 = Some (Looked (Val (Fin (five_gaussians wkH 0 * 1)))) /\
  nth_error (snd (urun some_num SFTXray sample (lib0, sft0))) 5 = Some (Looked (Exc InvalidArgument)).
Proof.
  split; [exact plain_reads|]. split; [vm_compute; left; reflexivity|].
  assert (W : well_formed some_num KWk wklines) by (exists [wkH; wkCa]; split; [apply wk_example|apply wk_good]). split; [exact W|].
  assert (U1 : forall e u, In (e, u) sample_before -> untouched SFTXray u).
  { intros e u H. cbn [sample_before In] in H. decompose [or] H; try contradiction; match goal with X : _ = _ |- _ => injection X as <- <- end; cbn; auto. discriminate. }
  split; [exact U1|]. split; [cbn; auto|].
  assert (HP : exists p, snd (run_call some_num (CPath (chars (file_of KWk))) (sees wklines) (fst (fst (urun some_num SFTXray sample_before (lib0, sft0))))) = Val (APath p) /\ e_file (sees wklines) p = Some wklines) by (eexists; split; reflexivity).
  split; [exact HP|]. destruct HP as (p & HP & HF).
  pose proof (C99_lookups some_num SFTXray sample_before (sees wklines) (ULook "Ca2+" 0) sample_after p wklines U1 (fun f => f) HP HF W) as HL. cbv zeta in HL. fold sample in HL.
  assert (E0 : q_to_s 0 = 0) by (unfold q_to_s, Rdiv; ring).
  assert (XC : standard some_num SFTXray wklines "Ca2+" 0 = Some (five_gaussians wkCa 0)).
  { pose proof (C78_xray_partial some_num [wkH; wkCa] wklines wkCa (chars "Ca") 2 [] (chars "2+") 0 wk_example wk_good) as H. rewrite E0 in H. unfold standard. change (std_call SFTXray "Ca2+" 0) with (CXray ([] ++ chars "Ca" ++ chars "2+") 0).
    rewrite H; [reflexivity|right; now left|apply el_Ca|apply name_Ca|apply Forall_nil|right; right; exists "+"%char, 2%nat; repeat split; auto; try lia; now left|right; reflexivity]. }
  assert (XH : standard some_num SFTXray wklines "H" 0 = Some (five_gaussians wkH 0)).
  { pose proof (C78_xray_partial some_num [wkH; wkCa] wklines wkH (chars "H") 0 [] [] 0 wk_example wk_good) as H. rewrite E0 in H. unfold standard. change (std_call SFTXray "H" 0) with (CXray ([] ++ chars "H" ++ []) 0).
    rewrite H; [reflexivity|now left|apply el_H|apply name_H|apply Forall_nil|now left|right; reflexivity]. }
  assert (XD : standard some_num SFTXray wklines "D" 0 = None).
  { pose proof (C78_unknown some_num [wkH; wkCa] wklines (chars "D") 0 [] [] 0 wk_example wk_good) as H. unfold standard. change (std_call SFTXray "D" 0) with (CXray ([] ++ chars "D" ++ []) 0).
    rewrite (proj1 (H ltac:(split; [discriminate|repeat constructor; unfold letter; cbn; tauto]) ltac:(constructor) ltac:(now left) ltac:(intros r [<-|[<-|[]]] [[_ N]|(sg & k & _ & _ & N & _)]; discriminate N))). reflexivity. }
  split; [|split].
  - rewrite (HL 2%nat _ _ _ eq_refl). change (custom_after _ (edits (firstn 2 sample)) "Ca2+") with (@None (string * xreal)). cbv iota. now rewrite XC.
  - rewrite (HL 3%nat _ _ _ eq_refl). change (custom_after _ (edits (firstn 3 sample)) "D") with (Some ("H"%string, Fin 1)). cbv iota. now rewrite XH.
  - rewrite (HL 5%nat _ _ _ eq_refl). change (custom_after _ (edits (firstn 5 sample)) "D") with (@None (string * xreal)). cbv iota. now rewrite XD.
Qed.
