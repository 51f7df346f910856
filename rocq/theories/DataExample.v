(** Statements close to the properties and concrete data files. *)
From Coq Require Import Ascii String.
From Verif Require Import Base AList RBase Trig TrigProofs Sums Bvs BvsSpec BvsProofs BvsMain Tables Data DataSpec DataText DataIons DataWk DataNsf DataHist.
Open Scope R_scope.
Open Scope list_scope.
Notation length := List.length.

Section Main.
  Variable num : str -> option R.
  Lemma fresh_number lines s : fresh_answer num lines (CNumber s) =
    match read_ions [] lines with Ok t => match find_en t s with Some z => Val (AInt z) | None => Exc InvalidArgument end | Throw x _ => Exc x | UB => Bad end.
  Proof. unfold fresh_answer, run_call, get_en. cbn [l_rt l_en lib0]. rewrite fresh_load. cbv zeta. destruct (read_ions [] lines); cbn [snd andThen orThrow]; auto. destruct (find_en _ _); reflexivity. Qed.
  Lemma ions_loaded recs lines : ion_file recs lines -> good_ions recs -> read_ions [] lines = if (listed recs <? 447)%nat then Throw RuntimeError (ents recs) else Ok (ents recs).
  Proof.
    intros Hf Hg. rewrite (read_ions_ents recs lines Hf); [|intros r Hr; now apply Hg]. cbv zeta. rewrite inserts_app by (cbn; now apply ents_nodup). cbn [app]. now rewrite ents_length.
  Qed.
  Lemma electron_number recs lines el z vs iso v ch : ion_file recs lines -> good_ions recs -> (447 <= listed recs)%nat -> In (el, z, vs) recs ->
    Forall prefix_char iso -> charge_text v ch ->
    fresh_answer num lines (CNumber (iso ++ el ++ ch)) = if Z.eq_dec v 0 then Val (AInt z) else if in_dec Z.eq_dec v vs then Val (AInt (z - v)) else Exc InvalidArgument.
  Proof.
    intros Hf Hg Hn Hr Hi Hc. rewrite fresh_number, (ions_loaded recs) by auto. destruct (Nat.ltb_spec (listed recs) 447); [lia|].
    assert (He : element el) by (destruct Hg as [_ Hg]; now apply (Hg _ Hr)).
    rewrite (find_listed recs Hg el z vs v); auto. { destruct (Z.eq_dec v 0); auto. destruct (in_dec _ _ _); auto. }
    apply pr_name; auto; [now apply element_symbol|now apply element_newline].
  Qed.
  Lemma electron_unknown recs lines sym iso v ch : ion_file recs lines -> good_ions recs -> (447 <= listed recs)%nat ->
    element sym -> ~ In sym (map ion_name recs) -> Forall prefix_char iso -> charge_text v ch ->
    fresh_answer num lines (CNumber (iso ++ sym ++ ch)) = Exc InvalidArgument.
  Proof.
    intros Hf Hg Hn He Hr Hi Hc. rewrite fresh_number, (ions_loaded recs) by auto. destruct (Nat.ltb_spec (listed recs) 447); [lia|].
    rewrite (find_unlisted recs Hg _ sym v); auto; [|now apply element_symbol|now apply element_newline].
    apply pr_name; auto; [now apply element_symbol|now apply element_newline].
  Qed.
  Lemma electron_incomplete recs lines s : ion_file recs lines -> good_ions recs -> (listed recs < 447)%nat -> fresh_answer num lines (CNumber s) = Exc RuntimeError.
  Proof. intros Hf Hg Hn. rewrite fresh_number, (ions_loaded recs) by auto. destruct (Nat.ltb_spec (listed recs) 447); [auto|lia]. Qed.

  Lemma wk_loaded recs lines : wk_file num recs lines -> good_wk recs -> read_wk num [] [] lines = Ok (map form recs).
  Proof. intros Hf Hg. rewrite (read_wk_file num recs lines Hf); auto. cbn [app]. rewrite forms_keys. apply Hg. Qed.
  Lemma xray_named recs lines r el v iso ch q : wk_file num recs lines -> good_wk recs -> In r recs -> element el -> standard_name el v (wk_name r) ->
    Forall prefix_char iso -> charge_text v ch -> (-1 <= v <= 1)%Z \/ iso ++ el ++ ch = wk_name r ->
    fresh_answer num lines (CXray (iso ++ el ++ ch) q) = Val (AReal (five_gaussians r (q_to_s q))).
  Proof.
    intros Hf Hg Hr He Hn Hi Hc Hv. rewrite fresh_wk, (wk_loaded recs) by auto. rewrite (find_wk_named recs Hg r el v); auto.
    - rewrite gaussians; auto; now apply (wk_lengths num recs lines).
    - apply pr_name; auto; [now apply element_symbol|now apply element_newline].
  Qed.
  Lemma electron_named recs lines r el v iso ch q : wk_file num recs lines -> good_wk recs -> In r recs -> element el -> standard_name el v (wk_name r) ->
    Forall prefix_char iso -> charge_text v ch -> (-1 <= v <= 1)%Z \/ iso ++ el ++ ch = wk_name r -> let s := q_to_s q in
    (Rabs s <= SQRT_DOUBLE_EPS -> fresh_answer num lines (CElectron (iso ++ el ++ ch) q) = Val AHuge) /\
    (SQRT_DOUBLE_EPS < Rabs s -> exists Z : Z, Rabs (IZR Z - five_gaussians r 0) <= 1 / 2 /\
      fresh_answer num lines (CElectron (iso ++ el ++ ch) q) = Val (AReal (0.023934 * (IZR Z - five_gaussians r s) / s²))).
  Proof.
    intros Hf Hg Hr He Hn Hi Hc Hv s. rewrite fresh_el, (wk_loaded recs) by auto. rewrite (find_wk_named recs Hg r el v); auto.
    2: { apply pr_name; auto; [now apply element_symbol|now apply element_newline]. }
    destruct (wk_lengths num recs lines r Hf Hr) as [La Lb]. unfold electronatstol. change (q / (4 * PI)) with s. unfold eps_eq. rewrite Rminus_0_r. split; intros Hs.
    - replace (Rleb (Rabs s) SQRT_DOUBLE_EPS) with true by (symmetry; now apply Rleb_true). reflexivity.
    - replace (Rleb (Rabs s) SQRT_DOUBLE_EPS) with false by (symmetry; now apply Rleb_false). exists (Rround (fold_left (fun rv a => rv + a) (wa (snd (form r))) (wc (snd (form r))))). split.
      + replace (five_gaussians r 0) with (fold_left (fun rv a => rv + a) (wa (snd (form r))) (wc (snd (form r)))); [apply round_near|].
        destruct r as [n [[a c] b]]. cbn [fst snd form wa wc] in *. unfold five_gaussians, sumf. cbn [seq fold_right].
        destruct a as [|a0 [|a1 [|a2 [|a3 [|a4 [|]]]]]]; try discriminate. cbn [fold_left nth].
        assert (E : forall x, exp (- x * 0²) = 1) by (intros; unfold Rsqr; replace (- x * (0 * 0)) with 0 by ring; apply exp_0). rewrite !E. ring.
      + rewrite gaussians by auto. reflexivity.
  Qed.
  Lemma xray_unknown recs lines el v iso ch q : wk_file num recs lines -> good_wk recs -> element el -> Forall prefix_char iso -> charge_text v ch ->
    (forall r, In r recs -> ~ standard_name el v (wk_name r)) ->
    fresh_answer num lines (CXray (iso ++ el ++ ch) q) = Exc InvalidArgument /\ fresh_answer num lines (CElectron (iso ++ el ++ ch) q) = Exc InvalidArgument.
  Proof.
    intros Hf Hg He Hi Hc Hn. rewrite fresh_wk, fresh_el, (wk_loaded recs) by auto. rewrite (find_wk_unknown recs Hg _ el v); auto.
    apply pr_name; auto; [now apply element_symbol|now apply element_newline].
  Qed.
  Lemma even lines s q : fresh_answer num lines (CXray s (- q)) = fresh_answer num lines (CXray s q) /\ fresh_answer num lines (CElectron s (- q)) = fresh_answer num lines (CElectron s q).
  Proof.
    assert (E : forall f q, xrayatstol f (- q / (4 * PI)) = xrayatstol f (q / (4 * PI))).
    { intros f x. unfold xrayatstol. generalize (wc f). induction (combine (wa f) (wb f)) as [|[a b] l IH]; intros c; cbn; auto. rewrite IH. f_equal. f_equal. f_equal. f_equal.
      unfold Rdiv. ring. }
    rewrite !fresh_wk, !fresh_el. destruct (read_wk num [] [] lines) as [t| |]; auto. destruct (find_wk t s) as [f|]; auto. rewrite E. split; auto. f_equal.
    unfold electronatstol, eps_eq. rewrite E. replace (Rabs (- q / (4 * PI) - 0)) with (Rabs (q / (4 * PI) - 0)).
    - destruct (Rleb _ _); auto. f_equal. unfold Rdiv. f_equal. f_equal. ring.
    - rewrite !Rminus_0_r. unfold Rdiv. rewrite Ropp_mult_distr_l_reverse, Rabs_Ropp. reflexivity.
  Qed.
  (** neutrons *)
  Lemma stands_first recs el l1 r l2 : recs = l1 ++ r :: l2 -> stands_for el r -> (forall x, In x l1 -> ~ stands_for el x) -> find (standsb el) recs = Some r.
  Proof.
    intros -> Hr Hn. apply find_first; [|now apply standsb_spec]. intros x Hx. destruct (standsb el x) eqn:E; auto. apply standsb_spec in E. exfalso. now apply (Hn x).
  Qed.
  Lemma iso_unique recs el A r : good_nsf recs -> In r recs -> isotope_of el A r -> find (isob el A) recs = Some r.
  Proof.
    intros (G & _) Hr Hi. apply in_split in Hr as (l1 & l2 & ->). apply find_first; [|now apply isob_spec].
    intros x Hx. destruct (isob el A x) eqn:E; auto. apply isob_spec in E. exfalso. apply in_split in Hx as (l3 & l4 & ->).
    apply (G l3 x l4 r l2 el A); auto. now rewrite <- app_assoc.
  Qed.
  Lemma nsf_loaded recs lines : nsf_file num recs lines -> good_nsf recs -> complete_nsf recs -> exists t, read_nsf_file num lines = Ok t /\ fin recs t.
  Proof.
    intros Hf Hg ((rn & Hn & In') & (rD & HD & ID) & (rT & HT & IT)).
    apply (read_file num recs lines rn rD rT); auto; now apply iso_unique.
  Qed.
  Lemma neutron_isotope recs lines Z el A life b ch : nsf_file num recs lines -> good_nsf recs -> complete_nsf recs -> In (Isotope Z el A life b) recs -> Forall suffix_char ch ->
    fresh_answer num lines (CNeutron (A ++ "-"%char :: el ++ ch)) = Val (AReal b).
  Proof.
    intros Hf Hg Hc Hr Hch. destruct (nsf_loaded _ _ Hf Hg Hc) as (t & Et & Ft). rewrite fresh_bc, Et.
    assert (Hok : nrec_ok (Isotope Z el A life b)). { clear - Hf Hr. induction Hf; [destruct Hr|auto|auto|]. destruct Hr as [->|Hr]; auto. }
    destruct Hok as (_ & He & HA).
    replace (A ++ "-"%char :: el ++ ch) with ((A ++ ["-"%char]) ++ el ++ ch) by (rewrite <- app_assoc; reflexivity).
    rewrite (find_bc_charge num recs) by auto. replace ((A ++ ["-"%char]) ++ el) with (iso_key A el) by (unfold iso_key; rewrite <- app_assoc; reflexivity).
    destruct Ft as [_ F2 _]. rewrite F2 by auto. rewrite (iso_unique recs el A (Isotope Z el A life b)); cbn; auto.
  Qed.
  Lemma neutron_element recs lines el l1 r l2 ch : nsf_file num recs lines -> good_nsf recs -> complete_nsf recs -> element el ->
    recs = l1 ++ r :: l2 -> stands_for el r -> (forall x, In x l1 -> ~ stands_for el x) -> Forall suffix_char ch ->
    fresh_answer num lines (CNeutron (el ++ ch)) = Val (AReal (nrec_b r)).
  Proof.
    intros Hf Hg Hc He Hs Hst Hno Hch. destruct (nsf_loaded _ _ Hf Hg Hc) as (t & Et & Ft). rewrite fresh_bc, Et.
    pose proof (find_bc_charge num recs t [] el ch Ft He Hch) as E. cbn [app] in E. rewrite E. destruct Ft as [F1 _ _]. rewrite F1 by auto. now rewrite (stands_first recs el l1 r l2).
  Qed.
  Lemma neutron_alias recs lines name el A r ch : nsf_file num recs lines -> good_nsf recs -> complete_nsf recs ->
    In (name, el, A) [(chars "n", chars "n", chars "1"); (chars "D", chars "H", chars "2"); (chars "T", chars "H", chars "3")] ->
    (forall x, In x recs -> ~ stands_for name x) -> In r recs -> isotope_of el A r -> Forall suffix_char ch ->
    fresh_answer num lines (CNeutron (name ++ ch)) = Val (AReal (nrec_b r)).
  Proof.
    intros Hf Hg Hc Ha Hno Hr Hi Hch. destruct (nsf_loaded _ _ Hf Hg Hc) as (t & Et & Ft). rewrite fresh_bc, Et.
    assert (Hn : element name /\ alias name = Some (A, el)).
    { destruct Ha as [E|[E|[E|[]]]]; injection E as <- <- <-; (split; [apply el_n || apply el_D || apply el_T|reflexivity]). }
    destruct Hn as [He Ea]. pose proof (find_bc_charge num recs t [] name ch Ft He Hch) as E. cbn [app] in E. rewrite E. destruct Ft as [F1 _ _]. rewrite F1 by auto.
    rewrite find_none'. - rewrite Ea, (iso_unique recs el A r); auto. - intros x Hx. destruct (standsb name x) eqn:ES; auto. apply standsb_spec in ES. exfalso. now apply (Hno x).
  Qed.
  Lemma neutron_unknown recs lines el ch : nsf_file num recs lines -> good_nsf recs -> complete_nsf recs -> element el -> ~ In el [chars "n"; chars "D"; chars "T"] ->
    (forall x, In x recs -> ~ stands_for el x) -> Forall suffix_char ch -> fresh_answer num lines (CNeutron (el ++ ch)) = Exc InvalidArgument.
  Proof.
    intros Hf Hg Hc He Hna Hno Hch. destruct (nsf_loaded _ _ Hf Hg Hc) as (t & Et & Ft). rewrite fresh_bc, Et.
    pose proof (find_bc_charge num recs t [] el ch Ft He Hch) as E. cbn [app] in E. rewrite E. destruct Ft as [F1 _ _]. rewrite F1 by auto.
    rewrite find_none'.
    - unfold alias. repeat destruct (str_dec el _) as [->|]; auto; exfalso; apply Hna; cbn; auto.
    - intros x Hx. destruct (standsb el x) eqn:ES; auto. apply standsb_spec in ES. exfalso. now apply (Hno x).
  Qed.
End Main.

(** *** Concrete files *)
Definition render (ws : list str) : str := flat_map (fun w => " "%char :: w) ws.
Lemma render_line ws : Forall (fun w => w <> [] /\ Forall (fun c => ~ blank c) w) ws -> is_line ws (render ws).
Proof.
  induction 1 as [|w ws [Hne Hb] H IH]; [constructor; constructor|]. cbn [render flat_map]. change (" "%char :: w) with ([" "%char] ++ w). rewrite <- app_assoc. constructor; auto.
  - repeat constructor.
  - destruct ws as [|w' ws]; [now left|]. right. cbn. eexists. eexists. split; [reflexivity|]. now left.
Qed.
Ltac not_blank := let B := fresh in intros B; apply blank_true in B; discriminate B.
Ltac is_word := split; [discriminate|repeat (constructor; [not_blank|]); constructor].
Definition some_num (w : str) : option R := Some (INR (length w)).

(** 27 elements with 16 ions each *)
Definition charges16 : list Z := [1; 2; 3; 4; 5; 6; 7; 8; -1; -2; -3; -4; -5; -6; -7; -8]%Z.
Definition texts16 : list str := map chars ["+1"; "2"; "+3"; "+4"; "5"; "+6"; "+7"; "8"; "-1"; "-2"; "-3"; "-4"; "-5"; "-6"; "-7"; "-8"]%string.
Definition names27 : list str := map (fun c => [c]) (chars "ABCDEFGHIJKLMNOPQRSTUVWXYZ") ++ [chars "Na"].
Definition ions27 : list ion := map (fun n => (n, 11%Z, charges16)) names27.
Definition ionlines27 : list str := chars "# a comment" :: map (fun n => render (n :: chars "11" :: texts16)) names27.
Lemma texts_ok : Forall2 number_text charges16 texts16.
Proof.
  repeat (constructor; [match goal with |- number_text ?v ?w => exists [Z.to_nat (Z.abs v)] end; (split; [discriminate|split; [repeat constructor; cbn; lia|cbn; auto]])|]). constructor.
Qed.
Lemma names_ok n : In n names27 -> element n.
Proof.
  intros H. unfold names27 in H. apply in_app_iff in H as [H|[<-|[]]].
  - apply in_map_iff in H as (c & <- & H). split; [discriminate|]. constructor; [|constructor]. unfold letter. change (chars "ABCDEFGHIJKLMNOPQRSTUVWXYZabcdefghijklmnopqrstuvwxyz") with (chars "ABCDEFGHIJKLMNOPQRSTUVWXYZ" ++ chars "abcdefghijklmnopqrstuvwxyz"). apply in_or_app. now left.
  - split; [discriminate|]. repeat constructor; unfold letter; cbn; tauto.
Qed.
Lemma element_word n : element n -> n <> [] /\ Forall (fun c => ~ blank c) n.
Proof. intros [H1 H2]. split; auto. eapply Forall_impl; [|exact H2]. intros c Hc. apply letter_facts in Hc. tauto. Qed.
Lemma file27 : ion_file ions27 ionlines27.
Proof.
  apply ions_skip.
  - right. exists [], [chars "a"; chars "comment"]. apply (line_word [] (chars "#") (render [chars "a"; chars "comment"])); [constructor|discriminate|constructor; [not_blank|constructor]|right; eexists; eexists; split; [reflexivity|now left]|].
    apply render_line. repeat (constructor; [is_word|]). constructor.
  - unfold ions27. assert (H : forall n, In n names27 -> element n) by exact names_ok. revert H. induction names27 as [|n ns IH]; intros H; [constructor|]. cbn [map].
    apply (ions_line n 11%Z charges16 (chars "11") texts16).
    + apply render_line. constructor; [apply element_word, H; now left|]. constructor; [is_word|].
      unfold texts16. cbn [map]. repeat (constructor; [is_word|]). constructor.
    + exists [1; 1]%nat. split; [discriminate|]. split; [repeat constructor; lia|]. left. auto.
    + apply texts_ok.
    + apply IH. intros m Hm. apply H. now right.
Qed.
Lemma good27 : good_ions ions27 /\ (447 <= listed ions27)%nat.
Proof.
  split; [|vm_compute; lia]. split.
  - unfold ions27. rewrite map_map. cbn [ion_name fst]. rewrite map_id. unfold names27. cbn. repeat (constructor; [cbn; intuition discriminate|]). constructor.
  - intros r Hr. unfold ions27 in Hr. apply in_map_iff in Hr as (n & <- & Hn). cbn [ion_name ion_charges fst snd]. split; [now apply names_ok|]. split.
    + unfold charges16. repeat (constructor; [cbn; intuition discriminate|]). constructor.
    + intros v Hv. unfold charges16 in Hv. cbn in Hv. intuition (subst; lia || discriminate).
Qed.
(** *** X-rays: H and Ca2+ *)
Definition data_words : list str := map chars ["1"; "22"; "333"; "4"; "5"; "0"; "1"; "2"; "3"; "4"; "5"]%string.
Definition nums : list R := map (fun w => INR (length w)) data_words.
Definition wkH : wkrec := (chars "H", (firstn 5 nums, 1, skipn 6 nums)).
Definition wkCa : wkrec := (chars "Ca2+", (firstn 5 nums, 1, skipn 6 nums)).
Definition wklines : list str :=
  [chars "#C some text"; chars "#S 1 H"; chars "#N 11"; chars "#L a b c"; render data_words; chars "#S 20 Ca2+"; chars "#L a b c"; render data_words].
Lemma first_line w ws : (w <> [] /\ Forall (fun c => ~ blank c) w) -> Forall (fun w => w <> [] /\ Forall (fun c => ~ blank c) w) ws -> is_line (w :: ws) (w ++ render ws).
Proof.
  intros [H1 H2] H. apply (line_word [] w (render ws)); auto; [|now apply render_line]. destruct ws as [|w' ws]; [now left|]. right. cbn. eexists. eexists. split; [reflexivity|now left].
Qed.
Ltac words_ok := repeat (constructor; [is_word|]); constructor.
Lemma wk_example : wk_file some_num [wkH; wkCa] wklines.
Proof.
  apply wk_other.
  { right. exists (chars "#C"), [chars "some"; chars "text"]. split; [apply (first_line (chars "#C") [chars "some"; chars "text"]); [is_word|words_ok]|split; discriminate]. }
  apply (wk_block some_num (chars "H") (firstn 5 nums) (skipn 6 nums) 1 [] (chars "1") [] [] [chars "#N 11"] [chars "a"; chars "b"; chars "c"] (chars "#S 1 H") (chars "#L a b c") (render data_words) data_words [wkCa] [chars "#S 20 Ca2+"; chars "#L a b c"; render data_words]).
  - apply (first_line (chars "#S") [chars "1"; chars "H"]); [is_word|words_ok].
  - constructor; [|constructor]. right. exists (chars "#N"), [chars "11"]. split; [apply (first_line (chars "#N") [chars "11"]); [is_word|words_ok]|split; discriminate].
  - apply (first_line (chars "#L") [chars "a"; chars "b"; chars "c"]); [is_word|words_ok].
  - apply render_line. unfold data_words. cbn [map]. words_ok.
  - unfold numbers, nums, data_words. cbn [map firstn skipn app]. repeat (constructor; [reflexivity|]). constructor.
  - reflexivity.
  - reflexivity.
  - apply (wk_block some_num (chars "Ca2+") (firstn 5 nums) (skipn 6 nums) 1 [] (chars "20") [] [] [] [chars "a"; chars "b"; chars "c"] (chars "#S 20 Ca2+") (chars "#L a b c") (render data_words) data_words [] []).
    + apply (first_line (chars "#S") [chars "20"; chars "Ca2+"]); [is_word|words_ok].
    + constructor.
    + apply (first_line (chars "#L") [chars "a"; chars "b"; chars "c"]); [is_word|words_ok].
    + apply render_line. unfold data_words. cbn [map]. words_ok.
    + unfold numbers, nums, data_words. cbn [map firstn skipn app]. repeat (constructor; [reflexivity|]). constructor.
    + reflexivity.
    + reflexivity.
    + constructor.
Qed.
Lemma el_Ca : element (chars "Ca"). Proof. split; [discriminate|]. repeat constructor; unfold letter; cbn; tauto. Qed.
Lemma name_H : standard_name (chars "H") 0 (wk_name wkH). Proof. left. auto. Qed.
Lemma name_Ca : standard_name (chars "Ca") 2 (wk_name wkCa). Proof. right. exists "+"%char, 2%nat. repeat split; auto; try lia. now left. Qed.
Lemma wk_good : good_wk [wkH; wkCa].
Proof.
  split; [cbn; repeat (constructor; [cbn; intuition discriminate|]); constructor|].
  intros r [<-|[<-|[]]]; [exists (chars "H"), 0%Z; split; [apply el_H|apply name_H]|exists (chars "Ca"), 2%Z; split; [apply el_Ca|apply name_Ca]].
Qed.
Lemma higher_charge : exists num recs lines r iso, wk_file num recs lines /\ good_wk recs /\ In r recs /\ standard_name (chars "Ca") 2 (wk_name r) /\
  Forall prefix_char iso /\ charge_text 2 (chars "2+") /\
  fresh_answer num lines (CXray (chars "Ca" ++ chars "2+") 0) = Val (AReal (five_gaussians r 0)) /\
  fresh_answer num lines (CXray (iso ++ chars "Ca" ++ chars "2+") 0) = Exc InvalidArgument.
Proof.
  exists some_num, [wkH; wkCa], wklines, wkCa, (chars "40-"). assert (HC : charge_text 2 (chars "2+")). { right; right. exists "+"%char, 2%nat. repeat split; auto; try lia. now left. }
  split; [apply wk_example|]. split; [apply wk_good|]. split; [cbn; auto|]. split; [apply name_Ca|]. split; [repeat constructor; unfold prefix_char; cbn; tauto|]. split; [exact HC|]. split.
  - pose proof (xray_named some_num [wkH; wkCa] wklines wkCa (chars "Ca") 2 [] (chars "2+") 0 wk_example wk_good) as H. cbn [app] in H. rewrite H; auto using el_Ca, name_Ca; [|cbn; auto].
    f_equal. f_equal. f_equal. unfold q_to_s, Rdiv. ring.
  - rewrite fresh_wk, (wk_loaded some_num [wkH; wkCa]) by (apply wk_example || apply wk_good). reflexivity.
Qed.

(** *** Neutrons: n, H, D, T and Be *)
Definition commas (a b c : string) : str := joined (map chars [a; b; "0"; c; "0"; "0"; "0"; "0"; "0"; "0"; "1"]%string).
Definition nsf_recs : list nrec :=
  [Isotope (chars "0") (chars "n") (chars "1") (chars "618 S") 1; Element (chars "1") (chars "H") 2;
   Isotope (chars "1") (chars "H") (chars "2") (chars "0.0149") 3; Isotope (chars "1") (chars "H") (chars "3") (chars "12.26 Y") 4;
   Isotope (chars "4") (chars "Be") (chars "9") (chars "100") 5].
Definition nsf_lines : list str :=
  [chars "# text"; []; commas "0-n-1" "618 S" "x"; commas "1-H" "" "xx"; commas "1-H-1" "99.985" ""; commas "1-H-2" "0.0149" "xxx"; commas "1-H-3" "12.26 Y" "xxxx"; commas "4-Be-9" "100" "xxxxx"].
Lemma commas_items a b c : Forall (fun w => ~ In ","%char (chars w)) [a; b; c] -> items (map chars [a; b; "0"; c; "0"; "0"; "0"; "0"; "0"; "0"; "1"]%string) (commas a b c).
Proof.
  intros H. inversion H as [|? ? Ha H1]; subst. inversion H1 as [|? ? Hb H2]; subst. inversion H2 as [|? ? Hc _]; subst.
  split; [reflexivity|]. split; [|split; [discriminate|reflexivity]].
  repeat (constructor; [first [assumption | cbn; intuition discriminate]|]). constructor.
Qed.
Ltac digits_ok := split; [discriminate|repeat (constructor; [cbn; tauto|]); constructor].
Ltac element_ok := split; [discriminate|repeat (constructor; [unfold letter; cbn; tauto|]); constructor].
Ltac nsf_item := eapply nsf_line;
  [apply commas_items; repeat (constructor; [cbn; intuition discriminate|]); constructor
  |repeat split; try discriminate; repeat (constructor; [unfold letter; cbn; tauto|]); constructor
  |repeat split; try reflexivity; try discriminate; unfold some_num; cbn; f_equal; lra|].
Lemma nsf_example : nsf_file some_num nsf_recs nsf_lines.
Proof.
  apply nsf_skip; [right; eexists; reflexivity|]. apply nsf_skip; [now left|].
  unfold nsf_recs. nsf_item. nsf_item.
  eapply nsf_none; [apply commas_items; repeat (constructor; [cbn; intuition discriminate|]); constructor|discriminate|reflexivity|].
  nsf_item. nsf_item. nsf_item. constructor.
Qed.
Lemma split2 {A} (l1 : list A) r1 l2 r2 l3 a l : a :: l = l1 ++ r1 :: l2 ++ r2 :: l3 -> (a = r1 /\ In r2 l) \/ exists l1', l = l1' ++ r1 :: l2 ++ r2 :: l3.
Proof.
  destruct l1 as [|x l1]; cbn [app]; intros E; injection E as -> ->; [left; split; auto; apply in_or_app; right; now left|right; eauto].
Qed.
Ltac pairs := repeat match goal with
  | H : _ :: _ = _ ++ _ :: _ ++ _ :: _ |- _ => apply split2 in H as [[<- H]|[? H]]
  | H : [] = ?l ++ _ |- _ => exfalso; destruct l; discriminate
  end.
Lemma nsf_good : good_nsf nsf_recs.
Proof.
  split; [|split].
  - intros l1 r1 l2 r2 l3 el A E. unfold nsf_recs in E. pairs; cbn [isotope_of]; intros I1 I2;
    repeat match goal with H : In _ _ |- _ => destruct H as [<-|H]; [cbn [isotope_of] in *; intuition (subst; discriminate)|] | H : In _ [] |- _ => destruct H end; try contradiction.
  - intros l1 r1 l2 r2 l3 el E. unfold nsf_recs in E. pairs; cbn [stands_for]; intros I1 I2;
    repeat match goal with H : In _ _ |- _ => destruct H as [<-|H]; [cbn [must_be_first] in *; intuition (subst; discriminate)|] | H : In _ [] |- _ => destruct H end; try contradiction.
  - intros r Hr. repeat destruct Hr as [<-|Hr]; try discriminate; try exact I. destruct Hr.
Qed.
Lemma nsf_complete : complete_nsf nsf_recs.
Proof. split; [|split]; [exists (Isotope (chars "0") (chars "n") (chars "1") (chars "618 S") 1)|exists (Isotope (chars "1") (chars "H") (chars "2") (chars "0.0149") 3)|exists (Isotope (chars "1") (chars "H") (chars "3") (chars "12.26 Y") 4)]; (split; [cbn; tauto|split; reflexivity]). Qed.

(** *** Bond valence parameters *)
Definition bv_example_lines : list str :=
  [chars "data_"; chars "_valence_param_B"; chars "_valence_param_ref_id"; []; chars "# comment"; chars "Na 1 Cl -1 22 1 b more"; chars "Cl -1 Na 1 333 1 b"].
Definition bv_example_recs : list bvrec := [(chars "Na", 1%Z, chars "Cl", (-1)%Z, 2, 1); (chars "Cl", (-1)%Z, chars "Na", 1%Z, 3, 1)].
Ltac number_ok := match goal with |- number_text ?v ?w => exists [Z.to_nat (Z.abs v)] end; (split; [discriminate|split; [repeat constructor; cbn; lia|cbn; auto]]).
Lemma bv_example : bv_file some_num bv_example_recs bv_example_lines.
Proof.
  exists [chars "data_"], (chars "_valence_param_B"), [chars "_valence_param_ref_id"], [], [chars "# comment"; chars "Na 1 Cl -1 22 1 b more"; chars "Cl -1 Na 1 333 1 b"].
  split; [reflexivity|]. split; [|split; [|split; [|split]]].
  - constructor; [|constructor]. intros ws Hl. apply words_line in Hl. discriminate.
  - exists []. apply (first_line (chars "_valence_param_B") []); [is_word|constructor].
  - constructor; [|constructor]. intros Hl. apply words_line in Hl. discriminate.
  - constructor. constructor.
  - apply bvl_skip.
    { right. exists [], [chars "comment"]. apply (first_line (chars "#") [chars "comment"]); [is_word|words_ok]. }
    unfold bv_example_recs. eapply bvl_line; [apply (first_line (chars "Na") (map chars ["1"; "Cl"; "-1"; "22"; "1"; "b"; "more"]%string)); [is_word|cbn [map]; words_ok]|discriminate|number_ok|number_ok| | |].
    { unfold some_num; cbn; f_equal; lra. } { unfold some_num; cbn; f_equal; lra. }
    eapply bvl_line; [apply (first_line (chars "Cl") (map chars ["-1"; "Na"; "1"; "333"; "1"; "b"]%string)); [is_word|cbn [map]; words_ok]|discriminate|number_ok|number_ok| | |].
    { unfold some_num; cbn; f_equal; lra. } { unfold some_num; cbn; f_equal; lra. }
    constructor.
Qed.

(** *** Histories *)
Lemma formed_readable num k lines : well_formed num k lines -> readable num k lines.
Proof.
  destruct k; cbn [well_formed readable]; auto.
  - intros (recs & Hf & Hg). eexists. now apply (wk_loaded num recs).
  - intros (recs & Hf & Hg & Hn). eexists. rewrite (ions_loaded recs) by auto. destruct (Nat.ltb_spec (listed recs) 447); [lia|reflexivity].
  - intros (recs & Hf & Hg & Hc). destruct (nsf_loaded num recs lines Hf Hg Hc) as (t & Et & _). eauto.
  - intros (recs & h1 & hl & h2 & bl & body & -> & H1 & Hh & H2 & Hb & HB). unfold read_bv. rewrite bv_header, bv_blank by auto. destruct (bv_body num _ _ HB [] (mkBV [] 0 [] 0 0 0)) as (t & -> & _). eauto.
Qed.
Lemma once num h1 e c h2 p lines : kind_of c <> KPath -> (forall e' c', In (e', c') h1 -> kind_of c' <> kind_of c) ->
  snd (run_call num (CPath (chars (file_of (kind_of c)))) e (fst (run num h1 lib0))) = Val (APath p) -> e_file e p = Some lines -> well_formed num (kind_of c) lines ->
  forall i e' c', nth_error (h1 ++ (e, c) :: h2) i = Some (e', c') -> kind_of c' = kind_of c ->
  nth_error (snd (run num (h1 ++ (e, c) :: h2) lib0)) i = Some (fresh_answer num lines c').
Proof. intros Hk H1 HP HF HR. apply (history_once num h1 e c h2 p lines); auto. now apply formed_readable. Qed.

(** the file is missing at first and then there *)
Definition no_file : env := mkEnv None (fun _ => true) (fun p => Some p) (fun _ => None) (chars "/usr/lib") [].
Lemma recovers_not : exists num lines h, well_formed num KIon lines /\
  h = [(no_file, CNumber (chars "Na")); (sees lines, CNumber (chars "Na"))] /\
  fresh_answer num lines (CNumber (chars "Na")) = Val (AInt 11) /\
  snd (run num h lib0) = [Exc RuntimeError; Exc InvalidArgument].
Proof.
  exists some_num, ionlines27. eexists. split; [exists ions27; split; [apply file27|apply good27]|]. split; [reflexivity|]. split; [|reflexivity].
  pose proof (electron_number some_num ions27 ionlines27 (chars "Na") 11 charges16 [] 0 [] file27 (proj1 good27) (proj2 good27)) as H. cbn [app] in H.
  rewrite app_nil_r in H. rewrite H; auto; [unfold ions27; apply in_map_iff; exists (chars "Na"); split; [reflexivity|unfold names27; apply in_or_app; right; now left]|now left].
Qed.

(** *** Paths *)
Lemma path_fresh num e f : snd (run_call num (CPath f) e lib0) = match resolve e with Val q => Val (APath (in_dir q f)) | Exc x => Exc x | Bad => Bad end.
Proof. cbn [run_call]. unfold datapath, resolve. cbn [l_rt lib0]. destruct (diffpyruntime e rt0) as [r [q|x|]]; reflexivity. Qed.
Lemma path_value num h e f : (forall e' c', In (e', c') h -> same_fs e e') ->
  let x := snd (run_call num (CPath f) e (fst (run num h lib0))) in
  match e_var e with
  | Some ((_ :: _) as pe) => forall d, no_trailing pe d ->
      (e_isdir e d = false -> x = Exc RuntimeError) /\ (forall q, e_isdir e d = true -> e_real e d = Some q -> x = Val (APath (in_dir q f)))
  | _ => (e_isdir e (e_d1 e) = false -> e_isdir e (e_d2 e) = false -> x = Exc RuntimeError) /\
      (forall q, e_isdir e (e_d1 e) = true -> e_real e (e_d1 e) = Some q -> x = Val (APath (in_dir q f))) /\
      (forall q, e_isdir e (e_d1 e) = false -> e_isdir e (e_d2 e) = true -> e_real e (e_d2 e) = Some q -> x = Val (APath (in_dir q f)))
  end.
Proof.
  intros Hs x. assert (Ex : x = match resolve e with Val q => Val (APath (in_dir q f)) | Exc y => Exc y | Bad => Bad end). { unfold x. rewrite path_follows by auto. apply path_fresh. }
  clearbody x. subst x. rewrite resolve_is. unfold env_res, lib_res. destruct (e_var e) as [[|c p]|].
  - repeat split; intros *; intros; repeat match goal with H : _ = _ |- _ => rewrite H end; reflexivity.
  - intros d Hd. rewrite (strip_spec (c :: p) d) by (discriminate || auto). split; intros; repeat match goal with H : _ = _ |- _ => rewrite H end; reflexivity.
  - repeat split; intros *; intros; repeat match goal with H : _ = _ |- _ => rewrite H end; reflexivity.
Qed.
(** two directories; the variable changes between them *)
Definition env_var (v : string) : env :=
  mkEnv (Some (chars v)) (fun d => existsb (fun x => if str_dec d (chars x) then true else false) ["/a"; "/b/c"; "/"]%string) (fun p => Some p) (fun _ => None) [] [].
Lemma path_example num : snd (run num [(env_var "/a//", CPath (chars "x")); (env_var "/b/c", CPath []); (env_var "/nowhere", CPath []); (env_var "/a", CPath []); (env_var "//", CPath (chars "x"))] lib0) =
  [Val (APath (chars "/a/x")); Val (APath (chars "/b/c")); Exc RuntimeError; Val (APath (chars "/a")); Val (APath (chars "//x"))].
Proof. reflexivity. Qed.
