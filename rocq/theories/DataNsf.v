(** Neutron scattering lengths. *)
From Coq Require Import Ascii String.
From Verif Require Import Base AList RBase Trig Sums Bvs BvsSpec BvsProofs BvsMain Tables Data DataSpec DataText DataIons DataWk.
Open Scope R_scope.
Open Scope list_scope.
Notation length := List.length.
Notation dash := "-"%char.
Notation comma := ","%char.

(** *** Items between commas *)
Lemma split_piece w : ~ In comma w -> forall acc rest, split_from comma acc (w ++ comma :: rest) = (rev acc ++ w) :: split_from comma [] rest.
Proof.
  induction w as [|c w IH]; intros Hc acc rest.
  - cbn [app split_from]. rewrite Ascii.eqb_refl, app_nil_r. reflexivity.
  - cbn [app split_from]. destruct (Ascii.eqb_spec c comma) as [->|_]; [exfalso; apply Hc; now left|].
    rewrite IH by (intros H; apply Hc; now right). cbn [rev]. now rewrite <- app_assoc.
Qed.
Lemma split_last w : ~ In comma w -> forall acc, rev acc ++ w <> [] -> split_from comma acc w = [rev acc ++ w].
Proof.
  induction w as [|c w IH]; intros Hc acc Hne.
  - cbn [split_from]. rewrite app_nil_r in *. destruct acc; [cbn in Hne; congruence|]. reflexivity.
  - cbn [split_from]. destruct (Ascii.eqb_spec c comma) as [->|_]; [exfalso; apply Hc; now left|].
    rewrite IH; [cbn [rev]; now rewrite <- app_assoc|intros H; apply Hc; now right|].
    cbn [rev]. intros E. apply app_eq_nil in E as [E _]. apply app_eq_nil in E as [_ E]. discriminate.
Qed.
Lemma split_joined ws : Forall (fun w => ~ In comma w) ws -> last ws [] <> [] -> split comma (joined ws) = ws.
Proof.
  unfold split. induction ws as [|w ws IH]; intros Hc Hl; [reflexivity|]. inversion Hc; subst.
  destruct ws as [|w' ws].
  - cbn [joined]. rewrite split_last; auto.
  - change (joined (w :: w' :: ws)) with (w ++ comma :: joined (w' :: ws)). rewrite split_piece by auto. cbn [rev app]. f_equal. apply IH; auto.
Qed.
Lemma split_items ws l : items ws l -> split comma l = ws.
Proof. intros (_ & Hc & Hl & ->). now apply split_joined. Qed.
Lemma split_head s : forall acc, acc <> [] -> exists w ws, split_from comma acc s = (rev acc ++ w) :: ws.
Proof.
  induction s as [|c s IH]; intros acc Hne; cbn [split_from].
  - destruct acc; [congruence|]. exists [], []. now rewrite app_nil_r.
  - destruct (c =? comma)%char; [exists []; eexists; now rewrite app_nil_r|].
    destruct (IH (c :: acc) ltac:(discriminate)) as (w & ws & ->). exists (c :: w), ws. cbn [rev]. now rewrite <- app_assoc.
Qed.

(** *** Symbols *)
Lemma digit_iso c : In c (chars "0123456789") -> isotope_char c = true /\ c <> dash /\ prefix_char c.
Proof.
  intros H. assert (E : if in_dec ascii_dec c (chars "0123456789") then isotope_char c && negb (c =? dash)%char && lead_char c = true else True).
  { clear H. all_ascii c; vm_compute; auto. }
  destruct (in_dec _ _ _); [|tauto]. rewrite !andb_true_iff in E. destruct E as [[E1 E2] E3]. repeat split; auto.
  - intros ->. discriminate.
  - now apply lead_spec.
Qed.
Lemma letter_iso c : letter c -> isotope_char c = false.
Proof.
  intros H. assert (E : if in_dec ascii_dec c (chars "ABCDEFGHIJKLMNOPQRSTUVWXYZabcdefghijklmnopqrstuvwxyz") then isotope_char c = false else True).
  { clear H. all_ascii c; vm_compute; auto. }
  destruct (in_dec _ _ _); tauto.
Qed.
Lemma split_dash_app a b : ~ In dash a -> split_dash (a ++ dash :: b) = Some (a, b).
Proof.
  induction a as [|c a IH]; intros H; cbn; auto.
  destruct (Ascii.eqb_spec c dash) as [->|_]; [exfalso; apply H; now left|]. rewrite IH; auto. intros Hi. apply H. now right.
Qed.
Lemma split_dash_none a : ~ In dash a -> split_dash a = None.
Proof.
  induction a as [|c a IH]; intros H; cbn; auto.
  destruct (Ascii.eqb_spec c dash) as [->|_]; [exfalso; apply H; now left|]. rewrite IH; auto. intros Hi. apply H. now right.
Qed.
Lemma digits_dash A : is_digits A -> ~ In dash A.
Proof. intros [_ H] Hin. rewrite Forall_forall in H. apply H in Hin. apply digit_iso in Hin. tauto. Qed.
Lemma element_dash el : element el -> ~ In dash el.
Proof. intros [_ H] Hin. rewrite Forall_forall in H. apply H in Hin. apply letter_facts in Hin. tauto. Qed.
Lemma leading Z el rest : is_digits Z -> element el -> find_first_not isotope_char (Z ++ dash :: el ++ rest) = Some (length Z + 1)%nat /\
  skipn (length Z + 1) (Z ++ dash :: el ++ rest) = el ++ rest.
Proof.
  intros [_ HZ] [Hne He]. destruct el as [|c el]; [congruence|]. inversion He; subst.
  replace (Z ++ dash :: (c :: el) ++ rest) with ((Z ++ [dash]) ++ c :: (el ++ rest)) by (rewrite <- app_assoc; reflexivity).
  assert (HL : length (Z ++ [dash]) = (length Z + 1)%nat) by (rewrite app_length; reflexivity). split.
  - rewrite ffn_app; [now rewrite HL| |now apply letter_iso].
    apply Forall_app. split; [|repeat constructor]. eapply Forall_impl; [|exact HZ]. intros a Ha. now apply digit_iso.
  - rewrite <- HL. rewrite skipn_app, skipn_all, Nat.sub_diag. reflexivity.
Qed.
Lemma symbol_element Z el : is_digits Z -> element el -> nsf_symbol (Z ++ dash :: el) = Some el.
Proof.
  intros HZ He. unfold nsf_symbol. destruct (leading Z el [] HZ He) as [E1 E2]. rewrite !app_nil_r in *. rewrite E1. cbv zeta. rewrite E2.
  unfold split_last_dash. rewrite split_dash_none; auto. intros H. apply in_rev in H. now apply (element_dash el).
Qed.
Lemma symbol_isotope Z el A : is_digits Z -> element el -> is_digits A -> nsf_symbol (Z ++ dash :: el ++ dash :: A) = Some (A ++ dash :: el).
Proof.
  intros HZ He HA. unfold nsf_symbol. destruct (leading Z el (dash :: A) HZ He) as [E1 E2]. rewrite E1. cbv zeta. rewrite E2.
  unfold split_last_dash. rewrite rev_app_distr. cbn [rev]. rewrite <- app_assoc. cbn [app]. rewrite split_dash_app.
  - cbn. now rewrite !rev_involutive.
  - intros H. apply in_rev in H. now apply (digits_dash A).
Qed.

(** *** The table after some records *)
Definition standsb (el : str) (r : nrec) : bool :=
  match r with
  | Element _ el' _ => if str_dec el' el then true else false
  | Isotope _ el' _ life _ => (if str_dec el' el then true else false) && ((if str_dec life (chars "100") then true else false) || match head (rev life) with Some c => (c =? "Y")%char | None => false end)
  end.
Lemma standsb_spec el r : standsb el r = true <-> stands_for el r.
Proof.
  destruct r as [Z el' b|Z el' A life b]; cbn.
  - destruct (str_dec el' el); split; congruence.
  - rewrite andb_true_iff, orb_true_iff. destruct (str_dec el' el), (str_dec life _), (head (rev life)) as [c|]; try destruct (Ascii.eqb_spec c "Y"%char); split; intros H; intuition congruence.
Qed.
Definition isob (el A : str) (r : nrec) : bool :=
  match r with Isotope _ el' A' _ _ => (if str_dec el' el then true else false) && (if str_dec A' A then true else false) | _ => false end.
Lemma isob_spec el A r : isob el A r = true <-> isotope_of el A r.
Proof. destruct r; cbn; [split; [discriminate|tauto]|]. destruct (str_dec el0 el), (str_dec A0 A); cbn; split; intuition congruence. Qed.
Definition iso_key (A el : str) : str := A ++ dash :: el.
Lemma iso_key_inj A el A' el' : is_digits A -> is_digits A' -> iso_key A el = iso_key A' el' -> A = A' /\ el = el'.
Proof.
  intros HA HA' E. assert (H : split_dash (iso_key A el) = split_dash (iso_key A' el')) by congruence.
  unfold iso_key in H. rewrite !split_dash_app in H by (now apply digits_dash). split; congruence.
Qed.
Lemma iso_key_element A el el' : element el' -> iso_key A el <> el'.
Proof. intros He <-. apply (element_dash _ He). unfold iso_key. rewrite in_app_iff. right. now left. Qed.
Record inv (P : list nrec) (t : bctable) : Prop := {
  i_el : forall el, element el -> afind str_dec el t = option_map nrec_b (find (standsb el) P);
  i_iso : forall A el, is_digits A -> element el -> afind str_dec (iso_key A el) t = option_map nrec_b (find (isob el A) P);
  i_keys : forall k, In k (akeys t) -> element k \/ exists A el, is_digits A /\ element el /\ k = iso_key A el }.
Lemma find_snoc {A} (f : A -> bool) l x : find f (l ++ [x]) = match find f l with Some y => Some y | None => if f x then Some x else None end.
Proof. induction l as [|y l IH]; cbn; auto. destruct (f y); auto. Qed.
Lemma find_none' {A} (f : A -> bool) l : (forall x, In x l -> f x = false) -> find f l = None.
Proof. induction l as [|y l IH]; cbn; intros H; auto. rewrite (H y (or_introl eq_refl)). apply IH. intros x Hx. apply H. now right. Qed.

Section Nsf.
  Variable num : str -> option R.
  Lemma step_inv P r Q t ws l : good_nsf (P ++ r :: Q) -> nrec_ok r -> items ws l -> nrec_items num r ws -> inv P t ->
    exists t', read_nsf_line num t ws = Ok t' /\ inv (P ++ [r]) t'.
  Proof.
    intros (G1 & G2 & G3) Hok (Hlen & _) Hit [Iel Iiso Ikeys]. unfold read_nsf_line. rewrite Hlen. cbn [Nat.eqb negb].
    assert (Hno : forall el, must_be_first el r -> find (standsb el) P = None).
    { intros el Hm. apply find_none'. intros x Hx. destruct (standsb el x) eqn:E; auto. apply standsb_spec in E. exfalso.
      apply in_split in Hx as (l1 & l2 & ->). apply (G2 l1 x l2 r Q el); auto. now rewrite <- app_assoc. }
    assert (Hni : forall el A, isotope_of el A r -> find (isob el A) P = None).
    { intros el A Hm. apply find_none'. intros x Hx. destruct (isob el A x) eqn:E; auto. apply isob_spec in E. exfalso.
      apply in_split in Hx as (l1 & l2 & ->). apply (G1 l1 x l2 r Q el A); auto. now rewrite <- app_assoc. }
    specialize (G3 r ltac:(apply in_or_app; right; now left)).
    destruct r as [Z el b|Z el A life b]; cbn in Hok, Hit.
    - destruct Hok as [HZ He]. destruct Hit as (E0 & E3 & Eb). destruct (nth 3 ws []) as [|c3 w3] eqn:EW; [congruence|]. rewrite E0, symbol_element, Eb by auto.
      assert (EN : afind str_dec el t = None). { rewrite Iel by auto. rewrite Hno by (cbn; auto). reflexivity. }
      rewrite EN, split_dash_none by (now apply element_dash). eexists. split; [reflexivity|]. split.
      + intros el' He'. rewrite afind_aset, find_snoc. cbn [standsb]. destruct (str_dec el' el) as [->|Hne].
        * rewrite Hno by reflexivity. destruct (str_dec el el); [reflexivity|congruence].
        * rewrite Iel by auto. destruct (find (standsb el') P); [reflexivity|]. destruct (str_dec el el'); [congruence|reflexivity].
      + intros A' el' HA' He'. rewrite afind_aset, find_snoc. cbn [isob]. destruct (str_dec (iso_key A' el') el) as [E|_]; [exfalso; now apply (iso_key_element A' el' el)|].
        rewrite Iiso by auto. destruct (find (isob el' A') P); reflexivity.
      + intros k Hk. apply akeys_aset in Hk as [->|Hk]; auto.
    - destruct Hok as (HZ & He & HA). destruct Hit as (E0 & E1 & E3 & Eb). destruct (nth 3 ws []) as [|c3 w3] eqn:EW; [congruence|]. rewrite E0, symbol_isotope, Eb by auto.
      fold (iso_key A el).
      assert (EN : afind str_dec (iso_key A el) t = None). { rewrite Iiso by auto. rewrite Hni by (cbn; auto). reflexivity. }
      assert (ES : split_dash (iso_key A el) = Some (A, el)) by (apply split_dash_app; now apply digits_dash).
      rewrite EN. cbv zeta. rewrite ES, E1.
      assert (Hpres : afind str_dec el (aset str_dec (iso_key A el) b t) = option_map nrec_b (find (standsb el) P)).
      { rewrite afind_aset. destruct (str_dec el (iso_key A el)) as [E|_]; [exfalso; symmetry in E; now apply (iso_key_element A el el)|]. auto. }
      assert (I1 : forall A' el', is_digits A' -> element el' -> afind str_dec (iso_key A' el') (aset str_dec (iso_key A el) b t) = option_map nrec_b (find (isob el' A') (P ++ [Isotope Z el A life b]))).
      { intros A' el' HA' He'. rewrite afind_aset, find_snoc. cbn [isob]. destruct (str_dec (iso_key A' el') (iso_key A el)) as [E|Hne].
        - apply iso_key_inj in E as [-> ->]; auto. rewrite Hni by (cbn; auto). destruct (str_dec el el), (str_dec A A); try congruence. reflexivity.
        - rewrite Iiso by auto. destruct (find (isob el' A') P); [reflexivity|]. destruct (str_dec el el') as [->|]; [|reflexivity]. destruct (str_dec A A') as [->|]; [congruence|reflexivity]. }
      assert (I2 : forall el', element el' -> el' <> el -> afind str_dec el' (aset str_dec (iso_key A el) b t) = option_map nrec_b (find (standsb el') (P ++ [Isotope Z el A life b]))).
      { intros el' He' Hne. rewrite afind_aset, find_snoc. cbn [standsb]. destruct (str_dec el' (iso_key A el)) as [E|_]; [exfalso; symmetry in E; now apply (iso_key_element A el el')|].
        rewrite Iel by auto. destruct (find (standsb el') P); [reflexivity|]. destruct (str_dec el el'); [congruence|reflexivity]. }
      assert (I3 : forall k, In k (akeys (aset str_dec (iso_key A el) b t)) -> element k \/ exists A el, is_digits A /\ element el /\ k = iso_key A el).
      { intros k Hk. apply akeys_aset in Hk as [->|Hk]; auto. right. exists A, el. auto. }
      remember (aset str_dec (iso_key A el) b t) as t1 eqn:Et1.
      assert (Add : standsb el (Isotope Z el A life b) = true -> find (standsb el) P = None -> inv (P ++ [Isotope Z el A life b]) (aset str_dec el b t1)).
      { intros Hst Hf. split.
        - intros el' He'. rewrite afind_aset. destruct (str_dec el' el) as [->|Hne]; auto. rewrite find_snoc, Hf, Hst. reflexivity.
        - intros A' el' HA' He'. rewrite afind_aset. destruct (str_dec (iso_key A' el') el) as [E|_]; [exfalso; now apply (iso_key_element A' el' el)|]. auto.
        - intros k Hk. apply akeys_aset in Hk as [->|Hk]; auto. }
      assert (Keep : standsb el (Isotope Z el A life b) = false \/ find (standsb el) P <> None -> inv (P ++ [Isotope Z el A life b]) t1).
      { intros Hst. split; auto. intros el' He'. destruct (str_dec el' el) as [->|Hne]; auto. rewrite Hpres, find_snoc.
        destruct (find (standsb el) P) eqn:EF; [reflexivity|]. destruct Hst as [->|]; [auto|congruence]. }
      cbn [standsb] in Add, Keep. destruct (str_dec el el) as [_|]; [|congruence]. cbn [andb] in Add, Keep.
      change (lit "100") with (chars "100"). rewrite Hpres.
      destruct (str_dec life (chars "100")) as [HL|HL].
      + rewrite Hno by (cbn; auto). cbn [option_map]. eexists. split; [reflexivity|]. apply Add; auto. apply Hno. cbn; auto.
      + destruct (find (standsb el) P) eqn:EF; cbn [option_map].
        * eexists. split; [reflexivity|]. apply Keep. right. congruence.
        * destruct (rev life) as [|c rl] eqn:ER. { exfalso. apply G3. rewrite <- (rev_involutive life), ER. reflexivity. }
          cbn [head orb] in Add, Keep. destruct (c =? "Y")%char; eexists; (split; [reflexivity|]); auto.
  Qed.
  Lemma read_inv Q lines : nsf_file num Q lines -> forall P t, good_nsf (P ++ Q) -> inv P t -> exists t', read_nsf num t lines = Ok t' /\ inv (P ++ Q) t'.
  Proof.
    induction 1 as [|l recs lines Hs H IH|l ws recs lines Hi Hc H3 H IH|r l ws recs lines Hi Hok Hit H IH]; intros P t Hg HI; cbn [read_nsf].
    - exists t. now rewrite app_nil_r.
    - assert (E : isignored (split comma l) = true).
      { destruct Hs as [->|(r & ->)]; auto. unfold split. cbn [split_from]. cbn [Ascii.eqb]. replace ("#" =? comma)%char with false by reflexivity.
        destruct (split_head r ["#"%char] ltac:(discriminate)) as (w & ws & ->). cbn [isignored]. apply starts_spec. now exists w. }
      rewrite E. auto.
    - rewrite (split_items _ _ Hi). destruct Hi as (Hlen & _). destruct (isignored ws); auto.
      unfold read_nsf_line. rewrite Hlen, H3. cbn [Nat.eqb negb]. auto.
    - rewrite (split_items _ _ Hi).
      assert (E : isignored ws = false).
      { destruct ws as [|w ws]; [destruct Hi as (Hl & _); discriminate|]. cbn [isignored]. destruct (starts (lit "#") w) eqn:E; auto. apply starts_spec in E as (q & ->). exfalso.
        assert (HZ : exists Z x, is_digits Z /\ lit "#" ++ q = Z ++ x).
        { destruct r as [Z el b|Z el A life b]; cbn in Hit, Hok; destruct Hit as (E0 & _); exists Z; eexists; (split; [apply Hok|exact E0]). }
        destruct HZ as (Z & x & [Hne Hd] & EZ). destruct Z as [|c Z]; [congruence|]. cbn in EZ. injection EZ as <- _. inversion Hd as [|? ? Hc]; subst. apply digit_iso in Hc as (Hc & _). discriminate. }
      rewrite E. destruct (step_inv P r recs t ws l Hg Hok Hi Hit HI) as (t1 & -> & HI1).
      destruct (IH (P ++ [r]) t1) as (t2 & -> & HI2); auto; rewrite <- app_assoc in *; auto. exists t2. auto.
  Qed.
  Lemma inv0 : inv [] [].
  Proof. split; auto. intros k []. Qed.
  (** aliases *)
  Definition one := chars "1". Definition two := chars "2". Definition three := chars "3".
  Lemma letters_el s : Forall letter (chars s) -> chars s <> [] -> element (chars s).
  Proof. split; auto. Qed.
  Lemma find_iso_some P el A r : In r P -> isotope_of el A r -> exists r', find (isob el A) P = Some r'.
  Proof.
    intros Hr Hi. destruct (find (isob el A) P) as [r'|] eqn:E; eauto. exfalso. pose proof (find_none _ _ E r Hr) as E'. apply isob_spec in Hi. congruence.
  Qed.
  (** the value an element has, with the aliases *)
  Definition alias (el : str) : option (str * str) :=
    if str_dec el (chars "n") then Some (chars "1", chars "n") else if str_dec el (chars "D") then Some (chars "2", chars "H")
    else if str_dec el (chars "T") then Some (chars "3", chars "H") else None.
  Record fin (P : list nrec) (t : bctable) : Prop := {
    f_el : forall el, element el -> afind str_dec el t = match find (standsb el) P with Some r => Some (nrec_b r) | None => match alias el with Some (A, e) => option_map nrec_b (find (isob e A) P) | None => None end end;
    f_iso : forall A el, is_digits A -> element el -> afind str_dec (iso_key A el) t = option_map nrec_b (find (isob el A) P);
    f_keys : forall k, In k (akeys t) -> element k \/ exists A el, is_digits A /\ element el /\ k = iso_key A el }.
  Lemma el_n : element (chars "n"). Proof. split; [discriminate|]. repeat constructor; unfold letter; cbn; tauto. Qed.
  Lemma el_D : element (chars "D"). Proof. split; [discriminate|]. repeat constructor; unfold letter; cbn; tauto. Qed.
  Lemma el_T : element (chars "T"). Proof. split; [discriminate|]. repeat constructor; unfold letter; cbn; tauto. Qed.
  Lemma el_H : element (chars "H"). Proof. split; [discriminate|]. repeat constructor; unfold letter; cbn; tauto. Qed.
  Lemma dg_1 : is_digits (chars "1"). Proof. split; [discriminate|]. repeat constructor; cbn; tauto. Qed.
  Lemma dg_2 : is_digits (chars "2"). Proof. split; [discriminate|]. repeat constructor; cbn; tauto. Qed.
  Lemma dg_3 : is_digits (chars "3"). Proof. split; [discriminate|]. repeat constructor; cbn; tauto. Qed.
  Lemma afind_insert {V} k k' (v : V) t : afind str_dec k (insert k' v t) = if str_dec k k' then match afind str_dec k t with Some x => Some x | None => Some v end else afind str_dec k t.
  Proof.
    unfold insert. destruct (afind str_dec k' t) eqn:E.
    - destruct (str_dec k k') as [->|]; auto. now rewrite E.
    - rewrite afind_aset. destruct (str_dec k k') as [->|]; auto. now rewrite E.
  Qed.
  Lemma keys_insert {V} k k' (v : V) t : In k (akeys (insert k' v t)) -> k = k' \/ In k (akeys t).
  Proof. unfold insert. destruct (afind str_dec k' t); auto. intros H. now apply akeys_aset in H. Qed.
  Lemma read_file recs lines rn rD rT : nsf_file num recs lines -> good_nsf recs ->
    find (isob (chars "n") (chars "1")) recs = Some rn -> find (isob (chars "H") (chars "2")) recs = Some rD -> find (isob (chars "H") (chars "3")) recs = Some rT ->
    exists t, read_nsf_file num lines = Ok t /\ fin recs t.
  Proof.
    intros Hf Hg En ED ET. destruct (read_inv recs lines Hf [] [] Hg inv0) as (t & Et & [I1 I2 I3]). cbn [app] in *.
    assert (NE : forall A e e', element e' -> forall (T : Type) (x y : T), (if str_dec (iso_key A e) e' then x else y) = y).
    { intros A e e' He' T x y. destruct (str_dec _ _) as [E|]; auto. exfalso. now apply (iso_key_element A e e'). }
    unfold read_nsf_file, add_alias. rewrite Et.
    change (lit "1-n") with (iso_key (chars "1") (chars "n")). change (lit "2-H") with (iso_key (chars "2") (chars "H")). change (lit "3-H") with (iso_key (chars "3") (chars "H")).
    change (lit "n") with (chars "n"). change (lit "D") with (chars "D"). change (lit "T") with (chars "T").
    rewrite (I2 _ _ dg_1 el_n), En. cbn [option_map].
    rewrite !afind_insert, (NE _ _ _ el_n), (I2 _ _ dg_2 el_H), ED. cbn [option_map].
    rewrite !afind_insert, (NE _ _ _ el_D), (NE _ _ _ el_n), (I2 _ _ dg_3 el_H), ET. cbn [option_map].
    eexists. split; [reflexivity|]. split.
    - intros el He. rewrite !afind_insert, I1 by auto. unfold alias.
      destruct (find (standsb el) recs); cbn [option_map];
      destruct (str_dec el (chars "n")) as [->|]; destruct (str_dec _ (chars "D")) as [E2|]; try (subst el || discriminate E2);
      destruct (str_dec _ (chars "T")) as [E3|]; try (subst el || discriminate E3); try discriminate; rewrite ?En, ?ED, ?ET; reflexivity.
    - intros A el HA He. rewrite !afind_insert, !(NE _ _ _ el_n), !(NE _ _ _ el_D), !(NE _ _ _ el_T). auto.
    - intros k Hk. apply keys_insert in Hk as [->|Hk]; [left; apply el_T|]. apply keys_insert in Hk as [->|Hk]; [left; apply el_D|].
      apply keys_insert in Hk as [->|Hk]; [left; apply el_n|]. auto.
  Qed.
  (** a charge behind the name is ignored *)
  Lemma find_bc_charge recs t (pre el ch : str) : fin recs t -> element el -> Forall suffix_char ch -> find_bc t (pre ++ el ++ ch) = afind str_dec (pre ++ el) t.
  Proof.
    intros [F1 F2 F3] He Hc. unfold find_bc. destruct (element_last el He) as (z & r & Er & Hz).
    assert (EL : el = rev r ++ [z]). { rewrite <- (rev_involutive el), Er. reflexivity. }
    assert (Strip : (match find_last_not trail_char (pre ++ el ++ ch) with Some pe => firstn (pe + 1) (pre ++ el ++ ch) | None => pre ++ el ++ ch end : str) = pre ++ el).
    { replace (pre ++ el ++ ch) with ((pre ++ rev r) ++ z :: ch) by (rewrite EL, <- !app_assoc; reflexivity).
      rewrite fln_app.
      - replace (length (pre ++ rev r) + 1)%nat with (length (pre ++ el)). 2: { rewrite EL, !app_length. cbn. lia. }
        replace ((pre ++ rev r) ++ z :: ch) with ((pre ++ el) ++ ch) by (rewrite EL, <- !app_assoc; reflexivity).
        rewrite firstn_app, Nat.sub_diag, firstn_all. cbn. apply app_nil_r.
      - eapply Forall_impl; [|exact Hc]. intros c Hcc. now apply trail_spec.
      - destruct (trail_char z) eqn:E; auto. apply trail_spec in E. apply letter_facts in Hz. tauto. }
    rewrite Strip. destruct (afind str_dec (pre ++ el ++ ch) t) eqn:E; auto. destruct (rev ch) as [|c rc] eqn:Ec.
    - assert (ch = []) by (rewrite <- (rev_involutive ch), Ec; reflexivity). subst ch. rewrite app_nil_r in E. congruence.
    - exfalso. assert (Hlast : forall k, In k (akeys t) -> exists z r, rev k = z :: r /\ letter z).
      { intros k Hk. destruct (F3 k Hk) as [Hk'|(A & e & _ & He' & ->)]; [now apply element_last|]. destruct (element_last e He') as (z' & r' & Er' & Hz').
        exists z'. unfold iso_key. rewrite rev_app_distr. cbn [rev]. rewrite Er'. eexists. split; [reflexivity|auto]. }
      destruct (Hlast (pre ++ el ++ ch)) as (z' & r' & Er' & Hz'). { apply in_map_iff. apply (afind_Some_In str_dec) in E. eexists. split; [|exact E]. reflexivity. }
      rewrite !rev_app_distr, Ec in Er'. cbn in Er'. injection Er' as -> _.
      assert (Hsc : suffix_char z'). { eapply Forall_forall; [exact Hc|]. apply in_rev. rewrite Ec. now left. }
      apply letter_facts in Hz'. tauto.
  Qed.
  Lemma fresh_bc lines s : fresh_answer num lines (CNeutron s) =
    match read_nsf_file num lines with
    | Ok t => match find_bc t s with Some b => Val (AReal b) | None => Exc InvalidArgument end
    | Throw x _ => Exc x | UB => Bad end.
  Proof. unfold fresh_answer, run_call, get_bc. cbn [l_rt l_bc lib0]. rewrite fresh_load. cbv zeta. destruct (read_nsf_file num lines); cbn [snd andThen orThrow]; auto. destruct (find_bc _ _); reflexivity. Qed.
  Lemma find_first {A} (f : A -> bool) l1 r l2 : (forall x, In x l1 -> f x = false) -> f r = true -> find f (l1 ++ r :: l2) = Some r.
  Proof. induction l1 as [|y l1 IH]; cbn; intros H Hr. - now rewrite Hr. - rewrite (H y (or_introl eq_refl)). apply IH; auto. Qed.
End Nsf.
