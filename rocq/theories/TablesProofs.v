From Coq Require Import Sorted Ascii String.
From Verif Require Import Base AList RBase Bvs Tables TablesSpec.
Open Scope R_scope.
Open Scope list_scope.
Arguments string_dec : simpl never.

(** *** Scattering factors *)
Section Sft.
  Variable std : string -> R -> option R.

  Lemma xeqb_eq a b : xeqb a b = true -> a = b.
  Proof. destruct a, b; cbn; try discriminate; auto. unfold Reqb. destruct (Req_EM_T r r0); [congruence|discriminate]. Qed.
  Lemma entry_eqb_eq a b : entry_eqb a b = true -> a = b.
  Proof.
    destruct a as [s x], b as [s' x']. unfold entry_eqb. cbn [fst snd]. destruct (string_dec s s'); [|discriminate].
    cbn [andb]. intros H. apply xeqb_eq in H. congruence.
  Qed.
  Lemma put_custom s e t s' : custom (put_entry s e t) s' = if string_dec s s' then Some e else custom t s'.
  Proof.
    unfold put_entry.
    assert (Hset : forall k, custom (mkSft (aset string_dec s e (mcustom t)) k) s' = if string_dec s s' then Some e else custom t s').
    { intros k. unfold custom. cbn [mcustom]. rewrite afind_aset. destruct (string_dec s' s), (string_dec s s'); congruence. }
    destruct (custom t s) as [e'|] eqn:E; [destruct (entry_eqb e' e) eqn:Ee|]; auto.
    apply entry_eqb_eq in Ee. subst e'. destruct (string_dec s s') as [<-|]; auto.
  Qed.
  Lemma reset_custom s t s' : custom (sft_resetCustom s t) s' = if string_dec s s' then None else custom t s'.
  Proof. unfold custom, sft_resetCustom. cbn [mcustom]. rewrite afind_aerase. destruct (string_dec s' s), (string_dec s s'); congruence. Qed.

  Lemma sft_run_spec ops s : custom (sft_run std ops) s = custom_after std ops s.
  Proof.
    unfold custom_after, sft_run. rewrite <- fold_left_rev_right. induction (rev ops) as [|o h IH]; [reflexivity|].
    cbn [fold_right newest_custom]. destruct o; cbn [sft_step].
    - unfold setCustomAs. rewrite put_custom, IH. reflexivity.
    - unfold setCustomAsVal. destruct (std src q); [rewrite put_custom, IH; reflexivity|exact IH].
    - rewrite reset_custom, IH. reflexivity.
    - reflexivity.
  Qed.

  (** clicks *)
  Definition entry_ok (e : entry) : Prop := snd e <> NaN.
  Lemma xdiv_ok v f : f <> 0 -> xdiv v f <> NaN.
  Proof. intros H. unfold xdiv, Reqb. destruct (Req_EM_T f 0); [contradiction|discriminate]. Qed.
  Lemma entry_eqb_refl e : entry_ok e -> entry_eqb e e = true.
  Proof.
    destruct e as [s x]. unfold entry_ok, entry_eqb. cbn [fst snd]. destruct (string_dec s s); [|congruence]. destruct x; auto; try congruence.
    intros _. cbn. unfold Reqb. destruct (Req_EM_T r r); auto; congruence.
  Qed.
  Lemma put_clicks s e t : entry_ok e ->
    (clicks (put_entry s e t) = clicks t /\ put_entry s e t = t /\ custom t s = Some e) \/
    (clicks (put_entry s e t) = S (clicks t) /\ custom t s <> Some e).
  Proof.
    intros Ho. unfold put_entry. destruct (custom t s) as [e'|] eqn:E.
    - destruct (entry_eqb e' e) eqn:Ee.
      + left. apply entry_eqb_eq in Ee. subst; auto.
      + right. split; auto. intros [= ->]. rewrite entry_eqb_refl in Ee by auto. discriminate.
    - right. split; auto. discriminate.
  Qed.
  Lemma custom_keys t s : custom t s <> None <-> In s (getCustomSymbols t).
  Proof. unfold custom, getCustomSymbols. rewrite (afind_None string_dec s). destruct (in_dec string_dec s (akeys (mcustom t))); tauto. Qed.

  Lemma step_clicks o t : (forall s src v q, o = SetVal s src v q -> std src q <> Some 0) ->
    (clicks (sft_step std t o) = clicks t /\ forall s, custom (sft_step std t o) s = custom t s) \/
    (clicks (sft_step std t o) = S (clicks t) /\ exists s, custom (sft_step std t o) s <> custom t s).
  Proof.
    intros Hz. destruct o; cbn [sft_step].
    - unfold setCustomAs. destruct (put_clicks s (src, Fin 1) t) as [(H & H2 & _)|(H & Hne)]; [discriminate| |].
      + left. rewrite H2. auto.
      + right. split; auto. exists s. rewrite put_custom. destruct (string_dec s s); congruence.
    - unfold setCustomAsVal. destruct (std src q) as [f|] eqn:Ef; [|left; auto].
      destruct (put_clicks s (src, xdiv v f) t) as [(H & H2 & _)|(H & Hne)].
      + apply xdiv_ok. intros ->. eapply Hz; eauto.
      + left. rewrite H2. auto.
      + right. split; auto. exists s. rewrite put_custom. destruct (string_dec s s); congruence.
    - destruct (custom t s) as [e|] eqn:E.
      + right. split; [cbn; now rewrite E|]. exists s. rewrite reset_custom, E. destruct (string_dec s s); congruence.
      + left. split; [cbn; now rewrite E|]. intros s'. rewrite reset_custom. destruct (string_dec s s'); congruence.
    - unfold sft_resetAll. destruct (mcustom t) as [|[s e] m] eqn:E.
      + left. split; auto. intros s. unfold custom. cbn. now rewrite E.
      + right. split; auto. exists s. unfold custom. rewrite E. cbn. destruct (string_dec s s); congruence.
  Qed.
End Sft.

(** *** Radii *)
Lemma isspace_blank c : isspace c = true <-> blank c.
Proof.
  split.
  - destruct c as [[] [] [] [] [] [] [] []]; cbv; intros H; try discriminate; tauto.
  - intros H. unfold blank in H. repeat destruct H as [<-|H]; try reflexivity; easy.
Qed.
Lemma deblank_unblanked s : deblank s = unblanked s.
Proof.
  unfold deblank, unblanked. apply filter_ext. intros c. destruct (blank_dec c) as [H|H].
  - apply isspace_blank in H. now rewrite H.
  - destruct (isspace c) eqn:E; auto. apply isspace_blank in E. contradiction.
Qed.
Lemma comma_not_blank : ~ blank ","%char.
Proof. intros H. apply isspace_blank in H. discriminate. Qed.

Lemma fields_cons s : exists f r, fields s = f :: r.
Proof. induction s as [|c s (f & r & IH)]; cbn; [eauto|]. destruct (ascii_dec c ","%char); rewrite ?IH; eauto. Qed.

Definition nonempty (w : str) : bool := match w with [] => false | _ => true end.
(** words of the deblanked string with commas turned into blanks *)
Lemma words_from_spec s w : (forall c, In c w -> isspace c = false) -> (forall c, In c s -> isspace c = false) ->
  words_from w (commas_to_spaces s) =
  match fields s with f :: r => filter nonempty ((rev w ++ f) :: r) | [] => [] end.
Proof.
  revert w. induction s as [|c s IH]; intros w Hw Hs.
  - cbn. rewrite app_nil_r. destruct w as [|a w]; cbn; auto.
    destruct (rev w ++ [a]) eqn:E; [destruct (rev w); discriminate|reflexivity].
  - cbn [commas_to_spaces map words_from fields]. fold (commas_to_spaces s). destruct (ascii_dec c ","%char) as [->|Hne].
    + cbn [Ascii.eqb Bool.eqb]. change (isspace " "%char) with true. cbn match.
      assert (IH0 := IH [] (fun _ (H : In _ []) => match H with end) (fun c H => Hs c (or_intror H))).
      destruct (fields_cons s) as (f & r & E). rewrite E in *. cbn [rev app] in IH0. rewrite app_nil_r.
      change ("," =? ",")%char with true. cbn match. change (isspace " "%char) with true. cbn match.
      destruct w as [|a w]; [rewrite IH0; reflexivity|]. rewrite IH0. cbn [filter].
      destruct (nonempty (rev (a :: w))) eqn:En; [reflexivity|]. cbn in En. destruct (rev w ++ [a]) eqn:Er; [destruct (rev w); discriminate|discriminate].
    + assert (Hc : (c =? ",")%char = false) by now apply Ascii.eqb_neq. rewrite Hc, (Hs c (or_introl eq_refl)).
      rewrite IH; [|intros d [<-|H]; [apply Hs; now left|auto]|intros; apply Hs; now right].
      destruct (fields_cons s) as (f & r & E). rewrite E. cbn [rev]. rewrite <- app_assoc. reflexivity.
Qed.

Lemma fields_unblanked s : fields (unblanked s) = map unblanked (fields s).
Proof.
  induction s as [|c s IH]; [reflexivity|]. cbn [unblanked filter]. fold (unblanked s).
  destruct (blank_dec c) as [Hb|Hb].
  - cbn [fields]. destruct (ascii_dec c ","%char) as [->|]; [destruct (comma_not_blank Hb)|].
    rewrite IH. destruct (fields_cons s) as (f & r & E). rewrite E. cbn [map]. f_equal. cbn [unblanked filter]. destruct (blank_dec c); [reflexivity|contradiction].
  - cbn [fields]. rewrite IH. destruct (ascii_dec c ","%char) as [->|]; [reflexivity|].
    destruct (fields_cons s) as (f & r & E). rewrite E. cbn [map]. f_equal. cbn [unblanked filter]. destruct (blank_dec c); [contradiction|reflexivity].
Qed.

Lemma words_items s : words (commas_to_spaces (deblank s)) = items s.
Proof.
  unfold words. rewrite words_from_spec.
  - rewrite deblank_unblanked, fields_unblanked. unfold items. destruct (fields_cons s) as (f & r & E). rewrite E. reflexivity.
  - easy.
  - intros c H. unfold deblank in H. apply filter_In in H as [_ H]. now destruct (isspace c).
Qed.

Lemma split_colon_spec w s rest : split_colon w = Some (s, rest) <-> w = s ++ ":"%char :: rest /\ ~ In ":"%char s.
Proof.
  revert s. induction w as [|c w IH]; intros s; cbn [split_colon].
  - split; [discriminate|]. intros [H _]. destruct s; discriminate.
  - destruct (Ascii.eqb_spec c ":"%char) as [->|Hne].
    + split.
      * intros [= <- <-]. split; auto.
      * intros [H Hn]. destruct s as [|d s]; [injection H as ->; reflexivity|]. injection H as <- _. destruct Hn; now left.
    + split.
      * destruct (split_colon w) as [[s0 r0]|] eqn:E; [|discriminate]. intros [= <- <-]. cbn [fst snd] in *.
        destruct (proj1 (IH s0) eq_refl) as [-> Hn]. split; auto. intros [H|H]; auto.
      * intros [H Hn]. destruct s as [|d s]; [injection H as -> _; contradiction|]. injection H as <- ->.
        rewrite (proj2 (IH s)); [reflexivity|]. split; auto. intros H. apply Hn. now right.
Qed.
Lemma split_colon_None w : split_colon w = None <-> ~ In ":"%char w.
Proof.
  induction w as [|c w IH]; cbn [split_colon]; [cbn; tauto|]. destruct (Ascii.eqb_spec c ":"%char) as [->|Hne].
  - split; [discriminate|]. intros H. destruct H. now left.
  - destruct (split_colon w); cbn [option_map].
    + split; [discriminate|]. intros H. assert (Hn : ~ In ":"%char w) by (intros Hi; apply H; now right). apply IH in Hn. discriminate.
    + split; auto. intros _ [H|H]; [contradiction|]. now apply (proj1 IH eq_refl).
Qed.

Section Radii.
  Variable parse : str -> option R.

  Lemma read_items_None ws rds : read_items parse ws rds = None <-> ~ exists l, Forall2 (item parse) ws l.
  Proof.
    revert rds. induction ws as [|w ws IH]; intros rds; cbn [read_items].
    - split; [discriminate|]. intros H. destruct H. exists []. constructor.
    - destruct (split_colon w) as [[s rest]|] eqn:E.
      + apply split_colon_spec in E as [-> Hn]. destruct (parse rest) as [v|] eqn:Ep.
        * rewrite IH. split; intros H (l & HF); apply H.
          -- inversion HF; subst; eauto.
          -- exists ((s, v) :: l). constructor; auto. exists rest. auto.
        * split; auto. intros _ (l & HF). inversion HF as [|? [s' v'] ? ? (num & Hw & Hn' & Hv) _]; subst. cbn [fst snd] in *.
          assert (E1 : split_colon (s ++ ":"%char :: rest) = Some (s, rest)) by (apply split_colon_spec; auto).
          assert (E2 : split_colon (s ++ ":"%char :: rest) = Some (s', num)) by (apply split_colon_spec; auto). congruence.
      + split; auto. intros _ (l & HF). inversion HF as [|? [s' v'] ? ? (num & Hw & Hn' & Hv) _]; subst. cbn [fst snd] in *.
        apply (proj1 (split_colon_None _) E). apply in_or_app. right. now left.
  Qed.

  Lemma read_items_Some ws l rds : Forall2 (item parse) ws l ->
    exists r, read_items parse ws rds = Some r /\ (NoDup (akeys rds) -> NoDup (akeys r)) /\
      forall s, afind str_dec s r = match last_value s l with Some v => Some v | None => afind str_dec s rds end.
  Proof.
    intros HF. revert rds. induction HF as [|w [s v] ws l (num & -> & Hn & Hp) HF IH]; intros rds; cbn [read_items].
    - eauto.
    - cbn [fst snd] in *. rewrite (proj2 (split_colon_spec _ s num)) by auto. rewrite Hp.
      destruct (IH (aset str_dec s v rds)) as (r & Hr & Hd & Hl). exists r. split; auto. split.
      + intros H. apply Hd. now apply NoDup_aset.
      + intros s'. rewrite Hl, afind_aset. cbn [last_value]. destruct (last_value s' l); auto. destruct (str_dec s' s); auto.
  Qed.

  Lemma fold_aset (r t : radii) s : NoDup (akeys r) ->
    afind str_dec s (fold_left (fun t kv => aset str_dec (fst kv) (snd kv) t) r t) = match afind str_dec s r with Some v => Some v | None => afind str_dec s t end.
  Proof.
    revert t. induction r as [|[k v] r IH]; intros t Hnd; cbn [fold_left afind]; auto.
    inversion Hnd as [|? ? Hni Hnd']; subst. rewrite IH by auto. cbn [fst snd]. rewrite afind_aset.
    destruct (str_dec s k) as [->|]; auto. apply (afind_None str_dec) in Hni. now rewrite Hni.
  Qed.
  Lemma NoDup_fold_aset (r t : radii) : NoDup (akeys t) -> NoDup (akeys (fold_left (fun t kv => aset str_dec (fst kv) (snd kv) t) r t)).
  Proof. revert t. induction r as [|[k v] r IH]; intros t H; cbn [fold_left]; auto. apply IH. now apply NoDup_aset. Qed.

  Lemma fromString_ok s l t : describes parse s l ->
    exists t', rad_fromString parse s t = Ok t' /\ (NoDup (akeys t) -> NoDup (akeys t')) /\
      forall k, afind str_dec k t' = match last_value k l with Some v => Some v | None => afind str_dec k t end.
  Proof.
    intros HF. unfold rad_fromString. rewrite words_items. destruct (read_items_Some _ _ [] HF) as (r & -> & Hd & Hl).
    eexists. split; [reflexivity|]. split; [apply NoDup_fold_aset|]. intros k. rewrite fold_aset by (apply Hd; constructor).
    rewrite Hl. cbn [afind]. destruct (last_value k l); auto.
  Qed.
  Lemma fromString_bad s t : (~ exists l, describes parse s l) -> rad_fromString parse s t = Throw InvalidArgument t.
  Proof. intros H. unfold rad_fromString. rewrite words_items. apply (read_items_None _ []) in H. now rewrite H. Qed.

  Lemma rad_NoDup ops : NoDup (akeys (rad_run parse ops)).
  Proof.
    unfold rad_run. rewrite <- fold_left_rev_right. induction (rev ops) as [|o h IH]; cbn [fold_right]; [constructor|].
    destruct o; cbn [rad_step].
    - now apply NoDup_aset.
    - unfold rad_fromString. destruct (read_items parse _ []); auto. now apply NoDup_fold_aset.
    - now apply NoDup_aerase.
    - constructor.
  Qed.

  (** *** toString *)
  Variable print : R -> str.
  Lemma sort_perm l : Permutation l (sort_symbols l).
  Proof.
    induction l as [|x l IH]; cbn; auto. apply perm_trans with (x :: sort_symbols l); [now constructor|]. clear IH. fold (sort_symbols l). generalize (sort_symbols l). intros m.
    induction m as [|y m IH]; cbn [sort_insert]; auto. destruct (str_leb x y); auto.
    eapply perm_trans; [apply perm_swap|]. now constructor.
  Qed.

  Lemma blank_filter_plain s : (forall c, In c s -> plain c) -> unblanked s = s.
  Proof.
    induction s as [|c s IH]; intros H; [reflexivity|]. cbn [unblanked filter]. fold (unblanked s). destruct (blank_dec c) as [Hb|]; [destruct (H c (or_introl eq_refl)); contradiction|].
    f_equal. apply IH. intros; apply H; now right.
  Qed.

  Lemma fields_app_comma a b : (forall c, In c a -> plain c) -> fields (a ++ ","%char :: b) = a :: fields b.
  Proof.
    induction a as [|c a IH]; intros H; cbn [app fields].
    - reflexivity.
    - rewrite IH by (intros; apply H; now right). destruct (ascii_dec c ","%char) as [->|]; [|reflexivity].
      destruct (H ","%char (or_introl eq_refl)) as [_ Hc]. destruct Hc. reflexivity.
  Qed.
  Lemma fields_plain a : (forall c, In c a -> plain c) -> fields a = [a].
  Proof.
    induction a as [|c a IH]; intros H; cbn [fields]; auto. rewrite IH by (intros; apply H; now right).
    destruct (ascii_dec c ","%char) as [->|]; [|reflexivity]. destruct (H ","%char (or_introl eq_refl)) as [_ Hc]. destruct Hc. reflexivity.
  Qed.
  Lemma unblanked_app a b : unblanked (a ++ b) = unblanked a ++ unblanked b.
  Proof. apply filter_app. Qed.

  Lemma unblanked_sep sep : good_separator sep -> exists n, unblanked sep = repeat ","%char (S n).
  Proof.
    intros [Hin Hall]. assert (H : exists n, unblanked sep = repeat ","%char n).
    { clear Hin. induction sep as [|c sep IH]; [exists 0%nat; reflexivity|]. destruct IH as (n & IH); [intros; apply Hall; now right|].
      cbn [unblanked filter]. fold (unblanked sep). destruct (blank_dec c) as [Hb|Hb]; [eauto|]. exists (S n). cbn. rewrite IH.
      destruct (Hall c (or_introl eq_refl)) as [->|]; [reflexivity|contradiction]. }
    destruct H as (n & H). destruct n; [|eauto]. exfalso.
    assert (Hi : In ","%char (unblanked sep)) by (apply filter_In; split; auto; destruct (blank_dec ","%char); auto; now apply comma_not_blank).
    rewrite H in Hi. easy.
  Qed.

  Lemma items_repeat n b : items (repeat ","%char n ++ b) = items b.
  Proof. induction n as [|n IH]; cbn [repeat app]; [reflexivity|exact IH]. Qed.
  Lemma items_unblanked s : items (unblanked s) = items s.
  Proof.
    unfold items. rewrite fields_unblanked, map_map. f_equal. apply map_ext. intros a. unfold unblanked.
    induction a as [|c a IH]; cbn [filter]; auto. destruct (blank_dec c) eqn:E; auto. cbn [filter]. rewrite E. now f_equal.
  Qed.

  Lemma items_app a n b : a <> [] -> (forall c, In c a -> plain c) -> items (a ++ repeat ","%char (S n) ++ b) = a :: items b.
  Proof.
    intros Hne Ha. cbn [repeat app]. unfold items at 1. rewrite fields_app_comma by auto. cbn [map filter].
    rewrite blank_filter_plain by auto. destruct a as [|c a]; [easy|]. f_equal. apply (items_repeat n b).
  Qed.
  Lemma items_plain a : a <> [] -> (forall c, In c a -> plain c) -> items a = [a].
  Proof. intros Hne Ha. unfold items. rewrite fields_plain by auto. cbn [map filter]. rewrite blank_filter_plain by auto. destruct a; [easy|reflexivity]. Qed.

  Definition word (t : radii) (s : str) : str := s ++ ":"%char :: match afind str_dec s t with Some r => print r | None => [] end.
  Definition good_table (t : radii) : Prop :=
    forall s r, afind str_dec s t = Some r -> good_symbol s /\ good_number (print r) /\ parse (print r) = Some r.

  Lemma word_plain t s c : good_table t -> afind str_dec s t <> None -> In c (word t s) -> plain c.
  Proof.
    intros Hg Hs. unfold word. destruct (afind str_dec s t) as [r|] eqn:E; [|easy]. destruct (Hg s r E) as (H1 & H2 & _).
    rewrite in_app_iff. intros [H|[<-|H]]; [apply H1, H| |apply H2, H]. split; intros H.
    - apply isspace_blank in H. discriminate.
    - discriminate.
  Qed.
  Lemma word_ne t s : word t s <> [].
  Proof. unfold word. destruct s; discriminate. Qed.

  Lemma join_items sep t l first : good_separator sep -> good_table t -> (forall s, In s l -> afind str_dec s t <> None) ->
    items (rad_join print sep t first l) = map (word t) l.
  Proof.
    intros Hsep Hg. destruct (unblanked_sep sep Hsep) as (n & Hn). revert first. induction l as [|s l IH]; intros first Hl; [reflexivity|].
    cbn [rad_join map].
    assert (Hp : forall c, In c (word t s) -> plain c) by (intros c; apply word_plain; auto; apply Hl; now left).
    assert (Hmain : items (word t s ++ rad_join print sep t false l) = word t s :: map (word t) l).
    { destruct l as [|s' l].
      - cbn [rad_join map]. rewrite app_nil_r. apply items_plain; auto using word_ne.
      - assert (IH' := IH true (fun x H => Hl x (or_intror H))). cbn [rad_join app] in IH' |- *.
        rewrite <- items_unblanked, unblanked_app, (unblanked_app sep), Hn, (blank_filter_plain (word t s)) by auto.
        rewrite items_app; auto using word_ne. f_equal. rewrite items_unblanked. exact IH'. }
    assert (Hs : s ++ ":"%char :: match afind str_dec s t with Some r => print r | None => [] end ++ rad_join print sep t false l = word t s ++ rad_join print sep t false l).
    { unfold word. rewrite <- app_assoc. reflexivity. }
    rewrite Hs. destruct first; [exact Hmain|]. rewrite <- items_unblanked, unblanked_app, Hn, items_repeat, items_unblanked. exact Hmain.
  Qed.

  Lemma toString_describes sep t : good_separator sep -> good_table t -> NoDup (akeys t) ->
    exists l, describes parse (rad_toString print sep t) l /\ forall s, last_value s l = afind str_dec s t.
  Proof.
    intros Hsep Hg Hnd. unfold rad_toString, describes. set (ks := sort_symbols (akeys t)).
    assert (Hk : forall s, In s ks <-> In s (akeys t)) by (intros s; split; apply Permutation_in; [symmetry|]; apply sort_perm).
    assert (Hf : forall s, In s ks <-> afind str_dec s t <> None).
    { intros s. rewrite Hk, (afind_None str_dec s). destruct (in_dec str_dec s (akeys t)); tauto. }
    rewrite join_items by (auto; intros s Hs; now apply Hf).
    exists (flat_map (fun s => match afind str_dec s t with Some r => [(s, r)] | None => [] end) ks).
    assert (Hall : forall s, In s ks -> afind str_dec s t <> None) by (intros; now apply Hf).
    assert (Hks : NoDup ks) by (eapply Permutation_NoDup; [apply sort_perm|exact Hnd]).
    split.
    - clear Hf Hk Hks. clearbody ks. induction ks as [|s l IH]; cbn [map flat_map]; [constructor|].
      destruct (afind str_dec s t) as [r|] eqn:E; [|destruct (Hall s (or_introl eq_refl)); auto].
      cbn [app]. constructor; [|apply IH; intros; apply Hall; now right].
      destruct (Hg s r E) as (H1 & H2 & H3). exists (print r). unfold word. rewrite E. cbn [fst snd]. split; auto. split; auto.
      intros H. now destruct (H1 _ H).
    - intros s. assert (Hs := Hf s). destruct (afind str_dec s t) as [r|] eqn:E.
      + assert (Hin : In s ks) by (apply Hs; discriminate). clear Hf Hk Hs. clearbody ks. induction ks as [|k l IH]; [easy|].
        cbn [flat_map]. inversion Hks as [|? ? Hni Hnd']; subst. destruct Hin as [->|Hin].
        * rewrite E. cbn [app last_value].
          assert (Hz : last_value s (flat_map (fun s => match afind str_dec s t with Some r => [(s, r)] | None => [] end) l) = None).
          { clear - Hni. induction l as [|k l IH]; [reflexivity|]. cbn [flat_map]. assert (k <> s) by (intros ->; apply Hni; now left).
            destruct (afind str_dec k t); cbn [app last_value]; rewrite IH by (intros H1; apply Hni; now right); auto.
            destruct (str_dec s k); congruence. }
          rewrite Hz. destruct (str_dec s s); congruence.
        * destruct (afind str_dec k t) as [r'|]; cbn [app last_value]; rewrite IH; auto; intros; apply Hall; now right.
      + assert (Hni : ~ In s ks) by (intros H; now apply Hs in H). clear - Hni. induction ks as [|k l IH]; [reflexivity|]. cbn [flat_map].
        assert (k <> s) by (intros ->; apply Hni; now left).
        destruct (afind str_dec k t); cbn [app last_value]; rewrite IH by (intros H1; apply Hni; now right); auto.
        destruct (str_dec s k); congruence.
  Qed.
End Radii.

(** *** Order of the symbols in the text *)
Lemma leb_before a : forall b, a <> b -> str_leb a b = true -> comes_before a b.
Proof.
  induction a as [|x a IH]; intros [|y b] Hne H; cbn [str_leb] in H; try discriminate; try congruence.
  - left. exists y, b. reflexivity.
  - apply orb_true_iff in H as [H|H].
    + apply Nat.ltb_lt in H. right. exists [], x, y, a, b. auto.
    + apply andb_true_iff in H as [H1 H2]. apply Nat.eqb_eq in H1. assert (x = y) by (rewrite <- (ascii_nat_embedding x), <- (ascii_nat_embedding y); now rewrite H1). subst y.
      destruct (IH b) as [(c & r & ->)|(p & x' & y' & r & r' & -> & -> & Hl)]; auto; [congruence| |].
      * left. exists c, r. reflexivity.
      * right. exists (x :: p), x', y', r, r'. auto.
Qed.
Lemma leb_total a : forall b, str_leb a b = false -> str_leb b a = true.
Proof.
  induction a as [|x a IH]; intros [|y b] H; cbn [str_leb] in H |- *; try discriminate; auto. apply orb_false_iff in H as [H1 H2]. apply Nat.ltb_ge in H1.
  destruct (Nat.ltb_spec (nat_of_ascii y) (nat_of_ascii x)); auto. cbn [orb]. assert (E : nat_of_ascii x = nat_of_ascii y) by (apply Nat.le_antisymm; assumption). rewrite E, Nat.eqb_refl in *. cbn [andb] in H2 |- *. auto.
Qed.
Lemma leb_trans a : forall b c, str_leb a b = true -> str_leb b c = true -> str_leb a c = true.
Proof.
  induction a as [|x a IH]; intros [|y b] [|z c] H1 H2; cbn [str_leb] in H1, H2 |- *; try discriminate; auto.
  apply orb_true_iff in H1, H2. apply orb_true_iff. rewrite !andb_true_iff in *. rewrite !Nat.ltb_lt, !Nat.eqb_eq in *.
  destruct H1 as [H1|[H1 K1]], H2 as [H2|[H2 K2]]; [left; exact (Nat.lt_trans _ _ _ H1 H2)|left; rewrite <- H2; exact H1|left; rewrite H1; exact H2|right; split; [congruence|eauto]].
Qed.
Lemma insert_sorted x l : StronglySorted (fun a b => str_leb a b = true) l -> StronglySorted (fun a b => str_leb a b = true) (sort_insert x l).
Proof.
  induction 1 as [|y l Hs IH Hf]; cbn [sort_insert]; [repeat constructor|]. destruct (str_leb x y) eqn:E.
  - constructor; [constructor; auto|]. constructor; auto. eapply Forall_impl; [|exact Hf]. intros z Hz. now apply (leb_trans x y z).
  - constructor; auto. apply leb_total in E. assert (HI : forall z, In z (sort_insert x l) -> z = x \/ In z l).
    { clear. induction l as [|y l IH]; cbn [sort_insert]; [intros z [<-|[]]; auto|]. intros z. destruct (str_leb x y); cbn; [intuition|]. intros [<-|H]; auto. destruct (IH z H); auto. }
    apply Forall_forall. intros z Hz. destruct (HI z Hz) as [->|Hz']; auto. rewrite Forall_forall in Hf. auto.
Qed.
Lemma symbols_sorted l : NoDup l -> StronglySorted comes_before (sort_symbols l).
Proof.
  intros Hn. assert (HS : StronglySorted (fun a b => str_leb a b = true) (sort_symbols l)) by (unfold sort_symbols; induction l; cbn; [constructor|apply insert_sorted; apply IHl; now inversion Hn]).
  assert (HN : NoDup (sort_symbols l)) by (eapply Permutation_NoDup; [apply sort_perm|exact Hn]). revert HN. induction HS as [|a m Hs IH Hf]; intros HN; constructor.
  - apply IH. now inversion HN.
  - inversion HN as [|? ? Hna HN']; subst. rewrite Forall_forall in *. intros b Hb. apply leb_before; [|auto]. intros ->. contradiction.
Qed.
Lemma join_separated (print : R -> str) sep t l : (forall s, In s l -> afind str_dec s t <> None) ->
  rad_join print sep t true l = separated sep (map (fun s => s ++ ":"%char :: match afind str_dec s t with Some r => print r | None => [] end) l) /\
  rad_join print sep t false l = match l with [] => [] | _ => sep ++ separated sep (map (fun s => s ++ ":"%char :: match afind str_dec s t with Some r => print r | None => [] end) l) end.
Proof.
  induction l as [|s l IH]; intros H; [split; reflexivity|]. destruct IH as [IH1 IH2]; [intros; apply H; now right|]. cbn [rad_join map separated]. rewrite IH2. split.
  - destruct l as [|s' l]; cbn [map app]; [now rewrite app_nil_r|]. rewrite <- app_assoc. reflexivity.
  - f_equal. destruct l as [|s' l]; cbn [map app]; [now rewrite app_nil_r|]. rewrite <- app_assoc. reflexivity.
Qed.
