(** Electron numbers. *)
From Coq Require Import Ascii String.
From Verif Require Import Base AList RBase Trig Sums Bvs BvsSpec BvsProofs BvsMain BvsExample Tables Data DataSpec DataText.
Open Scope R_scope.
Open Scope list_scope.
Notation length := List.length.

Lemma letter_facts c : letter c -> ~ prefix_char c /\ ~ suffix_char c /\ ~ blank c /\ c <> "#"%char /\ c <> ","%char /\ c <> "-"%char.
Proof.
  intros H. assert (E : if in_dec ascii_dec c (chars "ABCDEFGHIJKLMNOPQRSTUVWXYZabcdefghijklmnopqrstuvwxyz") then
    lead_char c || trail_char c || isspace c || (c =? "#")%char || (c =? ",")%char || (c =? "-")%char = false else True).
  { clear H. all_ascii c; vm_compute; auto. }
  destruct (in_dec _ _ _) as [_|n]; [|tauto].
  repeat (rewrite orb_false_iff in E). destruct E as (((((E1 & E2) & E3) & E4) & E5) & E6).
  repeat split.
  - intros B. apply lead_spec in B. congruence.
  - intros B. apply trail_spec in B. congruence.
  - intros B. apply blank_true in B. congruence.
  - intros ->. discriminate.
  - intros ->. discriminate.
  - intros ->. discriminate.
Qed.
Lemma element_last s : element s -> exists z r, rev s = z :: r /\ letter z.
Proof.
  intros [Hne H]. destruct (rev s) as [|z r] eqn:E.
  - exfalso. apply Hne. rewrite <- (rev_involutive s), E. reflexivity.
  - exists z, r. split; auto. eapply Forall_forall; [exact H|]. apply in_rev. rewrite E. now left.
Qed.
Lemma element_symbol s : element s -> symbol s.
Proof.
  intros He. pose proof He as [Hne H]. destruct (element_last s He) as (z & r & E & Hz).
  destruct s as [|a s]; [congruence|]. exists a, z. rewrite E. inversion H; subst.
  repeat split; auto. now apply letter_facts. now apply letter_facts.
Qed.
Lemma element_newline s : element s -> forall z, head (rev s) = Some z -> ~ In z ("010" :: "011" :: "012" :: "013" :: nil)%char.
Proof.
  intros He z Hz Hin. destruct (element_last s He) as (z' & r & E & Hl). rewrite E in Hz. cbn in Hz. injection Hz as ->.
  apply letter_facts in Hl as (_ & _ & Hb & _). apply Hb. unfold blank. cbn in *. tauto.
Qed.
(** symbol and charge of a written name *)
Definition pr (s : str) : str * Z := (atomBareSymbol s, atomValence s).
Lemma pr_name sym iso ch v : symbol sym ->
  (forall z, head (rev sym) = Some z -> ~ In z ("010" :: "011" :: "012" :: "013" :: nil)%char) ->
  Forall prefix_char iso -> charge_text v ch -> pr (iso ++ sym ++ ch) = (sym, v).
Proof.
  intros Hs Hz Hiso [(-> & ->)|[(sg & Hsg & -> & ->)|(sg & k & Hsg & Hk & -> & ->)]].
  - destruct (valence_of_formula sym iso [] 0 "+"%char Hs Hz (or_introl eq_refl) (Nat.le_0_l _) Hiso) as (_ & _ & H).
    destruct (H eq_refl) as [E1 E2]. unfold pr. now rewrite E1, E2.
  - destruct (valence_of_formula sym iso [sg] 0 sg Hs Hz Hsg (Nat.le_0_l _) Hiso) as (H & _ & _).
    destruct (H eq_refl) as [E1 E2]. unfold pr. now rewrite E1, E2.
  - destruct (valence_of_formula sym iso [charge_digit k; sg] k sg Hs Hz Hsg Hk Hiso) as (_ & H & _).
    destruct (H eq_refl) as [E1 E2]. unfold pr. now rewrite E1, E2.
Qed.
(** the standard name *)
Definition std_name (el : str) (v : Z) : str := el ++ if (v =? 0)%Z then [] else dec (Z.abs v) ++ [sign_char v].
Lemma dec_small v : v <> 0%Z -> (-8 <= v <= 8)%Z -> exists k sg, (k <= 8)%nat /\ is_sign sg /\ dec (Z.abs v) ++ [sign_char v] = [charge_digit k; sg] /\
  v = (sign_value sg * Z.of_nat k)%Z.
Proof.
  intros H0 H. exists (Z.to_nat (Z.abs v)), (sign_char v).
  assert (C : (v = -8 \/ v = -7 \/ v = -6 \/ v = -5 \/ v = -4 \/ v = -3 \/ v = -2 \/ v = -1 \/ v = 1 \/ v = 2 \/ v = 3 \/ v = 4 \/ v = 5 \/ v = 6 \/ v = 7 \/ v = 8)%Z) by lia.
  repeat (destruct C as [->|C]; [split; [cbn; lia|split; [unfold is_sign; cbn; auto|split; reflexivity]]|]).
  subst v. split; [cbn; lia|split; [unfold is_sign; cbn; auto|split; reflexivity]].
Qed.
Lemma pr_std el v : element el -> (-8 <= v <= 8)%Z -> pr (std_name el v) = (el, v).
Proof.
  intros He Hv. unfold std_name. destruct (Z.eqb_spec v 0) as [->|Hn].
  - apply (pr_name el [] [] 0); [now apply element_symbol|now apply element_newline|constructor|left; auto].
  - destruct (dec_small v Hn Hv) as (k & sg & Hk & Hsg & -> & E).
    apply (pr_name el [] [charge_digit k; sg] v); [now apply element_symbol|now apply element_newline|constructor|right; right; exists sg, k; auto].
Qed.
Lemma ion_symbol_std el v : v <> 0%Z -> ion_symbol el v = std_name el v.
Proof. intros H. unfold ion_symbol, std_name. destruct (Z.eqb_spec v 0); [congruence|reflexivity]. Qed.

Lemma NoDup_app_disjoint {A} (l r : list A) : NoDup l -> NoDup r -> (forall y, In y l -> In y r -> False) -> NoDup (l ++ r).
Proof.
  induction 1 as [|x l Hx Hl IH]; intros Hr Hd; cbn; auto. constructor.
  - rewrite in_app_iff. intros [H|H]; [tauto|]. apply (Hd x); auto. now left.
  - apply IH; auto. intros y Hy. apply Hd. now right.
Qed.
(** the table is the list of all entries *)
Definition ion_ents (r : ion) : list (str * Z) := let '(el, z, vs) := r in (el, z) :: map (fun v => (ion_symbol el v, z - v)%Z) vs.
Definition ents (recs : list ion) : list (str * Z) := flat_map ion_ents recs.
Lemma ents_length recs : length (ents recs) = listed recs.
Proof.
  unfold ents. induction recs as [|[[el z] vs] recs IH]; auto. cbn [flat_map ion_ents app List.length listed fold_right]. fold (listed recs). rewrite app_length, map_length, IH. reflexivity.
Qed.
Lemma aset_app k (v : Z) t : afind str_dec k t = None -> aset str_dec k v t = t ++ [(k, v)].
Proof.
  induction t as [|[k' v'] t IH]; cbn; auto. destruct (str_dec k k'); [discriminate|]. intros H. now rewrite IH.
Qed.
Lemma insert_app k (v : Z) t : ~ In k (akeys t) -> insert k v t = t ++ [(k, v)].
Proof. intros H. unfold insert. apply (afind_None str_dec) in H. rewrite H. now apply aset_app. Qed.
Lemma inserts_app l : forall t, NoDup (akeys (t ++ l)) -> fold_left (fun t (e : str * Z) => insert (fst e) (snd e) t) l t = t ++ l.
Proof.
  induction l as [|[k v] l IH]; intros t H; cbn [fold_left]; [now rewrite app_nil_r|].
  cbn [fst snd]. rewrite insert_app.
  - rewrite IH; rewrite <- app_assoc; auto.
  - unfold akeys in H. rewrite map_app in H. cbn in H. apply NoDup_remove_2 in H. rewrite in_app_iff in H. intros Hin. apply H. now left.
Qed.
Lemma read_ions_ents recs lines : ion_file recs lines -> (forall r, In r recs -> element (ion_name r)) ->
  forall t, let t' := fold_left (fun t (e : str * Z) => insert (fst e) (snd e) t) (ents recs) t in
  read_ions t lines = if (length t' <? 447)%nat then Throw RuntimeError t' else Ok t'.
Proof.
  induction 1 as [|l recs lines Hs H IH|el z vs zt vts l recs lines Hl Hz Hv H IH]; intros Hel t; cbn [read_ions].
  - reflexivity.
  - apply skipped_spec in Hs. rewrite Hs. now apply IH.
  - assert (Hne : isignored (words l) = false).
    { rewrite (words_line _ _ Hl). cbn [isignored]. destruct (starts (lit "#") el) eqn:E; auto. apply starts_spec in E as (r & E).
      destruct (Hel _ (or_introl eq_refl)) as [_ Hf]. cbn in Hf. subst el. inversion Hf as [|? ? Hc]; subst. apply letter_facts in Hc. intuition congruence. }
    rewrite Hne. unfold read_ion_line.
    destruct (read_word_line _ _ _ Hl) as (s & -> & Hls & _). destruct (read_int_line _ _ _ _ Hls Hz) as (s' & -> & Hls' & _).
    rewrite (read_ints_line vs vts Hv s' _ Hls' (le_n _)). rewrite IH by (intros r Hr; apply Hel; now right).
    cbn [ents flat_map]. rewrite fold_left_app. cbn [ion_ents fold_left].
    replace (fold_left (fun t (e : str * Z) => insert (fst e) (snd e) t) (map (fun v => (ion_symbol el v, (z - v)%Z)) vs) (insert (fst (el, z)) (snd (el, z)) t))
      with (fold_left (fun t v => insert (ion_symbol el v) (z - v)%Z t) vs (insert el z t)); auto.
    cbn [fst snd]. generalize (insert el z t) as u. clear. induction vs as [|v vs IH]; intros u; cbn; auto.
Qed.

Section Good.
  Variable recs : list ion.
  Hypothesis Hgood : good_ions recs.
  Lemma ents_pr k x : In (k, x) (ents recs) -> exists el z vs v, In (el, z, vs) recs /\ pr k = (el, v) /\ (v = 0%Z \/ In v vs) /\ x = (z - v)%Z /\ k = std_name el v.
  Proof.
    unfold ents. rewrite in_flat_map. intros ([[el z] vs] & Hr & H). destruct Hgood as [_ Hg]. destruct (Hg _ Hr) as (He & _ & Hv). cbn in He, Hv.
    cbn in H. destruct H as [E|H].
    - injection E as <- <-. exists el, z, vs, 0%Z. repeat split; auto; try lia.
      + rewrite <- (pr_std el 0 He) by lia. unfold std_name. cbn. now rewrite app_nil_r.
      + unfold std_name. cbn. now rewrite app_nil_r.
    - apply in_map_iff in H as (v & E & Hin). injection E as <- <-. destruct (Hv v Hin) as [Hn Hr8].
      exists el, z, vs, v. rewrite ion_symbol_std by auto. rewrite pr_std by auto. repeat split; auto.
  Qed.
  Lemma ents_in el z vs v : In (el, z, vs) recs -> v = 0%Z \/ In v vs -> In (std_name el v, (z - v)%Z) (ents recs).
  Proof.
    intros Hr H. unfold ents. rewrite in_flat_map. exists (el, z, vs). split; auto. cbn. destruct Hgood as [_ Hg]. destruct (Hg _ Hr) as (He & _ & Hv). cbn in Hv.
    destruct H as [->|H].
    - left. unfold std_name. cbn. rewrite app_nil_r. f_equal. lia.
    - right. apply in_map_iff. exists v. split; auto. rewrite ion_symbol_std; auto. now apply Hv.
  Qed.
  Lemma ents_nodup_aux rs : (forall r, In r rs -> In r recs) -> NoDup (map ion_name rs) -> NoDup (map pr (akeys (ents rs))).
  Proof.
    induction rs as [|[[el z] vs] rs IH]; intros Hsub Hnd; [constructor|].
    pose proof (Hsub _ (or_introl eq_refl)) as Hr. destruct Hgood as [_ Hg]. destruct (Hg _ Hr) as (He & Hvs & Hv). cbn in He, Hvs, Hv.
    inversion Hnd as [|? ? Hni Hnd']; subst. cbn [ents flat_map]. fold (ents rs). unfold akeys. rewrite map_app, map_app.
    assert (E : map pr (map fst (ion_ents (el, z, vs))) = map (pair el) (0%Z :: vs)).
    { cbn. f_equal. { rewrite <- (pr_std el 0 He) by lia. unfold std_name. cbn. now rewrite app_nil_r. }
      rewrite !map_map. apply map_ext_in. intros v Hin. cbn. destruct (Hv v Hin). rewrite ion_symbol_std, pr_std; auto. }
    rewrite E.
    assert (HR : forall p, In p (map pr (map fst (ents rs))) -> In (fst p) (map ion_name rs)).
    { intros p Hp. rewrite map_map in Hp. apply in_map_iff in Hp as ([k x] & <- & Hin). cbn. unfold ents in Hin. apply in_flat_map in Hin as ([[el' z'] vs'] & Hr' & Hk).
      assert (HE : atomBareSymbol k = el').
      { destruct (Hg _ (Hsub _ (or_intror Hr'))) as (He' & _ & Hv'). cbn in He', Hv'. cbn in Hk. destruct Hk as [Ek|Hk].
        - injection Ek as <- <-. pose proof (pr_std el' 0 He' ltac:(lia)) as P. unfold std_name in P. cbn in P. rewrite app_nil_r in P. unfold pr in P. congruence.
        - apply in_map_iff in Hk as (v & Ek & Hin). injection Ek as <- <-. destruct (Hv' v Hin). rewrite ion_symbol_std by auto.
          pose proof (pr_std el' v He' ltac:(auto)) as P. unfold pr in P. congruence. }
      rewrite HE. change el' with (ion_name (el', z', vs')). now apply in_map. }
    apply NoDup_app_disjoint.
    - apply FinFun.Injective_map_NoDup. { intros x y Exy. congruence. } constructor; auto. intros H0. destruct (Hv _ H0). congruence.
    - apply IH; auto. intros r H. apply Hsub. now right.
    - intros p Hp Hp'. apply HR in Hp'. apply in_map_iff in Hp as (v & <- & _). cbn in Hp'. contradiction.
  Qed.
  Lemma ents_nodup : NoDup (akeys (ents recs)).
  Proof. eapply NoDup_map_inv. apply ents_nodup_aux; auto. now destruct Hgood. Qed.
  Lemma recs_unique el z vs z' vs' : In (el, z, vs) recs -> In (el, z', vs') recs -> z = z' /\ vs = vs'.
  Proof.
    destruct Hgood as [Hnd _]. clear Hgood. induction recs as [|r rs IH]; [intros []|]. inversion Hnd as [|? ? Hni Hnd']; subst.
    intros [->|H] [E|H'].
    - injection E; auto.
    - exfalso. apply Hni. change (ion_name (el, z, vs)) with (ion_name (el, z', vs')). now apply in_map.
    - subst r. exfalso. apply Hni. change (ion_name (el, z', vs')) with (ion_name (el, z, vs)). now apply in_map.
    - auto.
  Qed.
  Lemma find_listed el z vs v s : In (el, z, vs) recs -> pr s = (el, v) -> find_en (ents recs) s = if Z.eq_dec v 0 then Some z else if in_dec Z.eq_dec v vs then Some (z - v)%Z else None.
  Proof.
    intros Hr Hs. unfold find_en. assert (EB : atomBareSymbol s = el /\ atomValence s = v) by (unfold pr in Hs; split; congruence). destruct EB as [EB EV]. rewrite EB, EV.
    assert (Hlit : forall x, afind str_dec s (ents recs) = Some x -> (v = 0%Z \/ In v vs) /\ x = (z - v)%Z).
    { intros x Hx. apply (afind_Some_In str_dec), ents_pr in Hx as (el' & z' & vs' & v' & Hr' & Hp & Hv' & -> & _). rewrite Hs in Hp. injection Hp as <- <-.
      destruct (recs_unique _ _ _ _ _ Hr Hr') as [<- <-]. auto. }
    assert (Hstd : (v = 0%Z \/ In v vs) -> afind str_dec (std_name el v) (ents recs) = Some (z - v)%Z).
    { intros Hv. apply In_afind. apply ents_nodup. now apply (ents_in el z vs v). }
    assert (Hstd' : forall x, afind str_dec (std_name el v) (ents recs) = Some x -> (-8 <= v <= 8)%Z -> v = 0%Z \/ In v vs).
    { intros x Hx Hv. apply (afind_Some_In str_dec), ents_pr in Hx as (el' & z' & vs' & v' & Hr' & Hp & Hv' & -> & _).
      destruct Hgood as [_ Hg]. destruct (Hg _ Hr) as (He & _ & _). cbn in He. rewrite pr_std in Hp by auto. injection Hp as <- <-.
      destruct (recs_unique _ _ _ _ _ Hr Hr') as [<- <-]. auto. }
    assert (Hrange : (-8 <= v <= 8)%Z). { rewrite <- EV. apply val_range. }
    fold (std_name el v).
    destruct (afind str_dec s (ents recs)) as [x|] eqn:EX.
    - destruct (Hlit x eq_refl) as [Hv ->]. destruct (Z.eq_dec v 0) as [->|Hn]; [f_equal; lia|]. destruct (in_dec _ _ _); auto. tauto.
    - destruct (Z.eq_dec v 0) as [->|Hn]; [rewrite Hstd by auto; f_equal; lia|]. destruct (in_dec _ _ _) as [Hi|Hi]; [now rewrite Hstd by auto|].
      destruct (afind str_dec (std_name el v) (ents recs)) as [x|] eqn:EY; auto. destruct (Hstd' x eq_refl Hrange); tauto.
  Qed.
  Lemma find_unlisted s el v : pr s = (el, v) -> symbol el -> (forall z, head (rev el) = Some z -> ~ In z ("010" :: "011" :: "012" :: "013" :: nil)%char) ->
    ~ In el (map ion_name recs) -> find_en (ents recs) s = None.
  Proof.
    intros Hs Hsym Hnl Hn. unfold find_en. assert (EB : atomBareSymbol s = el /\ atomValence s = v) by (unfold pr in Hs; split; congruence). destruct EB as [EB EV]. rewrite EB, EV.
    assert (Hno : forall k, fst (pr k) = el -> afind str_dec k (ents recs) = None).
    { intros k Hk. destruct (afind str_dec k (ents recs)) as [x|] eqn:EX; auto. apply (afind_Some_In str_dec), ents_pr in EX as (el' & z' & vs' & v' & Hr' & Hp & _).
      rewrite Hp in Hk. cbn in Hk. subst el'. exfalso. apply Hn. change el with (ion_name (el, z', vs')). now apply in_map. }
    rewrite Hno by (now rewrite Hs). fold (std_name el v). apply Hno. unfold std_name. destruct (Z.eqb_spec v 0) as [->|H0].
    - change (el ++ []) with ([] ++ el ++ []). rewrite (pr_name el [] [] 0); auto. left; auto.
    - destruct (dec_small v H0) as (k & sg & Hk & Hsg & -> & E). { rewrite <- EV. apply val_range. }
      change (el ++ [charge_digit k; sg]) with ([] ++ el ++ [charge_digit k; sg]). rewrite (pr_name el [] [charge_digit k; sg] v); auto. right; right. exists sg, k; auto.
  Qed.
End Good.
