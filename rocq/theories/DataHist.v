(** Bond valence parameters, histories and paths. *)
From Coq Require Import Ascii String.
From Verif Require Import Base AList RBase Trig Sums Bvs BvsSpec BvsProofs BvsMain Tables Data DataSpec DataText DataIons DataWk DataNsf.
Open Scope R_scope.
Open Scope list_scope.
Notation length := List.length.

Section Bv.
  Variable num : str -> option R.
  Lemma mkBV_key a0 v0 a1 v1 Ro B : key_of (mkBV a0 v0 a1 v1 Ro B) = bond_key a0 v0 a1 v1 /\ mRo (mkBV a0 v0 a1 v1 Ro B) = Ro /\ mB (mkBV a0 v0 a1 v1 Ro B) = B.
  Proof. unfold mkBV, bond_key. destruct (v0 <? v1)%Z; auto. Qed.
  Lemma bondEqual_key p q : bondEqual p q = true <-> key_of p = key_of q.
  Proof.
    unfold bondEqual, key_of. rewrite !andb_true_iff, !Z.eqb_eq. destruct (str_dec (matom0 p) (matom0 q)), (str_dec (matom1 p) (matom1 q)); split; intros H; intuition congruence.
  Qed.
  Lemma bvfind_insert k p t : value_of (bvfind k (bvinsert p t)) =
    match bvfind k t with Some q => value_of (Some q) | None => if key_dec (key_of p) (key_of k) then value_of (Some p) else None end.
  Proof.
    unfold bvinsert. destruct (bvfind p t) as [q|] eqn:E.
    - destruct (bvfind k t) eqn:E2; auto. destruct (key_dec (key_of p) (key_of k)) as [Ek|]; auto. exfalso.
      apply find_some in E as [Hq E]. apply bondEqual_key in E. unfold bvfind in E2. pose proof (find_none _ _ E2 q Hq) as F. cbn in F.
      assert (bondEqual q k = true) by (apply bondEqual_key; congruence). congruence.
    - unfold bvfind at 1. cbn [find]. fold (bvfind k t). destruct (bondEqual p k) eqn:Ek.
      + apply bondEqual_key in Ek. destruct (key_dec _ _); [|congruence].
        destruct (bvfind k t) as [q|] eqn:E2; auto. exfalso. apply find_some in E2 as [Hq E2]. apply bondEqual_key in E2.
        pose proof (find_none _ _ E q Hq) as F. cbn in F. assert (bondEqual q p = true) by (apply bondEqual_key; congruence). congruence.
      + destruct (bvfind k t); auto. destruct (key_dec _ _) as [E3|]; auto. apply bondEqual_key in E3. congruence.
  Qed.
  Lemma num_line w ws l x : is_line (w :: ws) l -> num w = Some x -> exists s, read_num num l = Some (x, s) /\ is_line ws s.
  Proof. intros H E. destruct (read_word_line _ _ _ H) as (s & Es & Hs & _). exists s. unfold read_num. rewrite Es, E. auto. Qed.
  Lemma cif_line a0 v0 t0 a1 v1 t1 Ro wRo B wB ref more l :
    is_line (a0 :: t0 :: a1 :: t1 :: wRo :: wB :: ref :: more) l -> number_text v0 t0 -> number_text v1 t1 -> num wRo = Some Ro -> num wB = Some B ->
    setFromCifLine num l = Some (mkBV a0 v0 a1 v1 Ro B).
  Proof.
    intros H N0 N1 ER EB. unfold setFromCifLine.
    destruct (read_word_line _ _ _ H) as (s1 & -> & H1 & _). destruct (read_int_line _ _ _ _ H1 N0) as (s2 & -> & H2 & _).
    destruct (read_word_line _ _ _ H2) as (s3 & -> & H3 & _). destruct (read_int_line _ _ _ _ H3 N1) as (s4 & -> & H4 & _).
    destruct (num_line _ _ _ _ H4 ER) as (s5 & -> & H5). destruct (num_line _ _ _ _ H5 EB) as (s6 & -> & H6).
    destruct (read_word_line _ _ _ H6) as (s7 & -> & _). reflexivity.
  Qed.
  Lemma bv_body recs lines : bv_lines num recs lines -> forall t k, exists t', read_bv_lines num t lines = Ok t' /\
    value_of (bvfind k t') = match bvfind k t with Some q => value_of (Some q) | None => option_map (pair (key_of k)) (first_param recs (key_of k)) end.
  Proof.
    induction 1 as [|l recs lines Hs H IH|a0 v0 t0 a1 v1 t1 Ro wRo B wB ref more l recs lines Hl Hc N0 N1 ER EB H IH]; intros t k; cbn [read_bv_lines].
    - exists t. split; reflexivity.
    - apply skipped_spec in Hs. rewrite Hs. apply IH.
    - assert (E : isignored (words l) = false).
      { rewrite (words_line _ _ Hl). cbn [isignored]. destruct (starts (lit "#") a0) eqn:E; auto. apply starts_spec in E as (r & ->). exfalso. now apply (Hc r). }
      rewrite E, (cif_line _ _ _ _ _ _ _ _ _ _ _ _ _ Hl N0 N1 ER EB).
      destruct (IH (bvinsert (mkBV a0 v0 a1 v1 Ro B) t) k) as (t' & E1 & E2). exists t'. split; auto. rewrite E2.
      pose proof (bvfind_insert k (mkBV a0 v0 a1 v1 Ro B) t) as E3. destruct (mkBV_key a0 v0 a1 v1 Ro B) as (K1 & K2 & K3).
      cbn [first_param bv_param fst snd]. destruct (bvfind k t) as [q|].
      + destruct (bvfind k (bvinsert (mkBV a0 v0 a1 v1 Ro B) t)); [exact E3|discriminate].
      + rewrite K1 in E3. destruct (key_dec (bond_key a0 v0 a1 v1) (key_of k)) as [Ek|].
        * destruct (bvfind k (bvinsert (mkBV a0 v0 a1 v1 Ro B) t)); [|discriminate]. rewrite E3. unfold value_of. cbn [option_map]. rewrite K1, K2, K3, Ek. reflexivity.
        * destruct (bvfind k (bvinsert (mkBV a0 v0 a1 v1 Ro B) t)); [discriminate|]. reflexivity.
  Qed.
  Lemma bv_header h1 hl rest : Forall (fun l => forall ws, ~ is_line (chars "_valence_param_B" :: ws) l) h1 -> (exists ws, is_line (chars "_valence_param_B" :: ws) hl) ->
    skip_to_B (h1 ++ hl :: rest) = rest.
  Proof.
    intros H (ws & Hh). induction H as [|l h1 Hl H IH]; cbn [app skip_to_B].
    - rewrite (words_line _ _ Hh). destruct (str_dec _ _); auto. exfalso. now apply n.
    - pose proof (line_words l) as HL. destruct (words l) as [|w ws']; auto. destruct (str_dec w (lit "_valence_param_B")) as [->|]; auto. exfalso. now apply (Hl ws').
  Qed.
  Lemma bv_blank h2 bl rest : Forall (fun l => ~ is_line [] l) h2 -> is_line [] bl -> skip_to_blank (h2 ++ bl :: rest) = rest.
  Proof.
    intros H Hb. induction H as [|l h2 Hl H IH]; cbn [app skip_to_blank].
    - now rewrite (words_line _ _ Hb).
    - pose proof (line_words l) as HL. destruct (words l) as [|w ws']; auto. tauto.
  Qed.
  Lemma fresh_bv lines k : fresh_answer num lines (CBv k) = match read_bv num lines with Ok t => Val (ABv (bvfind k t)) | Throw x _ => Exc x | UB => Bad end.
  Proof. unfold fresh_answer, run_call, get_bv. cbn [l_rt l_bv lib0]. rewrite fresh_load. cbv zeta. destruct (read_bv num lines); reflexivity. Qed.
  Lemma bv_main recs lines k : bv_file num recs lines -> exists o, fresh_answer num lines (CBv k) = Val (ABv o) /\ value_of o = option_map (pair (key_of k)) (first_param recs (key_of k)).
  Proof.
    intros (h1 & hl & h2 & bl & body & -> & H1 & Hh & H2 & Hb & HB). rewrite fresh_bv. unfold read_bv. rewrite bv_header, bv_blank by auto.
    destruct (bv_body _ _ HB [] k) as (t & -> & E). exists (bvfind k t). auto.
  Qed.
End Bv.

(** *** Histories *)
Section Hist.
  Variable num : str -> option R.
  (** the file can be read to its end *)
  Definition table_of (k : kind) (lines : list str) (L : lib) : Prop :=
    match k with
    | KWk => exists t, read_wk num [] [] lines = Ok t /\ l_wk L = Some t
    | KIon => exists t, read_ions [] lines = Ok t /\ l_en L = Some t
    | KNeutron => exists t, read_nsf_file num lines = Ok t /\ l_bc L = Some t
    | KBv => exists t, read_bv num lines = Ok t /\ l_bv L = Some t
    | KPath => True
    end.
  Definition unloaded (k : kind) (L : lib) : Prop :=
    match k with KWk => l_wk L = None | KIon => l_en L = None | KNeutron => l_bc L = None | KBv => l_bv L = None | KPath => True end.
  Definition empty_table (k : kind) (L : lib) : Prop :=
    match k with KWk => l_wk L = Some [] | KIon => l_en L = Some [] | KNeutron => l_bc L = Some [] | KBv => l_bv L = Some [] | KPath => True end.
  Ltac split_call c := destruct c; unfold run_call, get_wk, get_en, get_bc, get_bv;
    match goal with
    | |- context [load ?a ?b ?c ?d ?e ?f] => destruct (load a b c d e f) as [[? ?] ?] eqn:EL
    | |- context [datapath ?a ?b ?c] => destruct (datapath a b c) as [? ?] eqn:EL
    end.
  Lemma other_kind c e L k : kind_of c <> k -> (unloaded k L -> unloaded k (fst (run_call num c e L))) /\
    (forall lines, table_of k lines L -> table_of k lines (fst (run_call num c e L))) /\ (empty_table k L -> empty_table k (fst (run_call num c e L))).
  Proof. intros H. split_call c; destruct k; cbn in *; auto; congruence. Qed.
  Lemma load_some {T} (empty : T) read f e r t : load empty read f e r (Some t) = (r, Some t, Val t).
  Proof. reflexivity. Qed.
  Lemma same_kind c e L lines : kind_of c <> KPath -> table_of (kind_of c) lines L ->
    table_of (kind_of c) lines (fst (run_call num c e L)) /\ snd (run_call num c e L) = fresh_answer num lines c.
  Proof.
    destruct c; cbn [kind_of table_of]; try congruence; intros _ (t & Et & EL); [rewrite fresh_wk, Et|rewrite fresh_el, Et| |
      rewrite DataNsf.fresh_bc, Et|rewrite fresh_bv, Et]; unfold run_call, get_wk, get_en, get_bc, get_bv; rewrite EL, load_some; cbn [fst snd l_wk l_en l_bc l_bv andThen orThrow].
    - split; [eauto|]. destruct (find_wk t smbl); reflexivity.
    - split; [eauto|]. destruct (find_wk t smbl); reflexivity.
    - split; [eauto|]. unfold fresh_answer, run_call, get_en. cbn [l_rt l_en lib0]. rewrite fresh_load. cbv zeta. rewrite Et. reflexivity.
    - split; [eauto|]. destruct (find_bc t smbl); reflexivity.
    - split; eauto.
  Qed.

  Lemma run_app h1 : forall h2 L, fst (run num (h1 ++ h2) L) = fst (run num h2 (fst (run num h1 L))).
  Proof.
    induction h1 as [|[e c] h1 IH]; intros h2 L; auto. cbn [app run]. destruct (run_call num c e L) as [L' a]. specialize (IH h2 L').
    destruct (run num (h1 ++ h2) L'), (run num h1 L'). exact IH.
  Qed.
  Lemma run_nth h : forall L i e c, nth_error h i = Some (e, c) -> nth_error (snd (run num h L)) i = Some (snd (run_call num c e (fst (run num (firstn i h) L)))).
  Proof.
    induction h as [|[e0 c0] h IH]; intros L i e c H; [destruct i; discriminate|]. cbn [run]. destruct (run_call num c0 e0 L) as [L' a] eqn:E.
    destruct (run num h L') as [L'' l] eqn:E2. destruct i as [|i]; cbn [nth_error snd firstn] in *.
    - injection H as <- <-. cbn [run fst]. now rewrite E.
    - cbn [run]. rewrite E. specialize (IH L' i e c H). rewrite E2 in IH. cbn [snd] in IH. rewrite IH. now destruct (run num (firstn i h) L').
  Qed.
  Lemma run_keep (P : lib -> Prop) h : (forall e c L, In (e, c) h -> P L -> P (fst (run_call num c e L))) -> forall L, P L -> P (fst (run num h L)).
  Proof.
    induction h as [|[e c] h IH]; intros Hs L HL; auto. cbn [run]. pose proof (Hs e c L (or_introl eq_refl) HL) as H1. destruct (run_call num c e L) as [L' a]. cbn [fst] in H1.
    specialize (IH (fun e c L H => Hs e c L (or_intror H)) L' H1). destruct (run num h L'). exact IH.
  Qed.
  Lemma kind_dec (a b : kind) : {a = b} + {a <> b}. Proof. decide equality. Qed.
  Lemma before_unloaded h k : k <> KPath -> (forall e c, In (e, c) h -> kind_of c <> k) -> unloaded k (fst (run num h lib0)).
  Proof.
    intros Hk H. apply run_keep; [|destruct k; reflexivity]. intros e c L Hin HL. apply other_kind; auto. now apply (H e).
  Qed.
  Lemma table_keep k lines h L : k <> KPath -> table_of k lines L -> table_of k lines (fst (run num h L)).
  Proof.
    intros Hk HL. apply run_keep; auto. intros e c L' _ HL'. destruct (kind_dec (kind_of c) k) as [<-|Hne].
    - now apply same_kind.
    - now apply other_kind.
  Qed.
  (** readable to its end *)
  Definition readable (k : kind) (lines : list str) : Prop :=
    match k with
    | KWk => exists t, read_wk num [] [] lines = Ok t
    | KIon => exists t, read_ions [] lines = Ok t
    | KNeutron => exists t, read_nsf_file num lines = Ok t
    | KBv => exists t, read_bv num lines = Ok t
    | KPath => True
    end.
  Lemma path_is L e f p : snd (run_call num (CPath f) e L) = Val (APath p) -> exists r, datapath e (l_rt L) f = (r, Val p).
  Proof. cbn [run_call]. destruct (datapath e (l_rt L) f) as [r [q|x|]]; cbn; intros E; try discriminate. injection E as <-. eauto. Qed.
  Lemma load_ok {T} (empty : T) read f e r p lines t : (exists r', datapath e r (lit f) = (r', Val p)) -> e_file e p = Some lines -> read lines = Ok t ->
    exists r', load empty read f e r None = (r', Some t, Val t).
  Proof. intros (r' & E1) E2 E3. unfold load. rewrite E1, E2, E3. eauto. Qed.
  Lemma load_fails {T} (empty : T) read f e r : (exists r' x, datapath e r (lit f) = (r', Exc x)) \/ (exists r' p, datapath e r (lit f) = (r', Val p) /\ e_file e p = None) ->
    exists r' x, load empty read f e r None = (r', Some empty, Exc x).
  Proof. intros [(r' & x & E)|(r' & p & E & E2)]; unfold load; rewrite E; [|rewrite E2]; eauto. Qed.
  Lemma first_call e c L p lines : kind_of c <> KPath -> unloaded (kind_of c) L -> snd (run_call num (CPath (chars (file_of (kind_of c)))) e L) = Val (APath p) ->
    e_file e p = Some lines -> readable (kind_of c) lines ->
    table_of (kind_of c) lines (fst (run_call num c e L)) /\ snd (run_call num c e L) = fresh_answer num lines c.
  Proof.
    intros Hk HU HP HF HR. apply path_is in HP.
    destruct c; cbn [kind_of] in *; try congruence; cbn [unloaded readable file_of table_of] in *; destruct HR as (t & Et);
    [rewrite fresh_wk, Et|rewrite fresh_el, Et| |rewrite DataNsf.fresh_bc, Et|rewrite fresh_bv, Et]; unfold run_call, get_wk, get_en, get_bc, get_bv; rewrite HU; unfold wktable, entable, bctable in *;
    match goal with |- context [@load ?T ?a ?b ?f e _ None] => destruct (@load_ok T a b f e _ p lines t HP HF Et) as (r' & EL); rewrite EL end; cbn [fst snd l_wk l_en l_bc l_bv andThen orThrow].
    - split; [eauto|]. destruct (find_wk t smbl); reflexivity.
    - split; [eauto|]. destruct (find_wk t smbl); reflexivity.
    - split; [eauto|]. unfold fresh_answer, run_call, get_en. cbn [l_rt l_en lib0]. rewrite fresh_load. cbv zeta. rewrite Et. reflexivity.
    - split; [eauto|]. destruct (find_bc t smbl); reflexivity.
    - split; eauto.
  Qed.
  Lemma nth_firstn_prefix {A} (h1 h2 : list A) i : (length h1 <= i)%nat -> firstn i (h1 ++ h2) = h1 ++ firstn (i - length h1) h2.
  Proof. intros H. rewrite firstn_app, firstn_all2 by auto. reflexivity. Qed.
  Lemma history_once h1 e c h2 p lines : kind_of c <> KPath -> (forall e' c', In (e', c') h1 -> kind_of c' <> kind_of c) ->
    snd (run_call num (CPath (chars (file_of (kind_of c)))) e (fst (run num h1 lib0))) = Val (APath p) -> e_file e p = Some lines -> readable (kind_of c) lines ->
    forall i e' c', nth_error (h1 ++ (e, c) :: h2) i = Some (e', c') -> kind_of c' = kind_of c ->
    nth_error (snd (run num (h1 ++ (e, c) :: h2) lib0)) i = Some (fresh_answer num lines c').
  Proof.
    intros Hk H1 HP HF HR i e' c' Hi Hc. rewrite (run_nth _ _ _ _ _ Hi). f_equal.
    destruct (Nat.lt_ge_cases i (length h1)) as [Hlt|Hge].
    - exfalso. rewrite nth_error_app1 in Hi by auto. apply nth_error_In in Hi. now apply (H1 e' c').
    - rewrite nth_firstn_prefix, run_app by auto. pose proof (before_unloaded h1 (kind_of c) Hk H1) as HU.
      rewrite nth_error_app2 in Hi by auto. destruct (i - length h1)%nat as [|j] eqn:Ej; cbn [nth_error firstn] in *.
      + injection Hi as <- <-. cbn [run fst]. now apply (first_call e c _ p lines).
      + destruct (first_call e c _ p lines Hk HU HP HF HR) as [HT _]. cbn [run]. destruct (run_call num c e (fst (run num h1 lib0))) as [L1 a]. cbn [fst] in HT.
        pose proof (table_keep _ _ (firstn j h2) _ Hk HT) as HT2. destruct (run num (firstn j h2) L1) as [L2 l]. cbn [fst] in *.
        rewrite <- Hc in HT2. apply same_kind; auto. congruence.
  Qed.
  (** what remains after a file that could not be opened *)
  Lemma empty_call e c L : kind_of c <> KPath -> empty_table (kind_of c) L -> empty_table (kind_of c) (fst (run_call num c e L)) /\ snd (run_call num c e L) = empty_answer c.
  Proof.
    destruct c; cbn [kind_of empty_table]; try congruence; intros _ EL; unfold run_call, get_wk, get_en, get_bc, get_bv; rewrite EL, load_some; cbn [fst snd l_wk l_en l_bc l_bv andThen orThrow];
    (split; [reflexivity|]); cbn; try reflexivity.
    - unfold find_wk; cbn. destruct (_ =? 0)%Z; [reflexivity|]. destruct (_ =? 1)%Z; reflexivity.
    - unfold find_wk; cbn. destruct (_ =? 0)%Z; [reflexivity|]. destruct (_ =? 1)%Z; reflexivity.
  Qed.
  Lemma failing_call e c L : kind_of c <> KPath -> unloaded (kind_of c) L -> cannot_open num (kind_of c) e L ->
    empty_table (kind_of c) (fst (run_call num c e L)) /\ exists x, snd (run_call num c e L) = Exc x.
  Proof.
    intros Hk HU HC.
    assert (HD : (exists r' x, datapath e (l_rt L) (lit (file_of (kind_of c))) = (r', Exc x)) \/
      (exists r' p, datapath e (l_rt L) (lit (file_of (kind_of c))) = (r', Val p) /\ e_file e p = None)).
    { destruct HC as [(x & HP)|(p & HP & HF)].
      - left. cbn [run_call] in HP. change (chars (file_of (kind_of c))) with (lit (file_of (kind_of c))) in HP. destruct (datapath _ _ _) as [r [q|y|]]; cbn in HP; try discriminate. eauto.
      - right. apply path_is in HP as (r & HP). eauto. }
    destruct c; cbn [kind_of] in *; try congruence; cbn [unloaded file_of empty_table] in *; unfold run_call, get_wk, get_en, get_bc, get_bv; rewrite HU; unfold wktable, entable, bctable in *;
    match goal with |- context [@load ?T ?a ?b ?f e _ None] => destruct (@load_fails T a b f e _ HD) as (r' & x & EL); rewrite EL end; cbn [fst snd l_wk l_en l_bc l_bv andThen]; eauto.
  Qed.
  Lemma empty_keep k h L : k <> KPath -> empty_table k L -> empty_table k (fst (run num h L)).
  Proof.
    intros Hk HL. apply run_keep; auto. intros e c L' _ HL'. destruct (kind_dec (kind_of c) k) as [<-|Hne].
    - now apply empty_call.
    - now apply other_kind.
  Qed.
  Lemma history_failed h1 e c h2 : kind_of c <> KPath -> (forall e' c', In (e', c') h1 -> kind_of c' <> kind_of c) ->
    cannot_open num (kind_of c) e (fst (run num h1 lib0)) ->
    forall i e' c', nth_error h2 i = Some (e', c') -> kind_of c' = kind_of c ->
    nth_error (snd (run num (h1 ++ (e, c) :: h2) lib0)) (S (length h1) + i) = Some (empty_answer c').
  Proof.
    intros Hk H1 HC i e' c' Hi Hc.
    assert (Hi' : nth_error (h1 ++ (e, c) :: h2) (S (length h1) + i) = Some (e', c')).
    { rewrite nth_error_app2 by lia. replace (S (length h1) + i - length h1)%nat with (S i) by lia. exact Hi. }
    rewrite (run_nth _ _ _ _ _ Hi'). f_equal. rewrite nth_firstn_prefix, run_app by lia. replace (S (length h1) + i - length h1)%nat with (S i) by lia. cbn [firstn run].
    pose proof (before_unloaded h1 (kind_of c) Hk H1) as HU. destruct (failing_call e c _ Hk HU HC) as [HT _].
    destruct (run_call num c e (fst (run num h1 lib0))) as [L1 a]. cbn [fst] in HT.
    pose proof (empty_keep _ (firstn i h2) _ Hk HT) as HT2. destruct (run num (firstn i h2) L1) as [L2 l]. cbn [fst] in *.
    rewrite <- Hc in HT2. apply empty_call; auto. congruence.
  Qed.

  (** *** Paths *)
  Lemma strip_spec pe d : pe <> [] -> no_trailing pe d -> strip_slashes pe = d.
  Proof.
    intros Hne ((n & ->) & Hd). unfold strip_slashes.
    assert (Hrep : Forall (fun x => (x =? "/")%char = true) (repeat "/"%char n)) by (clear; induction n; cbn; [constructor|constructor; [reflexivity|assumption]]).
    destruct Hd as [->|[Hd Hl]].
    - assert (E : find_last_not (fun c => (c =? "/")%char) (["/"%char] ++ repeat "/"%char n) = None).
      { unfold find_last_not. rewrite rev_app_distr. cbn [rev app].
        assert (HF : forall s, Forall (fun x => (x =? "/")%char = true) s -> find_first_not (fun c => (c =? "/")%char) s = None).
        { induction 1 as [|x s Hx Hs IH]; cbn; auto. now rewrite Hx, IH. }
        rewrite HF; auto. apply Forall_app. split; [|repeat constructor]. apply Forall_rev. auto. }
      rewrite E. reflexivity.
    - destruct (rev d) as [|z r] eqn:Er. { exfalso. apply Hd. rewrite <- (rev_involutive d), Er. reflexivity. }
      assert (ED : d = rev r ++ [z]) by (rewrite <- (rev_involutive d), Er; reflexivity).
      replace (d ++ repeat "/"%char n) with (rev r ++ z :: repeat "/"%char n) by (rewrite ED, <- app_assoc; reflexivity).
      rewrite fln_app; auto.
      + replace (length (rev r) + 1)%nat with (length d) by (rewrite ED, app_length; reflexivity).
        replace (rev r ++ z :: repeat "/"%char n) with (d ++ repeat "/"%char n) by (rewrite ED, <- app_assoc; reflexivity).
        rewrite firstn_app, Nat.sub_diag, firstn_all. cbn. apply app_nil_r.
      + destruct (Ascii.eqb_spec z "/"%char) as [->|]; auto. cbn in Hl. congruence.
  Qed.
  Lemma no_trailing_exists pe : pe <> [] -> exists d, no_trailing pe d.
  Proof.
    intros Hne. assert (H : exists a n, pe = a ++ repeat "/"%char n /\ (a = [] \/ exists z r, rev a = z :: r /\ z <> "/"%char)).
    { clear Hne. induction pe as [|x s IH] using rev_ind; [exists [], 0%nat; auto|]. destruct (ascii_dec x "/"%char) as [->|Hx].
      - destruct IH as (a & n & -> & Ha). exists a, (S n). split; auto. rewrite <- app_assoc. f_equal. clear. induction n; cbn; auto. now rewrite IHn.
      - exists (s ++ [x]), 0%nat. split; [cbn; now rewrite app_nil_r|]. right. exists x, (rev s). rewrite rev_app_distr. auto. }
    destruct H as (a & n & -> & [->|(z & r & Er & Hz)]).
    - destruct n as [|n]; [cbn in Hne; congruence|]. exists ["/"%char]. split; [exists n; reflexivity|now left].
    - exists a. split; [eauto|]. right. split; [intros ->; discriminate|]. rewrite Er. cbn. congruence.
  Qed.
  (** same file system, any value of the variable *)
  Definition resolve (e : env) : res str := snd (diffpyruntime e rt0).
  Definition env_res (e : env) (pe : str) : res str :=
    if e_isdir e (strip_slashes pe) then match e_real e (strip_slashes pe) with Some q => Val q | None => Bad end else Exc RuntimeError.
  Definition lib_res (e : env) : res str :=
    if e_isdir e (e_d1 e) then match e_real e (e_d1 e) with Some q => Val q | None => Bad end
    else if e_isdir e (e_d2 e) then match e_real e (e_d2 e) with Some q => Val q | None => Bad end else Exc RuntimeError.
  Lemma resolve_is e : resolve e = match e_var e with Some (c :: p) => env_res e (c :: p) | _ => lib_res e end.
  Proof.
    unfold resolve, diffpyruntime, env_res, lib_res. cbn [rt0 rt_lib rt_did rt_dprt rt_env andb].
    destruct (e_var e) as [[|c p]|].
    - destruct (e_isdir e (e_d1 e)); [|destruct (e_isdir e (e_d2 e))]; try destruct (e_real e _); reflexivity.
    - destruct (e_isdir e (strip_slashes (c :: p))); [destruct (e_real e (strip_slashes (c :: p)))|]; reflexivity.
    - destruct (e_isdir e (e_d1 e)); [|destruct (e_isdir e (e_d2 e))]; try destruct (e_real e _); reflexivity.
  Qed.
  Lemma same_env e e' pe : same_fs e e' -> env_res e pe = env_res e' pe.
  Proof. intros (H1 & H2 & _). unfold env_res. now rewrite H1, H2. Qed.
  Lemma same_lib e e' : same_fs e e' -> lib_res e = lib_res e'.
  Proof. intros (H1 & H2 & H3 & H4). unfold lib_res. now rewrite H3, H4, !H1, !H2. Qed.
  Definition cache_ok (e : env) (r : rtcache) : Prop :=
    (forall q, rt_lib r = Some q -> lib_res e = Val q) /\ (rt_did r = true -> env_res e (rt_dprt r) = Val (rt_env r)).
  Lemma runtime_ok e r : cache_ok e r -> cache_ok e (fst (diffpyruntime e r)) /\ snd (diffpyruntime e r) = resolve e.
  Proof.
    intros (C1 & C2). rewrite resolve_is. unfold diffpyruntime.
    assert (LIB : forall q, rt_lib r = Some q -> cache_ok e (fst (r, Val q)) /\ snd (r, Val q) = lib_res e).
    { intros q EQ. cbn [fst snd]. split; [split; auto|]. symmetry. auto. }
    assert (NOLIB : rt_lib r = None -> forall x, lib_res e = x -> match x with Val q => cache_ok e (mkRt (Some q) (rt_did r) (rt_dprt r) (rt_env r)) | _ => cache_ok e r end).
    { intros EN x Ex. destruct x; try (split; auto). cbn [rt_lib]. intros q E. congruence. }
    destruct (e_var e) as [[|c p]|] eqn:EV.
    - destruct (rt_lib r) as [q|] eqn:EQ; [apply LIB; auto|]. specialize (NOLIB eq_refl _ eq_refl). unfold lib_res in *.
      destruct (e_isdir e (e_d1 e)); [|destruct (e_isdir e (e_d2 e))]; try destruct (e_real e _); auto.
    - clear LIB NOLIB. assert (NEW : forall x, env_res e (c :: p) = x -> cache_ok e (mkRt (rt_lib r) (match x with Val _ => true | _ => false end) (c :: p) (match x with Val q => q | _ => strip_slashes (c :: p) end))).
      { intros x Ex. split; [exact C1|]. cbn [rt_did rt_dprt rt_env]. destruct x; congruence. }
      specialize (NEW _ eq_refl).
      destruct (rt_did r && (if str_dec (rt_dprt r) (c :: p) then true else false)) eqn:EC.
      + apply andb_true_iff in EC as [ED EC]. destruct (str_dec _ _) as [E|]; [|discriminate]. specialize (C2 ED). rewrite E in C2. cbn [fst snd]. split; [split; auto; rewrite ED, E; auto|auto].
      + clear C1 C2 EC. unfold env_res in *. destruct (e_isdir e (strip_slashes (c :: p))); [destruct (e_real e (strip_slashes (c :: p)))|]; cbn [fst snd]; auto.
    - destruct (rt_lib r) as [q|] eqn:EQ; [apply LIB; auto|]. specialize (NOLIB eq_refl _ eq_refl). unfold lib_res in *.
      destruct (e_isdir e (e_d1 e)); [|destruct (e_isdir e (e_d2 e))]; try destruct (e_real e _); auto.
  Qed.
  Lemma cache_same e e' r : same_fs e e' -> cache_ok e r -> cache_ok e' r.
  Proof. intros H (C1 & C2). unfold cache_ok. rewrite <- (same_lib e e') by auto. split; auto. intros HT. rewrite <- (same_env e e') by auto. auto. Qed.
  Lemma cache_call c e L : cache_ok e (l_rt L) -> cache_ok e (l_rt (fst (run_call num c e L))).
  Proof.
    intros H. assert (HD : forall f, cache_ok e (fst (datapath e (l_rt L) f))).
    { intros f. unfold datapath. destruct (runtime_ok e _ H) as [H1 _]. destruct (diffpyruntime e (l_rt L)) as [r [q|x|]]; exact H1. }
    assert (HL : forall T (empty : T) read f cur, cache_ok e (fst (fst (load empty read f e (l_rt L) cur)))).
    { intros T empty read f cur. unfold load. destruct cur; [exact H|]. specialize (HD (lit f)). destruct (datapath e (l_rt L) (lit f)) as [r [q|x|]]; cbn [fst] in *; auto.
      destruct (e_file e q); auto. destruct (read l); auto. }
    split_call c; cbn [fst l_rt];
    try (match type of EL with @load ?T ?a ?b ?f _ _ ?g = _ => specialize (HL T a b f g); rewrite EL in HL; exact HL end).
    specialize (HD f). rewrite EL in HD. exact HD.
  Qed.
  Lemma path_follows h e f : (forall e' c', In (e', c') h -> same_fs e e') ->
    snd (run_call num (CPath f) e (fst (run num h lib0))) = snd (run_call num (CPath f) e lib0).
  Proof.
    intros Hs. assert (HC : cache_ok e (l_rt (fst (run num h lib0)))).
    { apply (run_keep (fun L => cache_ok e (l_rt L))).
      - intros e' c' L Hin HL. pose proof (Hs _ _ Hin) as HS. apply (cache_same e'); [destruct HS as (A & B & C & D); repeat split; auto|]. apply cache_call. now apply (cache_same e).
      - split; [discriminate|discriminate]. }
    assert (HC0 : cache_ok e rt0) by (split; discriminate).
    cbn [run_call]. unfold datapath. destruct (runtime_ok e _ HC) as [_ E1]. destruct (runtime_ok e _ HC0) as [_ E2]. cbn [l_rt lib0].
    destruct (diffpyruntime e (l_rt (fst (run num h lib0)))) as [r1 x1], (diffpyruntime e rt0) as [r2 x2]. cbn [snd] in *. subst x1 x2. destruct (resolve e); reflexivity.
  Qed.
  (** with a file system that changes: the directory of an answer was found by this or an earlier call with the same variable *)
  Definition seen (E : env -> Prop) (r : rtcache) : Prop :=
    (forall q, rt_lib r = Some q -> exists e, E e /\ has_var e None /\ lib_res e = Val q) /\
    (rt_did r = true -> exists e, E e /\ e_var e = Some (rt_dprt r) /\ resolve e = Val (rt_env r)).
  Lemma runtime_seen (E : env -> Prop) e r : E e -> seen E r -> seen E (fst (diffpyruntime e r)) /\
    forall q, snd (diffpyruntime e r) = Val q -> exists e', E e' /\ has_var e' (e_var e) /\ resolve e' = Val q.
  Proof.
    intros He (C1 & C2).
    assert (LIB : has_var e None -> let x := match rt_lib r with Some q => (r, Val q) | None =>
        let found d := match e_real e d with Some q => (mkRt (Some q) (rt_did r) (rt_dprt r) (rt_env r), Val q) | None => (r, Bad) end in
        if e_isdir e (e_d1 e) then found (e_d1 e) else if e_isdir e (e_d2 e) then found (e_d2 e) else (r, Exc RuntimeError) end in
        seen E (fst x) /\ forall q, snd x = Val q -> exists e', E e' /\ has_var e' None /\ lib_res e' = Val q).
    { intros Hv. cbv zeta. destruct (rt_lib r) as [q|] eqn:EQ.
      - cbn [fst snd]. split; [split; [rewrite EQ; auto|auto]|]. intros q' E'. injection E' as <-. auto.
      - assert (HN : forall x, lib_res e = x -> match x with Val q => seen E (mkRt (Some q) (rt_did r) (rt_dprt r) (rt_env r)) | _ => seen E r end /\ forall q, x = Val q -> exists e', E e' /\ has_var e' None /\ lib_res e' = Val q).
        { intros x Ex. split; [|intros q ->; eauto]. destruct x; split; auto; try (rewrite EQ; auto). cbn [rt_lib]. intros q E'. injection E' as <-. eauto. }
        specialize (HN _ eq_refl). unfold lib_res at 1 2 in HN. destruct (e_isdir e (e_d1 e)); [|destruct (e_isdir e (e_d2 e))]; try destruct (e_real e _); exact HN. }
    assert (CONV : forall e', has_var e' None -> lib_res e' = resolve e').
    { intros e' Hv. rewrite resolve_is. unfold has_var in Hv. destruct (e_var e') as [[|c p]|]; tauto || reflexivity. }
    unfold diffpyruntime. destruct (e_var e) as [[|c p]|] eqn:EV.
    - destruct LIB as [L1 L2]; [unfold has_var; now rewrite EV|]. split; [exact L1|]. intros q Hq. destruct (L2 q Hq) as (e' & He' & Hv & Hl). exists e'. rewrite <- CONV by auto. auto.
    - pose proof (resolve_is e) as HR. rewrite EV in HR. unfold env_res in HR.
      destruct (rt_did r && (if str_dec (rt_dprt r) (c :: p) then true else false)) eqn:EC.
      + apply andb_true_iff in EC as [ED EC]. destruct (str_dec _ _) as [E1|]; [|discriminate]. cbn [fst snd]. split; [split; auto|]. intros q Eq. injection Eq as <-.
        destruct (C2 ED) as (e' & He' & Hv & Hr). exists e'. rewrite E1 in Hv. auto.
      + destruct (e_isdir e (strip_slashes (c :: p))); [destruct (e_real e (strip_slashes (c :: p))) as [q|]|]; cbn [fst snd]; (split; [split; cbn [rt_lib rt_did rt_dprt rt_env]; auto; try discriminate|]); try discriminate.
        * intros _. exists e. auto.
        * intros q' Eq. injection Eq as <-. exists e. auto.
    - destruct LIB as [L1 L2]; [unfold has_var; now rewrite EV|]. split; [exact L1|]. intros q Hq. destruct (L2 q Hq) as (e' & He' & Hv & Hl). exists e'. rewrite <- CONV by auto. auto.
  Qed.
  Lemma seen_call (E : env -> Prop) c e L : E e -> seen E (l_rt L) -> seen E (l_rt (fst (run_call num c e L))).
  Proof.
    intros He H. assert (HD : forall f, seen E (fst (datapath e (l_rt L) f))).
    { intros f. unfold datapath. destruct (runtime_seen E e _ He H) as [H1 _]. destruct (diffpyruntime e (l_rt L)) as [r [q|x|]]; exact H1. }
    assert (HL : forall T (empty : T) read f cur, seen E (fst (fst (load empty read f e (l_rt L) cur)))).
    { intros T empty read f cur. unfold load. destruct cur; [exact H|]. specialize (HD (lit f)). destruct (datapath e (l_rt L) (lit f)) as [r [q|x|]]; cbn [fst] in *; auto.
      destruct (e_file e q); auto. destruct (read l); auto. }
    split_call c; cbn [fst l_rt];
    try (match type of EL with @load ?T ?a ?b ?f _ _ ?g = _ => specialize (HL T a b f g); rewrite EL in HL; exact HL end).
    specialize (HD f). rewrite EL in HD. exact HD.
  Qed.
  Lemma path_seen h e f p : snd (run_call num (CPath f) e (fst (run num h lib0))) = Val (APath p) ->
    exists e', (e' = e \/ exists c', In (e', c') h) /\ has_var e' (e_var e) /\ snd (run_call num (CPath f) e' lib0) = Val (APath p).
  Proof.
    set (E := fun e' => e' = e \/ exists c', In (e', c') h).
    assert (HS : seen E (l_rt (fst (run num h lib0)))).
    { apply (run_keep (fun L => seen E (l_rt L))).
      - intros e' c' L Hin HL. apply seen_call; auto. right. eauto.
      - split; discriminate. }
    cbn [run_call]. unfold datapath. destruct (runtime_seen E e _ (or_introl eq_refl) HS) as [_ E1].
    destruct (diffpyruntime e (l_rt (fst (run num h lib0)))) as [r [q|x|]]; cbn [snd andThen] in *; try discriminate. intros EP. injection EP as <-.
    destruct (E1 q eq_refl) as (e' & He' & Hv & Hr). exists e'. repeat (split; [exact He' || exact Hv|]). unfold resolve in Hr. cbn [l_rt lib0].
    destruct (diffpyruntime e' rt0) as [r2 x2]. cbn [snd] in Hr. subst x2. reflexivity.
  Qed.
End Hist.
