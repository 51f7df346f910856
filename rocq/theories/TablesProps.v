(** C38: atom radii; C39: custom scattering factors. *)
From Coq Require Import Sorted Ascii String Lra.
From Verif Require Import Base AList RBase Bvs BvsSpec Tables TablesSpec TablesProofs.
Open Scope R_scope.
Open Scope list_scope.

(** *** C39 *)
(** After any history a symbol without an effective custom definition has its standard value, others that of their
    source times the scale. *)
Theorem C39_lookup : forall std ops s q,
  sft_lookup std (sft_run std ops) s q =
    match custom_after std ops s with
    | None => option_map Fin (std s q)
    | Some (src, scale) => option_map (fun f => xmul f scale) (std src q)
    end.
Proof. intros. unfold sft_lookup. rewrite sft_run_spec. reflexivity. Qed.
Print Assumptions C39_lookup.

(** setCustomAs with a value: the value is returned at that q, the source curve times one constant elsewhere, and other
    symbols keep their values; an unknown source throws and changes nothing. *)
Theorem C39_value : forall std ops s src v q f,
  std src q = Some f -> f <> 0 ->
  let t := sft_run std ops in
  exists t', setCustomAsVal std s src v q t = Ok t' /\
    sft_lookup std t' s q = Some (Fin v) /\
    (exists k, forall q', sft_lookup std t' s q' = option_map (fun g => Fin (g * k)) (std src q')) /\
    (forall s' q', s' <> s -> sft_lookup std t' s' q' = sft_lookup std t s' q').
Proof.
  intros std ops s src v q f Hf Hz t. unfold setCustomAsVal. rewrite Hf. eexists. split; [reflexivity|].
  assert (Hx : xdiv v f = Fin (v / f)) by (unfold xdiv, Reqb; destruct (Req_EM_T f 0); [contradiction|reflexivity]).
  assert (Hk : forall q', sft_lookup std (put_entry s (src, xdiv v f) t) s q' = option_map (fun g => Fin (g * (v / f))) (std src q')).
  { intros q'. unfold sft_lookup. rewrite put_custom, Hx. destruct (string_dec s s); [reflexivity|congruence]. }
  split; [|split].
  - rewrite Hk, Hf. cbn. f_equal. f_equal. field. exact Hz.
  - eauto.
  - intros s' q' Hne. unfold sft_lookup. rewrite put_custom. destruct (string_dec s s'); congruence.
Qed.
Print Assumptions C39_value.

Theorem C39_copy : forall std ops s src, let t := sft_run std ops in
  (forall q, sft_lookup std (setCustomAs s src t) s q = option_map Fin (std src q)) /\
  (forall s' q, s' <> s -> sft_lookup std (setCustomAs s src t) s' q = sft_lookup std t s' q) /\
  (forall v q, std src q = None -> setCustomAsVal std s src v q t = Throw InvalidArgument t) /\
  (forall q, sft_lookup std (sft_resetCustom s t) s q = option_map Fin (std s q)) /\
  (forall s' q, s' <> s -> sft_lookup std (sft_resetCustom s t) s' q = sft_lookup std t s' q) /\
  (forall s' q, sft_lookup std (sft_resetAll t) s' q = option_map Fin (std s' q)).
Proof.
  intros std ops s src t. split; [|split; [|split; [|split; [|split]]]].
  - intros q. unfold sft_lookup, setCustomAs. rewrite put_custom. destruct (string_dec s s); [|congruence].
    destruct (std src q); cbn; [|reflexivity]. now rewrite Rmult_1_r.
  - intros s' q Hne. unfold sft_lookup, setCustomAs. rewrite put_custom. destruct (string_dec s s'); congruence.
  - intros v q Hn. unfold setCustomAsVal. now rewrite Hn.
  - intros q. unfold sft_lookup. rewrite reset_custom. destruct (string_dec s s); congruence.
  - intros s' q Hne. unfold sft_lookup. rewrite reset_custom. destruct (string_dec s s'); congruence.
  - reflexivity.
Qed.
Print Assumptions C39_copy.

(** A call clicks the ticker once iff it changes the definition of some symbol; without a click all lookups and the set of
    custom symbols stay the same. *)
Theorem C39_ticker : forall std ops o, nonzero_sources std (ops ++ [o]) ->
  let t := sft_run std ops in let t' := sft_run std (ops ++ [o]) in
  (clicks t' = clicks t /\
     (forall s, custom_after std (ops ++ [o]) s = custom_after std ops s) /\
     (forall s q, sft_lookup std t' s q = sft_lookup std t s q) /\
     (forall s, In s (getCustomSymbols t') <-> In s (getCustomSymbols t))) \/
  (clicks t' = S (clicks t) /\ exists s, custom_after std (ops ++ [o]) s <> custom_after std ops s).
Proof.
  intros std ops o Hz t t'. assert (Ht : t' = sft_step std t o) by (unfold t', t, sft_run; rewrite fold_left_app; reflexivity).
  assert (Hs : forall s, custom_after std ops s = custom t s) by (intros; symmetry; apply sft_run_spec).
  assert (Hs' : forall s, custom_after std (ops ++ [o]) s = custom t' s) by (intros; symmetry; apply sft_run_spec).
  destruct (step_clicks std o t) as [[H1 H2]|[H1 (s & H2)]].
  - intros s src v q ->. apply (Hz s src v q). apply in_or_app. right. now left.
  - left. rewrite <- Ht in *. split; auto. split; [intros s; rewrite Hs, Hs'; auto|]. split.
    + intros s q. unfold sft_lookup. now rewrite H2.
    + intros s. now rewrite <- !custom_keys, H2.
  - right. rewrite <- Ht in *. split; auto. exists s. now rewrite Hs, Hs'.
Qed.
Print Assumptions C39_ticker.

(** If the standard value of the source is zero at that q (so that no scale can work), the call succeeds all the same and
    the symbol then has no value there. *)
Theorem C39_zero_source_refuted : forall std ops s src v q, std src q = Some 0 ->
  exists t', setCustomAsVal std s src v q (sft_run std ops) = Ok t' /\ sft_lookup std t' s q = Some NaN.
Proof.
  intros std ops s src v q Hf. unfold setCustomAsVal. rewrite Hf. eexists. split; [reflexivity|].
  unfold sft_lookup. rewrite put_custom. destruct (string_dec s s); [|congruence]. rewrite Hf. cbn.
  assert (H0 : Rltb 0 0 = false) by (apply Rltb_false; lra).
  unfold xdiv, Reqb. destruct (Req_EM_T 0 0); [|congruence]. destruct (Rltb 0 v); [|destruct (Rltb v 0)]; cbn; rewrite ?H0; reflexivity.
Qed.
Print Assumptions C39_zero_source_refuted.

(** The custom value is then infinite, with the sign of the source, wherever the source is not zero. *)
Theorem C39_zero_source_elsewhere : forall std ops s src v q, std src q = Some 0 -> 0 < v ->
  exists t', setCustomAsVal std s src v q (sft_run std ops) = Ok t' /\
    forall q' f, std src q' = Some f -> (0 < f -> sft_lookup std t' s q' = Some PInf) /\ (f < 0 -> sft_lookup std t' s q' = Some MInf).
Proof.
  intros std ops s src v q Hf Hv. unfold setCustomAsVal. rewrite Hf. eexists. split; [reflexivity|]. intros q' f Hq.
  unfold sft_lookup. rewrite put_custom. destruct (string_dec s s); [|congruence]. rewrite Hq. unfold xdiv, Reqb. destruct (Req_EM_T 0 0); [|congruence].
  replace (Rltb 0 v) with true by (symmetry; now apply Rltb_true). cbn [option_map xmul]. split; intros H.
  - replace (Rltb 0 f) with true by (symmetry; now apply Rltb_true). reflexivity.
  - replace (Rltb 0 f) with false by (symmetry; apply Rltb_false; lra). replace (Rltb f 0) with true by (symmetry; now apply Rltb_true). reflexivity.
Qed.
Print Assumptions C39_zero_source_elsewhere.

Definition ex_std (s : string) (q : R) : option R := if string_dec s "C"%string then Some (6 - q) else if string_dec s "O"%string then Some 8 else None.
Example C39_nonvacuous :
  let ops := [SetAs "D" "C"; SetVal "Ox" "O" 4 0; SetVal "Y" "Zz" 4 0; Reset "D"]%string in
  sft_lookup ex_std (sft_run ex_std ops) "Ox" 3 = Some (Fin 4) /\
  sft_lookup ex_std (sft_run ex_std ops) "D" 3 = None /\
  clicks (sft_run ex_std ops) = 3%nat /\ nonzero_sources ex_std ops.
Proof.
  assert (E8 : xdiv 4 8 = Fin (4 / 8)) by (unfold xdiv, Reqb; destruct (Req_EM_T 8 0); [lra|reflexivity]).
  cbn zeta. split; [|split; [|split]].
  - rewrite C39_lookup. transitivity (Some (xmul 8 (xdiv 4 8))); [reflexivity|]. rewrite E8. cbn. f_equal. f_equal. lra.
  - rewrite C39_lookup. reflexivity.
  - reflexivity.
  - intros s src v q [H|[H|[H|[H|[]]]]]; try discriminate; injection H as <- <- <- <-.
    + transitivity (Some 8 <> Some 0) || idtac. change (ex_std "O"%string 0) with (Some 8). intros [= H]. lra.
    + change (ex_std "Zz"%string 0) with (@None R). discriminate.
Qed.

(** *** C38 *)
(** What each call does to the lookups of any table. *)
Theorem C38_lookup : forall std parse t s,
  (forall k r, rad_lookup std (rad_setCustom k r t) s = if str_dec s k then r else rad_lookup std t s) /\
  (forall k, rad_lookup std (rad_resetCustom k t) s = if str_dec s k then std s else rad_lookup std t s) /\
  rad_lookup std (rad_resetAll t) s = std s /\
  (forall text l, describes parse text l -> exists t', rad_fromString parse text t = Ok t' /\
     rad_lookup std t' s = match last_value s l with Some r => r | None => rad_lookup std t s end).
Proof.
  intros std parse t s. unfold rad_lookup. split; [|split; [|split]].
  - intros k r. unfold rad_setCustom. rewrite afind_aset. destruct (str_dec s k); reflexivity.
  - intros k. unfold rad_resetCustom. rewrite afind_aerase. destruct (str_dec s k); reflexivity.
  - reflexivity.
  - intros text l Hd. destruct (fromString_ok parse text l t Hd) as (t' & H1 & _ & H2). exists t'. split; auto. rewrite H2.
    destruct (last_value s l); reflexivity.
Qed.
Print Assumptions C38_lookup.

(** fromString of a text with an item that is not "symbol:number" throws and changes nothing. *)
Theorem C38_malformed : forall parse t text, (~ exists l, describes parse text l) -> rad_fromString parse text t = Throw InvalidArgument t.
Proof. intros. now apply fromString_bad. Qed.
Print Assumptions C38_malformed.

(** Reading the text of a table into another table copies its custom radii and keeps the rest, provided the symbols have no blank,
    comma or colon, the separator has a comma and otherwise commas and blanks, and the printed numbers read back exactly. *)
Theorem C38_roundtrip_partial : forall parse print ops sep t0,
  let t := rad_run parse ops in
  good_separator sep ->
  (forall s r, afind str_dec s t = Some r -> good_symbol s /\ good_number (print r) /\ parse (print r) = Some r) ->
  exists t1, rad_fromString parse (rad_toString print sep t) t0 = Ok t1 /\
    forall s, afind str_dec s t1 = match afind str_dec s t with Some r => Some r | None => afind str_dec s t0 end.
Proof.
  intros parse print ops sep t0 t Hsep Hg.
  destruct (toString_describes parse print sep t Hsep Hg (rad_NoDup parse ops)) as (l & Hd & Hl).
  destruct (fromString_ok parse _ l t0 Hd) as (t1 & H1 & _ & H2). exists t1. split; auto. intros s. rewrite H2, Hl. reflexivity.
Qed.
Print Assumptions C38_roundtrip_partial.

(** The text of a table lists every symbol with a custom radius once, in the order of the character codes. *)
Theorem C38_text : forall parse print ops sep, let t := rad_run parse ops in
  exists ks, NoDup ks /\ (forall s, In s ks <-> afind str_dec s t <> None) /\ StronglySorted comes_before ks /\
    rad_toString print sep t = separated sep (map (fun s => s ++ ":"%char :: match afind str_dec s t with Some r => print r | None => [] end) ks).
Proof.
  intros parse print ops sep t. pose proof (rad_NoDup parse ops) as HN. fold t in HN. exists (sort_symbols (akeys t)).
  assert (HK : forall s, In s (sort_symbols (akeys t)) <-> afind str_dec s t <> None).
  { intros s. rewrite (afind_None str_dec s). split; intros H.
    - intros K. apply K. eapply Permutation_in; [apply Permutation_sym, sort_perm|exact H].
    - destruct (in_dec str_dec s (akeys t)) as [K|K]; [|tauto]. eapply Permutation_in; [apply sort_perm|exact K]. }
  split; [eapply Permutation_NoDup; [apply sort_perm|exact HN]|]. split; [exact HK|]. split; [now apply symbols_sorted|].
  unfold rad_toString. now apply join_separated, HK.
Qed.
Print Assumptions C38_text.

(** Radii that print alike (toString writes six digits) cannot all survive. *)
Theorem C38_digits_refuted : forall parse print s r1 r2, r1 <> r2 -> print r1 = print r2 ->
  exists r, forall t1, rad_fromString parse (rad_toString print [","%char] (rad_run parse [RSet s r])) [] = Ok t1 -> afind str_dec s t1 <> Some r.
Proof.
  intros parse print s r1 r2 Hne Hp.
  assert (Ht : rad_toString print [","%char] (rad_run parse [RSet s r1]) = rad_toString print [","%char] (rad_run parse [RSet s r2])).
  { unfold rad_toString, rad_run. cbn. destruct (str_dec s s); [|congruence]. now rewrite Hp. }
  destruct (rad_fromString parse (rad_toString print [","%char] (rad_run parse [RSet s r1])) []) as [t1|e t1|] eqn:E.
  - destruct (afind str_dec s t1) as [r|] eqn:Er.
    + destruct (Req_EM_T r r1) as [->|Hr].
      * exists r2. intros t2. rewrite <- Ht, E. intros [= <-]. rewrite Er. congruence.
      * exists r1. intros t2. rewrite E. intros [= <-]. rewrite Er. congruence.
    + exists r1. intros t2. rewrite E. intros [= <-]. rewrite Er. discriminate.
  - exists r1. rewrite E. discriminate.
  - exists r1. rewrite E. discriminate.
Qed.
Print Assumptions C38_digits_refuted.

(** With a blank as the separator the text of two radii reads back as one, without an error: "A:1 B:2" is taken for "A:1B:2". *)
Theorem C38_separator_refuted : forall parse print, print 1 = chars "1" -> print 2 = chars "2" -> parse (chars "1B:2") = Some 1 ->
  exists t1, rad_fromString parse (rad_toString print (chars " ") (rad_run parse [RSet (chars "A") 1; RSet (chars "B") 2])) [] = Ok t1 /\
    afind str_dec (chars "A") t1 = Some 1 /\ afind str_dec (chars "B") t1 = None.
Proof.
  intros parse print H1 H2 Hp. unfold rad_fromString.
  assert (Hw : words (commas_to_spaces (deblank (rad_toString print (chars " ") (rad_run parse [RSet (chars "A") 1; RSet (chars "B") 2])))) = [chars "A:1B:2"]).
  { unfold rad_toString, rad_run.
    change (fold_left (rad_step parse) [RSet (chars "A") 1; RSet (chars "B") 2] []) with [(chars "A", 1); (chars "B", 2)].
    change (sort_symbols (akeys [(chars "A", 1); (chars "B", 2)])) with [chars "A"; chars "B"].
    cbn [rad_join app].
    change (afind str_dec (chars "A") [(chars "A", 1); (chars "B", 2)]) with (Some 1).
    change (afind str_dec (chars "B") [(chars "A", 1); (chars "B", 2)]) with (Some 2).
    cbn match. rewrite H1, H2. reflexivity. }
  rewrite Hw. change (read_items parse [chars "A:1B:2"] []) with (match parse (chars "1B:2") with None => None | Some value => Some (aset str_dec (chars "A") value []) end).
  rewrite Hp. eexists. split; [reflexivity|]. split; reflexivity.
Qed.
Print Assumptions C38_separator_refuted.

(** numbers of one digit *)
Definition ex_parse (s : str) : option R :=
  match s with c :: _ => if (48 <=? nat_of_ascii c)%nat && (nat_of_ascii c <=? 57)%nat then Some (IZR (Z.of_nat (nat_of_ascii c) - 48)) else None | [] => None end.
Definition ex_print (r : R) : str := if Req_EM_T r 2 then chars "2" else chars "1".
Example C38_nonvacuous :
  let t := rad_run ex_parse [RFrom (chars " Na :1, Cl : 2,,Na:2"); RFrom (chars "Na1,Cl:1")] in
  afind str_dec (chars "Na") t = Some 2 /\ afind str_dec (chars "Cl") t = Some 2 /\ good_separator (chars ", ") /\
  (forall s r, afind str_dec s t = Some r -> good_symbol s /\ good_number (ex_print r) /\ ex_parse (ex_print r) = Some r) /\
  rad_fromString ex_parse (chars "Na1,Cl:1") t = Throw InvalidArgument t.
Proof.
  cbn zeta. split; [reflexivity|]. split; [reflexivity|]. split.
  { split; [now left|]. intros c [<-|[<-|[]]]; [now left|right; left; reflexivity]. }
  split; [|reflexivity].
  change (rad_run ex_parse [RFrom (chars " Na :1, Cl : 2,,Na:2"); RFrom (chars "Na1,Cl:1")]) with [(chars "Na", 2); (chars "Cl", 2)].
  assert (Hb : forall c, isspace c = false -> ~ blank c) by (intros c Hc H; apply isspace_blank in H; congruence).
  assert (H2 : good_number (ex_print 2) /\ ex_parse (ex_print 2) = Some 2).
  { unfold ex_print. destruct (Req_EM_T 2 2); [|lra]. split; [|reflexivity]. intros c [<-|[]]. split; [now apply Hb|discriminate]. }
  intros s r. cbn [afind]. destruct (str_dec s (chars "Na")) as [->|].
  - intros [= <-]. split; [|exact H2]. intros c [<-|[<-|[]]]; (split; [split; [now apply Hb|discriminate]|discriminate]).
  - destruct (str_dec s (chars "Cl")) as [->|]; [|discriminate]. intros [= <-]. split; [|exact H2].
    intros c [<-|[<-|[]]]; (split; [split; [now apply Hb|discriminate]|discriminate]).
Qed.
