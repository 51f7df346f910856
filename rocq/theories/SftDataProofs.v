(** Proofs for C99. *)
From Coq Require Import Ascii String.
From Verif Require Import Base AList RBase Trig Sums Bvs BvsSpec BvsProofs Tables TablesSpec TablesProofs Data DataSpec DataText DataIons DataWk DataNsf DataHist DataExample DataShipped DataShippedProofs SftData SftDataSpec.
Open Scope R_scope.
Open Scope list_scope.
Notation length := List.length.

Section Hist.
  Variable num : str -> option R.
  Variable r : radiation.
  Variable lines : list str.
  Hypothesis HR : readable num (data_kind r) lines.
  Notation std := (standard num r lines).
  Lemma kind_not_path : data_kind r <> KPath. Proof using. clear HR. destruct r; discriminate. Qed.
  Lemma std_kind s q : kind_of (std_call r s q) = data_kind r. Proof using. clear HR. now destruct r. Qed.
  Lemma answer_std s q : andThen (fresh_answer num lines (std_call r s q)) (fun a => Val (real_of a)) = or_invalid (std s q).
  Proof.
    unfold standard. destruct r; cbn [std_call readable data_kind] in *; destruct HR as (t & Et).
    - rewrite fresh_wk, Et. destruct (find_wk t _); reflexivity.
    - rewrite fresh_el, Et. destruct (find_wk t _); reflexivity.
    - rewrite DataNsf.fresh_bc, Et. destruct (find_bc t _); reflexivity.
    - unfold fresh_answer, run_call, get_en. cbn [l_rt l_en lib0]. rewrite fresh_load. cbv zeta. rewrite Et. cbn [snd andThen orThrow]. destruct (find_en t _); reflexivity.
  Qed.
  (** ready: loaded, or about to be loaded from this text *)
  Definition ready (e : env) (L : lib) : Prop :=
    table_of num (data_kind r) lines L \/
    unloaded (data_kind r) L /\ exists p, snd (run_call num (CPath (chars (file_of (data_kind r)))) e L) = Val (APath p) /\ e_file e p = Some lines.
  Lemma ready_call e L c : ready e L -> kind_of c = data_kind r -> table_of num (data_kind r) lines (fst (run_call num c e L)) /\ snd (run_call num c e L) = fresh_answer num lines c.
  Proof.
    intros [H|(H & p & HP & HF)] Hc; rewrite <- Hc in *.
    - apply same_kind; [rewrite Hc; apply kind_not_path|exact H].
    - apply (first_call num e c L p lines); auto. rewrite Hc. apply kind_not_path.
  Qed.
  Lemma ready_std e L s q : ready e L -> exists L', standardLookup num r s q e L = (L', or_invalid (std s q)) /\ table_of num (data_kind r) lines L'.
  Proof.
    intros H. destruct (ready_call e L (std_call r s q) H (std_kind s q)) as [HT HA]. unfold standardLookup. destruct (run_call num (std_call r s q) e L) as [L' x]. cbn [fst snd] in *. subst x.
    exists L'. split; [|exact HT]. now rewrite answer_std.
  Qed.
  Lemma ready_look e L t s q : ready e L -> exists L', lookup num r t s q e L = (L', or_invalid (sft_lookup std t s q)) /\ table_of num (data_kind r) lines L'.
  Proof.
    intros H. unfold lookup, sft_lookup. destruct (custom t s) as [[src scale]|].
    - destruct (ready_std e L src q H) as (L' & -> & HT). exists L'. split; [|exact HT]. destruct (std src q); reflexivity.
    - destruct (ready_std e L s q H) as (L' & -> & HT). exists L'. split; [|exact HT]. destruct (std s q); reflexivity.
  Qed.
  Definition touches (o : sftop) : Prop := match o with SetVal _ _ _ _ => True | _ => False end.
  Lemma ready_edit e L t o : (touches o -> ready e L) -> exists L' x, edit num r o t e L = (L', sft_step std t o, x) /\ (table_of num (data_kind r) lines L -> table_of num (data_kind r) lines L') /\
    (touches o -> table_of num (data_kind r) lines L') /\ (~ touches o -> L' = L).
  Proof.
    intros H. destruct o as [s src|s src v q|s|]; cbn [edit sft_step touches] in *; try (eexists; eexists; split; [reflexivity|]; tauto).
    destruct (ready_std e L src q (H I)) as (L' & -> & HT). unfold setCustomAsVal. destruct (std src q); cbn [or_invalid]; eexists; eexists; (split; [reflexivity|]); tauto.
  Qed.
  Definition touched (u : uop) : Prop := match u with ULook _ _ => True | UEdit o => touches o | ULib c => kind_of c = data_kind r end.
  Lemma untouched_iff u : untouched r u <-> ~ touched u.
  Proof. destruct u as [s q|[]|c]; cbn; tauto. Qed.
  Definition edits1 (u : uop) : list sftop := match u with UEdit o => [o] | _ => [] end.
  Lemma step_ready e u L t : ready e L -> touched u \/ table_of num (data_kind r) lines L -> let '(L', t', x) := ustep num r u e (L, t) in
    table_of num (data_kind r) lines L' /\ t' = fold_left (sft_step std) (edits1 u) t /\
    (forall s q, u = ULook s q -> x = Looked (or_invalid (sft_lookup std t s q))).
  Proof.
    intros H HU. destruct u as [s q|o|c]; cbn [ustep edits1 fold_left].
    - destruct (ready_look e L t s q H) as (L' & -> & HT). repeat split; auto. intros s' q' E. now injection E as <- <-.
    - destruct (ready_edit e L t o (fun _ => H)) as (L' & x & -> & H1 & H2 & _). split; [|split; [reflexivity|discriminate]]. destruct HU; auto.
    - assert (HT : table_of num (data_kind r) lines (fst (run_call num c e L))).
      { destruct (kind_dec (kind_of c) (data_kind r)) as [E|NE]; [now apply ready_call|]. destruct HU as [HU|HU]; [contradiction|]. now apply other_kind. }
      destruct (run_call num c e L) as [L' x]. split; [exact HT|]. split; [reflexivity|discriminate].
  Qed.
  Lemma step_unready e u L t : unloaded (data_kind r) L -> ~ touched u -> let '(L', t', x) := ustep num r u e (L, t) in
    unloaded (data_kind r) L' /\ t' = fold_left (sft_step std) (edits1 u) t.
  Proof.
    intros H HU. destruct u as [s q|o|c]; cbn [ustep edits1 fold_left touched] in *; [tauto| |].
    - destruct (ready_edit e L t o) as (L' & x & -> & _ & _ & H3); [tauto|]. rewrite (H3 HU). auto.
    - pose proof (proj1 (other_kind num c e L _ HU) H) as HT. destruct (run_call num c e L) as [L' x]. auto.
  Qed.
  Lemma edits_cons e u h : edits ((e, u) :: h) = edits1 u ++ edits h. Proof. now destruct u. Qed.
  Lemma urun_app h1 : forall h2 w, urun num r (h1 ++ h2) w = let '(w1, l1) := urun num r h1 w in let '(w2, l2) := urun num r h2 w1 in (w2, l1 ++ l2).
  Proof.
    induction h1 as [|[e u] h1 IH]; intros h2 w; cbn [app urun]; [destruct (urun num r h2 w); reflexivity|].
    destruct (ustep num r u e w) as [w' a]. rewrite IH. destruct (urun num r h1 w') as [w1 l1]. destruct (urun num r h2 w1) as [w2 l2]. reflexivity.
  Qed.
  Lemma urun_length h : forall w, length (snd (urun num r h w)) = length h.
  Proof. induction h as [|[e u] h IH]; intros w; cbn [urun]; [reflexivity|]. destruct (ustep num r u e w) as [w' a]. specialize (IH w'). destruct (urun num r h w'). cbn [snd length] in *. now rewrite IH. Qed.
  Lemma loaded_run h : forall L t, table_of num (data_kind r) lines L -> forall i e s q, nth_error h i = Some (e, ULook s q) ->
    nth_error (snd (urun num r h (L, t))) i = Some (Looked (or_invalid (sft_lookup std (fold_left (sft_step std) (edits (firstn i h)) t) s q))).
  Proof.
    induction h as [|[e0 u] h IH]; intros L t HT i e s q Hi; [destruct i; discriminate|]. cbn [urun].
    pose proof (step_ready e0 u L t (or_introl HT) (or_intror HT)) as HS. destruct (ustep num r u e0 (L, t)) as [[L' t'] x]. destruct HS as (HT' & Et & Hx).
    pose proof (IH L' t' HT') as IH'. destruct (urun num r h (L', t')) as [w'' l]. cbn [snd] in *. destruct i as [|i]; cbn [nth_error firstn] in *.
    - injection Hi as _ ->. now rewrite (Hx s q eq_refl).
    - rewrite (IH' i e s q Hi), edits_cons, fold_left_app, Et. reflexivity.
  Qed.
  Lemma unloaded_run h : forall L t, unloaded (data_kind r) L -> (forall e u, In (e, u) h -> ~ touched u) ->
    unloaded (data_kind r) (fst (fst (urun num r h (L, t)))) /\ snd (fst (urun num r h (L, t))) = fold_left (sft_step std) (edits h) t.
  Proof.
    induction h as [|[e0 u] h IH]; intros L t HU Hh; cbn [urun]; [auto|].
    pose proof (step_unready e0 u L t HU (Hh e0 u (or_introl eq_refl))) as HS. destruct (ustep num r u e0 (L, t)) as [[L' t'] x]. destruct HS as (HU' & Et).
    destruct (IH L' t' HU' (fun e u H => Hh e u (or_intror H))) as [H1 H2]. destruct (urun num r h (L', t')) as [w'' l]. cbn [fst snd] in *. split; [exact H1|]. now rewrite H2, edits_cons, fold_left_app, Et.
  Qed.
  Lemma unloaded0 : unloaded (data_kind r) lib0. Proof using. clear HR. now destruct r. Qed.
  Lemma tables_run h1 e u h2 p : (forall e' u', In (e', u') h1 -> untouched r u') -> ~ untouched r u ->
    snd (run_call num (CPath (chars (file_of (data_kind r)))) e (fst (fst (urun num r h1 (lib0, sft0))))) = Val (APath p) -> e_file e p = Some lines ->
    let h := h1 ++ (e, u) :: h2 in forall i e' s q, nth_error h i = Some (e', ULook s q) ->
    nth_error (snd (urun num r h (lib0, sft0))) i = Some (Looked (or_invalid (sft_lookup std (sft_run std (edits (firstn i h))) s q))).
  Proof.
    intros H1 HU HP HF h i e' s q Hi. unfold h in *.
    assert (TU : touched u). { destruct u as [? ?|[]|c]; cbn in HU |- *; tauto || (destruct (kind_dec (kind_of c) (data_kind r)); tauto). }
    destruct (unloaded_run h1 lib0 sft0 unloaded0) as [W1 W2]. { intros e0 u0 H0. apply untouched_iff. now apply (H1 e0). }
    rewrite urun_app. pose proof (urun_length h1 (lib0, sft0)) as LL. destruct (urun num r h1 (lib0, sft0)) as [[L1 t1] l1]. cbn [fst snd] in *.
    destruct (Nat.lt_ge_cases i (length h1)) as [Hlt|Hge].
    { exfalso. rewrite nth_error_app1 in Hi by auto. apply nth_error_In in Hi. exact (H1 e' _ Hi). }
    assert (RD : ready e L1) by (right; eauto). pose proof (step_ready e u L1 t1 RD (or_introl TU)) as HS. cbn [urun].
    destruct (ustep num r u e (L1, t1)) as [[L2 t2] x]. destruct HS as (HT2 & E2 & Hx).
    destruct (urun num r h2 (L2, t2)) as [w3 l3] eqn:E3. cbn [snd]. rewrite nth_error_app2 by (rewrite LL; exact Hge). rewrite LL.
    rewrite nth_firstn_prefix by auto. rewrite nth_error_app2 in Hi by auto. destruct (i - length h1)%nat as [|j]; cbn [nth_error firstn] in *.
    - injection Hi as _ ->. rewrite app_nil_r. rewrite (Hx s q eq_refl). unfold sft_run. now rewrite <- W2.
    - pose proof (loaded_run h2 L2 t2 HT2 j e' s q Hi) as HL. rewrite E3 in HL. cbn [snd] in HL. rewrite HL. unfold sft_run. unfold edits at 2. rewrite flat_map_app. fold (edits h1). fold (edits ((e, u) :: firstn j h2)).
      rewrite edits_cons, !fold_left_app, <- W2, <- E2. reflexivity.
  Qed.
End Hist.
