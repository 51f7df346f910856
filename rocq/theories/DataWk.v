(** X-ray and electron scattering factors. *)
From Coq Require Import Ascii String.
From Verif Require Import Base AList RBase Trig TrigProofs Sums Bvs BvsSpec BvsProofs BvsMain Tables Data DataSpec DataText DataIons.
Open Scope R_scope.
Open Scope list_scope.
Notation length := List.length.

Section Wk.
  Variable num : str -> option R.
  Definition form (r : wkrec) : str * wkform := let '(n, (a, c, b)) := r in (n, mkWK a b c).

  Lemma other_skip l : other_line l -> forall t sym rest, read_wk num t sym (l :: rest) = read_wk num t sym rest.
  Proof.
    intros [H|(w & ws & H & HS & HL)] t sym rest; cbn [read_wk]; rewrite (words_line _ _ H); auto.
    destruct (starts (lit "#S") w) eqn:ES. { apply starts_spec in ES as (r & ->). exfalso. now apply (HS r). }
    destruct (starts (lit "#L") w) eqn:EL. { apply starts_spec in EL as (r & ->). exfalso. now apply (HL r). }
    reflexivity.
  Qed.
  Lemma others_skip mid : Forall other_line mid -> forall t sym rest, read_wk num t sym (mid ++ rest) = read_wk num t sym rest.
  Proof. induction 1 as [|l mid Hl H IH]; intros; auto. cbn [app]. rewrite other_skip by auto. apply IH. Qed.
  Lemma formula_numbers dws a c b : numbers num dws (a ++ c :: b) -> length a = 5%nat -> length b = 5%nat ->
    read_formula num dws = Some (mkWK a b c).
  Proof.
    intros H Ha Hb.
    assert (E : map num dws = map Some (a ++ c :: b)). { unfold numbers in H. induction H; cbn; congruence. }
    unfold read_formula. rewrite E.
    destruct a as [|a0 [|a1 [|a2 [|a3 [|a4 [|]]]]]]; try discriminate.
    destruct b as [|b0 [|b1 [|b2 [|b3 [|b4 [|]]]]]]; try discriminate. reflexivity.
  Qed.
  Lemma aset_append k (v : wkform) t : afind str_dec k t = None -> aset str_dec k v t = t ++ [(k, v)].
  Proof.
    induction t as [|[k' v'] t IH]; cbn; auto. destruct (str_dec k k'); [discriminate|]. intros H. now rewrite IH.
  Qed.
  Lemma read_wk_file recs lines : wk_file num recs lines -> forall t, NoDup (akeys (t ++ map form recs)) -> read_wk num t [] lines = Ok (t ++ map form recs).
  Proof.
    induction 1 as [|l recs lines Hl H IH|sym a b c s n ls more mid mid' sl ll dl dws recs lines Hsl Hmid Hll Hdl Hn Ha Hb H IH]; intros t Hnd.
    - cbn. now rewrite app_nil_r.
    - rewrite other_skip; auto.
    - cbn [read_wk]. rewrite (words_line _ _ Hsl).
      replace (starts (lit "#S") ("#"%char :: "S"%char :: s)) with true by (symmetry; apply starts_spec; now exists s).
      cbn [List.length Nat.ltb Nat.leb nth]. rewrite others_skip by auto. cbn [read_wk]. rewrite (words_line _ _ Hll).
      assert (E1 : starts (lit "#S") ("#"%char :: "L"%char :: ls) = false).
      { reflexivity. }
      assert (E2 : starts (lit "#L") ("#"%char :: "L"%char :: ls) = true) by (apply starts_spec; now exists ls).
      rewrite E1, E2. rewrite (words_line _ _ Hdl), (formula_numbers _ _ _ _ Hn Ha Hb).
      destruct sym as [|c0 sym].
      { exfalso. assert (HT : forall w ws l, is_line (w :: ws) l -> w <> [] /\ exists l', is_line ws l') by (intros ? ? ? HL; inversion HL; subst; eauto).
        apply HT in Hsl as (_ & l1 & H1). apply HT in H1 as (_ & l2 & H2). apply HT in H2 as (E & _). congruence. }
      assert (Hk : ~ In (c0 :: sym) (akeys t)).
      { unfold akeys in Hnd. rewrite map_app in Hnd. cbn in Hnd. apply NoDup_remove_2 in Hnd. rewrite in_app_iff in Hnd. intros Hin. apply Hnd. now left. }
      pose proof Hk as Hk'. apply (afind_None str_dec) in Hk'. rewrite Hk', aset_append by auto. rewrite IH.
      + cbn [map form]. now rewrite <- app_assoc.
      + rewrite <- app_assoc. exact Hnd.
  Qed.
  Lemma forms_keys recs : akeys (map form recs) = map wk_name recs.
  Proof. unfold akeys. rewrite map_map. apply map_ext. now intros [n [[a c] b]]. Qed.
  Lemma wk_lengths recs lines r : wk_file num recs lines -> In r recs -> length (fst (fst (snd r))) = 5%nat /\ length (snd (snd r)) = 5%nat.
  Proof. induction 1; intros Hr; [destruct Hr|auto|]. destruct Hr as [<-|Hr]; auto. Qed.
  Lemma gaussians r s : length (fst (fst (snd r))) = 5%nat -> length (snd (snd r)) = 5%nat ->
    xrayatstol (snd (form r)) s = five_gaussians r s.
  Proof.
    destruct r as [n [[a c] b]]. cbn [fst snd]. intros Ha Hb.
    destruct a as [|a0 [|a1 [|a2 [|a3 [|a4 [|]]]]]]; try discriminate.
    destruct b as [|b0 [|b1 [|b2 [|b3 [|b4 [|]]]]]]; try discriminate.
    unfold xrayatstol, five_gaussians, sumf. cbn.
    assert (E : forall x, - x * s * s = - x * s²) by (intros; unfold Rsqr; ring). rewrite !E. ring.
  Qed.
  Lemma round_near x : Rabs (IZR (Rround x) - x) <= 1 / 2.
  Proof.
    unfold Rround. destruct (Rleb 0 x).
    - pose proof (Rfloor_spec (x + 1 / 2)) as H. apply Rabs_le. lra.
    - pose proof (Rceil_spec (x - 1 / 2)) as H. apply Rabs_le. lra.
  Qed.

  Lemma pr_standard el v name : element el -> standard_name el v name -> pr name = (el, v) /\ name = std_name el v /\ (-8 <= v <= 8)%Z.
  Proof.
    intros He H. assert (Hr : (-8 <= v <= 8)%Z /\ name = std_name el v).
    { destruct H as [[-> ->]|(sg & k & Hsg & Hk & -> & ->)].
      - split; [lia|]. unfold std_name. cbn. now rewrite app_nil_r.
      - assert (Hs : sign_value sg = 1%Z \/ sign_value sg = (-1)%Z) by (destruct Hsg as [->| ->]; cbn; auto).
        split; [destruct Hs as [->| ->]; lia|]. unfold std_name.
        destruct Hsg as [->| ->]; cbn [sign_value ascii_dec];
        (do 9 (destruct k as [|k]; [try lia; reflexivity|])); lia. }
    destruct Hr as [Hr ->]. repeat split; try lia; try tauto. apply pr_std; auto.
  Qed.
  Section Good.
    Variable recs : list wkrec.
    Hypothesis Hgood : good_wk recs.
    Lemma wk_afind r : In r recs -> afind str_dec (wk_name r) (map form recs) = Some (snd (form r)).
    Proof.
      intros H. apply In_afind.
      - rewrite forms_keys. now destruct Hgood.
      - destruct r as [n [[a c] b]]. cbn. change (n, mkWK a b c) with (form (n, (a, c, b))). now apply in_map.
    Qed.
    Lemma wk_afind_inv k f : afind str_dec k (map form recs) = Some f -> exists r, In r recs /\ wk_name r = k /\ f = snd (form r).
    Proof.
      intros H. apply (afind_Some_In str_dec), in_map_iff in H as (r & E & H). exists r. split; auto. destruct r as [n [[a c] b]]. cbn in *. split; congruence.
    Qed.
    Lemma wk_same r r' el v : In r recs -> In r' recs -> element el -> standard_name el v (wk_name r) -> pr (wk_name r') = (el, v) -> r = r'.
    Proof.
      intros Hr Hr' He Hn Hp. destruct Hgood as [Hnd Hg]. destruct (Hg r' Hr') as (el' & v' & He' & Hn').
      destruct (pr_standard _ _ _ He Hn) as (_ & E & _). destruct (pr_standard _ _ _ He' Hn') as (P & E' & _). rewrite P in Hp. injection Hp as -> ->.
      rewrite <- E in E'. clear - Hnd Hr Hr' E'. induction recs as [|x l IH]; [destruct Hr|]. inversion Hnd as [|? ? Hni Hnd']; subst.
      destruct Hr as [->|Hr], Hr' as [->|Hr']; auto.
      - exfalso. apply Hni. rewrite <- E'. now apply in_map.
      - exfalso. apply Hni. rewrite E'. now apply in_map.
    Qed.
    Lemma find_wk_named r el v s : In r recs -> element el -> standard_name el v (wk_name r) -> pr s = (el, v) -> (-1 <= v <= 1)%Z \/ s = wk_name r ->
      find_wk (map form recs) s = Some (snd (form r)).
    Proof.
      intros Hr He Hn Hs Hv. unfold find_wk. destruct (afind str_dec s (map form recs)) as [f|] eqn:E.
      - apply wk_afind_inv in E as (r' & Hr' & Ek & ->). f_equal. f_equal. f_equal. symmetry. apply (wk_same r r' el v); auto. now rewrite Ek.
      - destruct Hv as [Hv|Hv]; [|subst s; rewrite wk_afind in E by auto; discriminate].
        assert (EB : atomBareSymbol s = el /\ atomValence s = v) by (unfold pr in Hs; split; congruence). destruct EB as [-> ->].
        destruct (pr_standard _ _ _ He Hn) as (_ & EN & _).
        assert (C : v = 0%Z \/ v = 1%Z \/ v = (-1)%Z) by lia. destruct C as [->|[->| ->]]; 
        rewrite <- (wk_afind r Hr), EN; unfold std_name; cbn [Z.eqb Z.abs Pos.eqb Z.ltb Z.compare]; rewrite ?app_nil_r; reflexivity.
    Qed.
    Lemma find_wk_unknown s el v : pr s = (el, v) -> element el -> (forall r, In r recs -> ~ standard_name el v (wk_name r)) -> find_wk (map form recs) s = None.
    Proof.
      intros Hs He Hno. unfold find_wk.
      assert (HN : forall k, pr k = (el, v) -> afind str_dec k (map form recs) = None).
      { intros k Hk. destruct (afind str_dec k (map form recs)) as [f|] eqn:E; auto. apply wk_afind_inv in E as (r' & Hr' & Ek & ->).
        destruct Hgood as [_ Hg]. destruct (Hg r' Hr') as (el' & v' & He' & Hn'). destruct (pr_standard _ _ _ He' Hn') as (P & _ & _). rewrite Ek, Hk in P. injection P as <- <-.
        exfalso. now apply (Hno r' Hr'). }
      rewrite (HN s Hs). assert (EB : atomBareSymbol s = el /\ atomValence s = v) by (unfold pr in Hs; split; congruence). destruct EB as [-> EV]. rewrite EV.
      destruct (Z.eqb_spec v 0) as [->|H0].
      - apply HN. rewrite <- (pr_std el 0 He) by lia. unfold std_name. cbn. now rewrite app_nil_r.
      - destruct (Z.eqb_spec (Z.abs v) 1) as [H1|H1]; auto. apply HN. assert (C : v = 1%Z \/ v = (-1)%Z) by lia.
        destruct C as [->| ->]; [rewrite <- (pr_std el 1 He) by lia|rewrite <- (pr_std el (-1) He) by lia]; reflexivity.
    Qed.
  End Good.
  Lemma fresh_load {T} (empty : T) read f lines : load empty read f (sees lines) rt0 None =
    let r := fst (diffpyruntime (sees lines) rt0) in
    match read lines with Ok t => (r, Some t, Val t) | Throw x t => (r, Some t, Exc x) | UB => (r, Some empty, Bad) end.
  Proof. reflexivity. Qed.
  Lemma fresh_wk lines s q : fresh_answer num lines (CXray s q) =
    match read_wk num [] [] lines with
    | Ok t => match find_wk t s with Some f => Val (AReal (xrayatstol f (q / (4 * PI)))) | None => Exc InvalidArgument end
    | Throw x _ => Exc x | UB => Bad end.
  Proof. unfold fresh_answer, run_call, get_wk. cbn [l_rt l_wk lib0]. rewrite fresh_load. cbv zeta. destruct (read_wk num [] [] lines); cbn [snd andThen orThrow]; auto. destruct (find_wk _ _); reflexivity. Qed.
  Lemma fresh_el lines s q : fresh_answer num lines (CElectron s q) =
    match read_wk num [] [] lines with
    | Ok t => match find_wk t s with Some f => Val (match electronatstol f (q / (4 * PI)) with Some y => AReal y | None => AHuge end) | None => Exc InvalidArgument end
    | Throw x _ => Exc x | UB => Bad end.
  Proof. unfold fresh_answer, run_call, get_wk. cbn [l_rt l_wk lib0]. rewrite fresh_load. cbv zeta. destruct (read_wk num [] [] lines); cbn [snd andThen orThrow]; auto. destruct (find_wk _ _); reflexivity. Qed.
End Wk.
