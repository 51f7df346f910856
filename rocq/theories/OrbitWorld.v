(** Proofs: in crystals with a space group the contributions of two atoms are the same from both ends. *)
From Coq Require Import String.
From Verif Require Import RBase R3 Trig Sphere SphereProofs Lattice LatticeSpec LatticeProofs Crystal CrystalSpec CrystalProofs CrystalMain CrystalSep CrystalCell CrystalTensor
  StructDiff StructDiffSpec StructDiffProofs Evaluator EvaluatorSpec EvaluatorHist EvaluatorProofs EvaluatorRun EvaluatorMore BondGen BondGenSpec BondGenProofs BondGenMain OverlapGen
  World WorldSpec WorldAtoms WorldProofs WorldMain WorldFlip WorldTotal OrbitSpec OrbitGroup OrbitSum.
Import ListNotations.
Open Scope R_scope.
Notation length := List.length.

Lemma bond_norm cls M i sel y : b_distance (bond_at cls M i sel y) = vnorm (b_r01 (bond_at cls M i sel y)).
Proof. now destruct y as [[k s] T]. Qed.

Section Crystal.
  Context (L : lattice) (eps : R) (ops : list symop) (HE : good_env (Symmetric L eps ops)) (G : space_group L ops).
  Notation e := (Symmetric L eps ops).
  Definition fpos (a : catom) : list vec := map (fun p => fractional L (c_xyz p)) (expand_site L ops eps a).
  Definition ften (a : catom) (s : nat) : mat := c_uij (nth s (expand_site L ops eps a) catom0).
  Lemma crystal_consistent : consistent L.
  Proof. destruct HE as [LM _]. destruct (made_built _ LM) as [C B]. exact (built_consistent _ _ B). Qed.
  Lemma crystal_orbit a : exact_site L eps ops a -> orbit ops (fractional L (c_xyz a)) (fpos a).
  Proof. destruct HE as (_ & F & NE). intros H. now apply exact_orbit; [apply crystal_consistent| | |]. Qed.
  Lemma mult_fpos a : multiplicity e a = length (fpos a).
  Proof. unfold fpos. now rewrite map_length. Qed.
  Lemma eqv (l : list catom) i a : nth_error l i = Some a -> equivalents (snd (gview e l)) i = map (fun p => (c_xyz p, c_uij p)) (expand_site L ops eps a).
  Proof.
    intros H. unfold equivalents. cbn [gview snd stru_of updateSymmetryPositions ssym x_sym x_atoms x_lat x_ops x_prec]. rewrite map_map. now rewrite (nth_map_some _ l i a).
  Qed.
  Lemma home_pos l i a s : nth_error l i = Some a -> (s < length (fpos a))%nat -> home (fst (gview e l)) (snd (gview e l)) i s = cartesian L (pos (fpos a) s).
  Proof.
    intros H Hs. unfold home. rewrite (eqv l i a H). cbn [gview fst]. unfold pos, fpos in *. rewrite map_length in Hs.
    destruct (nth_error (expand_site L ops eps a) s) as [p|] eqn:E; [|apply nth_error_None in E; lia].
    rewrite (nth_map_some _ _ s p _ E), (nth_map_some _ _ s p _ E). cbn [fst]. symmetry. apply (k_inv2 _ crystal_consistent).
  Qed.
  Lemma u_pos l i a s : nth_error l i = Some a -> (s < length (fpos a))%nat -> image_u (fst (gview e l)) (snd (gview e l)) i s = ften a s.
  Proof.
    intros H Hs. unfold image_u. rewrite (eqv l i a H). cbn [gview fst]. unfold ften, fpos in *. rewrite map_length in Hs.
    destruct (nth_error (expand_site L ops eps a) s) as [p|] eqn:E; [|apply nth_error_None in E; lia].
    rewrite (nth_map_some _ _ s p _ E). cbn [snd]. now rewrite (nth_error_nth _ _ catom0 E).
  Qed.
  Lemma first_pos a : (0 < length (fpos a))%nat.
  Proof.
    destruct HE as (_ & F & NE). destruct (expand_cell L eps (toFractional L a) ops crystal_consistent F NE) as (H & _). unfold fpos, expand_site. rewrite !map_length.
    destruct (expandLatticeAtom _ _ _ _); [congruence|cbn; lia].
  Qed.
  Definition drop (y : image) : nat * (Z * Z * Z) := let '(k, s, T) := y in (s, T).
  Lemma bond_pos l i j a b s T : nth_error l i = Some a -> nth_error l j = Some b -> (s < length (fpos b))%nat ->
    let p := bond_at (fst (gview e l)) (snd (gview e l)) i [j] (O, s, T) in
    b_r01 p = cartesian L (step3 (fpos b) (pos (fpos a) 0) (s, T)) /\ b_u1 p = ften b s.
  Proof.
    intros Ha Hb Hs. cbv zeta. unfold bond_at. cbn [nth b_r01 b_u1]. rewrite (u_pos l j b s Hb Hs). split; [|reflexivity].
    unfold image_pos. rewrite (home_pos l i a 0 Ha (first_pos a)), (home_pos l j b s Hb Hs). cbn [gview fst snd stru_of slat updateSymmetryPositions x_lat].
    assert (ET : translation L T = cartesian L (ivec3 T)).
    { destruct T as [[m n] o]. unfold translation, ivec3. rewrite (cart_lin L _ crystal_consistent). reflexivity. }
    rewrite ET. unfold step3. cbn [fst snd]. unfold cartesian. generalize (base L) (pos (fpos b) s) (pos (fpos a) 0) (ivec3 T). intros. vring.
  Qed.
  Lemma images_around l i j a b lo hi v : nth_error l i = Some a -> nth_error l j = Some b ->
    exact_images (fst (gview e l)) (snd (gview e l)) lo hi i [j] v -> around L lo hi (fpos b) (pos (fpos a) 0) (map drop v).
  Proof.
    intros Ha Hb [N H].
    assert (HK : forall y, In y v -> y = (O, fst (drop y), snd (drop y)) /\ (fst (drop y) < length (fpos b))%nat).
    { intros [[k s] T] Hy. apply H in Hy as [HI _]. destruct HI as [HK HI]. cbn in HK. assert (k = O) as -> by lia. cbn [gview fst snd nth] in HI.
      change (stru_of (mkCr l L ops eps [] false)) with (snd (gview e l)) in HI. rewrite (eqv l j b Hb), map_length in HI. unfold fpos. rewrite map_length. auto. }
    assert (DD : forall s T, image_distance (fst (gview e l)) (snd (gview e l)) i [j] (O, s, T) = vnorm (b_r01 (bond_at (fst (gview e l)) (snd (gview e l)) i [j] (O, s, T)))) by reflexivity.
    split.
    - clear H. induction N as [|y v N1 N2 IH]; [constructor|]. cbn [map]. constructor; [|apply IH; intros; apply HK; now right].
      intros Hy. apply in_map_iff in Hy as (y' & E & Hy'). apply N1. destruct (HK y) as [E1 _]; [now left|]. destruct (HK y') as [E2 _]; [now right|]. rewrite E1, <- E, <- E2. exact Hy'.
    - intros [s T]. rewrite in_map_iff. split.
      + intros (y & E & Hy). destruct (HK y Hy) as [E1 Hs]. rewrite E in *. cbn [fst snd] in *. split; [exact Hs|]. apply H in Hy as [_ HR]. rewrite E1, DD in HR.
        now rewrite (proj1 (bond_pos l i j a b s T Ha Hb Hs)) in HR.
      + cbn [fst]. intros [Hs HR]. exists (O, s, T). split; [reflexivity|]. apply H. split.
        * split; [cbn; lia|]. cbn [gview fst snd nth]. change (stru_of (mkCr l L ops eps [] false)) with (snd (gview e l)). rewrite (eqv l j b Hb), map_length. unfold fpos in Hs. now rewrite map_length in Hs.
        * rewrite DD, (proj1 (bond_pos l i j a b s T Ha Hb Hs)). exact HR.
  Qed.
  Lemma follow_ften a : tensors_follow L eps ops a -> follow L ops (fpos a) (ften a) /\ ften a 0 = c_uij a.
  Proof.
    intros [H1 H2]. unfold ften. split.
    - intros o N s s' Ho HN Hs Hs' S. unfold fpos in Hs, Hs'. rewrite map_length in Hs, Hs'.
      destruct (nth_error (expand_site L ops eps a) s) as [p|] eqn:E; [|apply nth_error_None in E; lia].
      destruct (nth_error (expand_site L ops eps a) s') as [p'|] eqn:E'; [|apply nth_error_None in E'; lia].
      unfold ften. rewrite (nth_error_nth _ _ catom0 E), (nth_error_nth _ _ catom0 E'). apply (H1 o N s s' p p' Ho HN E E').
      unfold pos, fpos in S. now rewrite (nth_map_some _ _ s p _ E), (nth_map_some _ _ s' p' _ E') in S.
    - pose proof (first_pos a) as F. unfold fpos in F. rewrite map_length in F.
      destruct (nth_error (expand_site L ops eps a) 0) as [p|] eqn:E; [|apply nth_error_None in E; lia]. rewrite (nth_error_nth _ _ catom0 E). now apply H2.
  Qed.

  Section Flip.
    Context {cfg V : Type} (Q : quantity cfg V) (opp : V -> V) (HQ : quantity_ok Q opp).
    Context (h : cfg -> envt -> Z -> catom -> catom -> vec -> mat -> mat -> V) (HP : invariant_pairs Q h).
    Context (tensors : bool) (HT : tensors = true \/ no_tensors h).
    Lemma crystal_ww c z i a j b : q_mask Q c i a j b = true -> exact_site L eps ops a -> exact_site L eps ops b ->
      (tensors = true -> tensors_follow L eps ops a /\ tensors_follow L eps ops b) ->
      exists v, around L (q_rmin Q c) (q_rmax Q c) (fpos b) (pos (fpos a) 0) v /\
        ww Q c e z i a j b = times Q (length (fpos a)) (qsum Q (map (fun x => h c e z a b (cartesian L (step3 (fpos b) (pos (fpos a) 0) x)) (ften a 0) (ften b (fst x))) v)).
    Proof.
      intros HM EA EB HF. unfold ww. rewrite HM.
      rewrite shown_view, adapter_env, adapter_atoms.
      destruct (shown_spec (fst (gview e [a; b])) (snd (gview e [a; b])) (q_rmin Q c) (q_rmax Q c) 0 [1%nat] (view_ok e [a; b] HE)) as (v & HV & ->).
      { rewrite view_sites. cbn. lia. } { intros ? [<-|[]]. rewrite view_sites. cbn. lia. }
      pose proof (images_around [a; b] 0 1 a b _ _ v eq_refl eq_refl HV) as HA. exists (map drop v). split; [exact HA|].
      rewrite <- (times_sum Q opp HQ), !map_map. unfold qsum. f_equal. apply map_ext_in. intros [[k s] T] Hy.
      assert (Hs : (s < length (fpos b))%nat). { destruct HA as [_ HA]. apply (in_map drop) in Hy. apply HA in Hy. apply Hy. }
      apply HV in Hy as [HI _]. destruct HI as [HK _]. cbn in HK. assert (k = O) as -> by lia.
      destruct (bond_pos [a; b] 0 1 a b s T eq_refl eq_refl Hs) as [E1 E2]. rewrite bond_norm, E1, E2, (ip_form _ _ HP), mult_fpos. cbn [drop fst]. f_equal.
      destruct HT as [->|NT]; [|apply NT]. destruct (HF eq_refl) as [FA _]. now rewrite (proj2 (follow_ften a FA)).
    Qed.
    Lemma crystal_flip c z i a j b : exact_site L eps ops a -> exact_site L eps ops b ->
      (tensors = true -> tensors_follow L eps ops a /\ tensors_follow L eps ops b) -> ww Q c e z i a j b = ww Q c e z j b i a.
    Proof.
      intros EA EB HF. destruct (q_mask Q c i a j b) eqn:HM.
      - pose proof HM as HM'. rewrite (ip_mask _ _ HP) in HM'.
        destruct (crystal_ww c z i a j b HM EA EB HF) as (v & HV & ->). destruct (crystal_ww c z j b i a HM' EB EA) as (v' & HV' & ->); [intros; split; now apply HF|].
        refine (both_ends Q opp HQ L ops crystal_consistent G (q_rmin Q c) (q_rmax Q c) (h c e z a b) (h c e z b a) _ _ (fractional L (c_xyz a)) (fractional L (c_xyz b)) (fpos a) (fpos b) (ften a) (ften b) _ _ _ v v' HV HV').
        + intros. now apply (ip_turn _ _ HP).
        + intros. apply (ip_flip _ _ HP).
        + now apply crystal_orbit.
        + now apply crystal_orbit.
        + destruct HT as [->|NT]; [left|right; intros; apply NT]. destruct (HF eq_refl) as [FA FB]. split; now apply follow_ften.
      - unfold ww. rewrite (ip_mask _ _ HP c j b i a), HM. reflexivity.
    Qed.
  End Flip.
End Crystal.

Section World.
  Context (objs : adp -> Prop) (sortf : list (catom * Z) -> list (catom * Z)) (HO : program objs) (HSort : sorts sortf).
  Context {cfg V : Type} (Q : quantity cfg V) (opp : V -> V) (HQ : quantity_ok Q opp).
  Context (h : cfg -> envt -> Z -> catom -> catom -> vec -> mat -> mat -> V) (HP : invariant_pairs Q h).
  Context (tensors : bool) (HT : tensors = true \/ no_tensors h) (HG : forall x, objs x -> orderly tensors x).
  Notation K := (pair_calc objs sortf Q).
  Lemma plain_flip c e z i a j b : good_env e -> ~ has_symmetry e -> ww Q c e z i a j b = ww Q c e z j b i a.
  Proof.
    intros Ge NS. unfold ww. rewrite <- (ip_mask _ _ HP c i a j b). destruct (q_mask Q c i a j b); auto.
    rewrite !shown_view, !adapter_env, !adapter_atoms.
    destruct (shown_spec (fst (gview e [a; b])) (snd (gview e [a; b])) (q_rmin Q c) (q_rmax Q c) 0 [1%nat] (view_ok e [a; b] Ge)) as (v & HV & ->).
    { rewrite view_sites. cbn. lia. } { intros ? [<-|[]]. rewrite view_sites. cbn. lia. }
    destruct (shown_spec (fst (gview e [b; a])) (snd (gview e [b; a])) (q_rmin Q c) (q_rmax Q c) 0 [1%nat] (view_ok e [b; a] Ge)) as (v1 & HV1 & ->).
    { rewrite view_sites. cbn. lia. } { intros ? [<-|[]]. rewrite view_sites. cbn. lia. }
    destruct (shown_spec (fst (gview e [a; b])) (snd (gview e [a; b])) (q_rmin Q c) (q_rmax Q c) 1 [0%nat] (view_ok e [a; b] Ge)) as (v2 & HV2 & _).
    { rewrite view_sites. cbn. lia. } { intros ? [<-|[]]. rewrite view_sites. cbn. lia. }
    pose proof (pair_images e [a; b] [b; a] 1 0 0 1 b a _ _ v2 v1 eq_refl eq_refl eq_refl eq_refl HV2 HV1) as P1.
    pose proof (turn_perm e [a; b] 0 1 a b _ _ v v2 NS eq_refl eq_refl HV HV2) as P2.
    rewrite !map_map. rewrite <- (qsum_perm Q opp HQ _ _ (Permutation_map _ P1)), (qsum_perm Q opp HQ _ _ (Permutation_map _ P2)), map_map.
    unfold qsum. f_equal. apply map_ext_in. intros y Hy. apply HV in Hy as [HI _].
    destruct (turn_bond e NS [a; b] 0 1 a b eq_refl eq_refl y HI) as (I' & D1 & D2 & D3 & D4).
    destruct (pair_bond e [a; b] [b; a] 1 0 0 1 b a eq_refl eq_refl eq_refl eq_refl _ I') as (E1 & E2 & E3 & _ & _).
    rewrite !bond_norm, <- E1, <- E3, D1, D3, D4, !(ip_form _ _ HP).
    replace (multiplicity e b) with (multiplicity e a) by (destruct e; auto; exfalso; now apply NS). f_equal. apply (ip_flip _ _ HP).
  Qed.
  Lemma world_flip (s : wstru objs) c z i a j b : In a (watoms objs s) -> In b (watoms objs s) -> ww Q c (wenv objs s) z i a j b = ww Q c (wenv objs s) z j b i a.
  Proof.
    intros Ha Hb. pose proof (wgood objs HO s) as Ge. destruct s as [x Hx]. pose proof (HG x Hx) as HGx. unfold wenv, watoms, orderly in *. cbn [wadp proj1_sig] in *.
    destruct (env_of x) as [|L|L p ops]; [now apply plain_flip|now apply plain_flip|].
    destruct HGx as [SG HA]. destruct (HA a Ha) as [EA FA]. destruct (HA b Hb) as [EB FB].
    apply (crystal_flip L p ops Ge SG Q opp HQ h HP tensors HT); auto.
  Qed.
  Lemma two_way_o : two_way (ww2 Q).
  Proof.
    intros c e z i a j b. unfold ww2. pose proof catom_total as [HI HTr HC].
    destruct (catom_ltb b a) eqn:E1, (catom_ltb a b) eqn:E2; auto.
    - pose proof (HTr _ _ _ E1 E2) as H. now rewrite HI in H.
    - assert (a = b) as -> by (apply HC; assumption). unfold ww. now rewrite (ip_mask _ _ HP c i b j b).
  Qed.
  Lemma calc_ok_o : calc_ok K opp (wpairs objs Q) (watoms objs) (wenv objs) (ww2 Q).
  Proof.
    pose proof (world_calc_ok objs sortf HO HSort Q opp HQ) as OK.
    destruct OK as [o1 o2 o3 o4 o5 o6 o7 o8 o9 o10 o11 o12 o13 o14 o15]. split; auto.
    intros c s z i j a b Ha Hb. rewrite (o10 c s z i j a b Ha Hb). unfold ww2. destruct (catom_ltb b a); auto.
    apply world_flip; eapply nth_error_In; eauto.
  Qed.
  Lemma index_free_o : mask_by_type Q -> index_free K (ww2 Q).
  Proof.
    intros H c e z i a j b i' j' Hm. unfold ww2. pose proof (index_free_w objs sortf Q H) as F. destruct (catom_ltb b a); apply F; exact Hm.
  Qed.
  Lemma doubling_o : doubling K.
  Proof. intros c s b. cbn [contrib add pair_calc]. apply (ip_double _ _ HP). Qed.
  Lemma total_half_o c s : half_total K (wpairs objs Q) c s = full_total K (wpairs objs Q) c s.
  Proof. exact (half_is_full K opp (wpairs objs Q) (watoms objs) (wenv objs) (ww2 Q) calc_ok_o c s two_way_o doubling_o). Qed.

  Theorem orbit_history close fixed c e t full ops s P : fixed = true \/ mask_by_type Q -> Forall safe_op ops ->
    let x := run K close (ops ++ [OpEval s]) (init K c e t full fixed 0 1) in
    neighbours Q (cf x) (wadp objs s) P -> val x = sum_all Q (cf x) (wadp objs s) P.
  Proof.
    intros HF Hs x HN. rewrite <- (full_is_sum_all Q objs sortf HO opp HQ (cf x) s P HN).
    pose proof (serial_history K opp (wpairs objs Q) (watoms objs) (wenv objs) (ww2 Q) calc_ok_o close fixed c e t full ops s) as H.
    cbv zeta in H. fold x in H. rewrite H; auto.
    - unfold total. destruct (fullsum x); [reflexivity|]. apply total_half_o.
    - destruct HF as [HF|HF]; [now left|right]. now apply index_free_o.
    - split; [right; apply two_way_o|right]. split; [apply two_way_o|apply doubling_o].
  Qed.
  Theorem orbit_merged close fixed N order c e t full ops s P : (1 <= N)%nat -> Permutation order (seq 0 N) -> fixed = true \/ mask_by_type Q -> Forall safe_op ops ->
    let x k := run K close (ops ++ [OpEval s]) (init K c e t full fixed k N) in
    neighbours Q (cf (x O)) (wadp objs s) P -> fold_left (fun v k => q_add Q v (val (x k))) order (q_zero Q) = sum_all Q (cf (x O)) (wadp objs s) P.
  Proof.
    intros H1 Ho HF Hs x HN. rewrite <- (full_is_sum_all Q objs sortf HO opp HQ (cf (x O)) s P HN).
    pose proof (merged_history K opp (wpairs objs Q) (watoms objs) (wenv objs) (ww2 Q) calc_ok_o close N fixed c e t full ops s order H1) as H.
    cbv zeta in H. etransitivity; [apply H; auto|].
    - destruct HF as [HF|HF]; [now left|right]. now apply index_free_o.
    - split; [right; apply two_way_o|right]. split; [apply two_way_o|apply doubling_o].
    - change (run K close (ops ++ [OpEval s]) (init K c e t full fixed 0 N)) with (x O). unfold total. destruct (fullsum (x O)); [reflexivity|]. apply total_half_o.
  Qed.
End World.
Section Pairs.
  Context (objs : adp -> Prop) (sortf : list (catom * Z) -> list (catom * Z)) (HO : program objs) (HSort : sorts sortf).
  Context {cfg V : Type} (Q : quantity cfg V) (opp : V -> V) (HQ : quantity_ok Q opp).
  Context (h : cfg -> envt -> Z -> catom -> catom -> vec -> mat -> mat -> V) (HP : invariant_pairs Q h).
  Context (tensors : bool) (HT : tensors = true \/ no_tensors h) (HG : forall x, objs x -> orderly tensors x).
  Theorem pair_both_ends (s : wstru objs) c z i j P : neighbours Q c (wadp objs s) P -> (i < length (watoms objs s))%nat -> (j < length (watoms objs s))%nat ->
    pair_sum Q c (wadp objs s) P z i j = pair_sum Q c (wadp objs s) P z j i.
  Proof.
    intros HN Hi Hj. rewrite <- !(pair_is_sum Q objs sortf HO opp HQ) by auto.
    destruct (nth_error (watoms objs s) i) as [a|] eqn:Ea; [|apply nth_error_None in Ea; lia].
    destruct (nth_error (watoms objs s) j) as [b|] eqn:Eb; [|apply nth_error_None in Eb; lia].
    rewrite (weight_ok_w objs sortf HO Q opp HQ c s z i j a b Ea Eb), (weight_ok_w objs sortf HO Q opp HQ c s z j i b a Eb Ea).
    apply (world_flip objs HO Q opp HQ h HP tensors HT HG); eapply nth_error_In; eauto.
  Qed.
End Pairs.
