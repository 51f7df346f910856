From Verif Require Import Base AList Masks MasksSpec.
From Coq Require Import String List Bool ZifyBool.
Import ListNotations.
Open Scope Z_scope.

Definition gpm (d : bool) (l : list (Z * Z)) (i j : Z) : bool :=
  if in_dec zpair_eqd (sort2 i j) l then negb d else d.

Lemma gpm_get s i j : getPairMask s i j = gpm (dflt s) (invp s) i j.
Proof. reflexivity. Qed.

Lemma sort2_comm i j : sort2 i j = sort2 j i.
Proof.
  unfold sort2. destruct (i >? j) eqn:A, (j >? i) eqn:B; auto; try lia.
  assert (i = j) by lia; now subst.
Qed.

Lemma sort2_eq i j k l : sort2 i j = sort2 k l <-> same_pair i j k l.
Proof.
  unfold sort2, same_pair. destruct (i >? j) eqn:A, (k >? l) eqn:B; split;
    intros H; try (injection H as -> ->); auto; try lia;
    destruct H as [[-> ->]|[-> ->]]; auto; try lia; f_equal; lia.
Qed.

Lemma getPairMask_sym s i j : getPairMask s i j = getPairMask s j i.
Proof. unfold getPairMask. now rewrite sort2_comm. Qed.

Lemma gpm_set d l a b m i j :
  gpm d (fst (setPairMaskValue d l a b m)) i j =
  if zpair_eqd (sort2 a b) (sort2 i j) then m else gpm d l i j.
Proof.
  unfold gpm, setPairMaskValue. destruct (eqb m d) eqn:E.
  - apply eqb_prop in E; subst m; cbn [fst].
    destruct (zpair_eqd (sort2 a b) (sort2 i j)) as [->|Hne].
    + destruct (in_dec zpair_eqd (sort2 i j) (remove _ _ _)) as [H|H]; auto.
      now apply remove_In in H.
    + destruct (in_dec _ (sort2 i j) (remove _ _ _)) as [H|H], (in_dec _ (sort2 i j) l) as [K|K]; auto.
      * apply in_remove in H as [H _]; contradiction.
      * exfalso; apply H. apply in_in_remove; congruence.
  - apply eqb_false_iff in E. cbn [fst].
    destruct (zpair_eqd (sort2 a b) (sort2 i j)) as [->|Hne].
    + destruct (in_dec zpair_eqd (sort2 i j) l) as [K|K]; cbv iota beta;
        destruct (in_dec zpair_eqd (sort2 i j) _) as [H|H]; try (destruct m, d; cbn; congruence).
      exfalso; apply H; now left.
    + destruct (in_dec zpair_eqd (sort2 a b) l) as [K|K]; cbv iota beta;
        destruct (in_dec zpair_eqd (sort2 i j) _) as [H|H];
        destruct (in_dec zpair_eqd (sort2 i j) l) as [H'|H']; auto; try contradiction.
      * destruct H; congruence.
      * exfalso; apply H; now right.
Qed.

Lemma set_changed d l a b m : snd (setPairMaskValue d l a b m) = negb (eqb (gpm d l a b) m).
Proof.
  unfold setPairMaskValue, gpm. destruct (in_dec zpair_eqd (sort2 a b) l), (eqb m d) eqn:E;
    destruct m, d; cbn in *; congruence.
Qed.

Definition hits (ps : list (Z * Z)) (i j : Z) : bool :=
  existsb (fun p => if zpair_eqd (sort2 (fst p) (snd p)) (sort2 i j) then true else false) ps.

Lemma hits_iff ps i j : hits ps i j = true <-> exists a b, In (a, b) ps /\ same_pair a b i j.
Proof.
  unfold hits. rewrite existsb_exists. split.
  - intros [[a b] [Hin H]]; cbn [fst snd] in H. destruct (zpair_eqd _ _) as [E|]; [|discriminate].
    exists a, b; split; auto. now apply sort2_eq.
  - intros (a & b & Hin & H). exists (a, b); split; auto; cbn [fst snd].
    destruct (zpair_eqd _ _) as [E|E]; auto. exfalso; apply E. now apply sort2_eq.
Qed.

Lemma gpm_many d l ps m i j :
  gpm d (setMany d l ps m) i j = if hits ps i j then m else gpm d l i j.
Proof.
  unfold setMany. revert l; induction ps as [|[a b] ps IH]; intros l; cbn [fold_left hits existsb]; auto.
  rewrite IH. cbn [fst snd]. rewrite gpm_set. fold (hits ps i j).
  destruct (hits ps i j), (zpair_eqd (sort2 a b) (sort2 i j)); auto.
Qed.

Lemma zseq_In n x : In x (zseq n) <-> 0 <= x < Z.of_nat n.
Proof.
  unfold zseq. rewrite in_map_iff. split.
  - intros [k [<- H]]. apply in_seq in H. lia.
  - intros H. exists (Z.to_nat x). split; [lia|]. apply in_seq. lia.
Qed.

Lemma hits_row k n i j :
  hits (map (fun l => (k, l)) (zseq n)) i j = true <->
  (k = i /\ 0 <= j < Z.of_nat n) \/ (k = j /\ 0 <= i < Z.of_nat n).
Proof.
  rewrite hits_iff. split.
  - intros (a & b & Hin & Hs). apply in_map_iff in Hin as [x [[= <- <-] Hx]]. apply zseq_In in Hx.
    destruct Hs as [[-> ->]|[-> ->]]; auto.
  - intros [[-> H]|[-> H]].
    + exists i, j. split; [|left; auto]. apply in_map_iff. exists j; split; auto. now apply zseq_In.
    + exists j, i. split; [|right; auto]. apply in_map_iff. exists i; split; auto. now apply zseq_In.
Qed.

(** A fold of row or block assignments: the last hit wins. *)
Lemma gpm_fold {E} (f : E -> list (Z * Z)) (v : E -> bool) d es l i j :
  gpm d (fold_left (fun acc e => setMany d acc (f e) (v e)) es l) i j =
  fold_left (fun b e => if hits (f e) i j then v e else b) es (gpm d l i j).
Proof.
  revert l; induction es as [|e es IH]; intros l; cbn [fold_left]; auto.
  now rewrite IH, gpm_many.
Qed.

Lemma fold_nohit {E} (h : E -> bool) (v : E -> bool) es b :
  (forall e, In e es -> h e = false) ->
  fold_left (fun b e => if h e then v e else b) es b = b.
Proof.
  revert b; induction es as [|e es IH]; intros b H; cbn [fold_left]; auto.
  rewrite (H e) by now left. apply IH. intros; apply H; now right.
Qed.

Lemma fold_hit {E} (h : E -> bool) (v : E -> bool) es b m :
  (forall e, In e es -> h e = true -> v e = m) ->
  (exists e, In e es /\ h e = true) ->
  fold_left (fun b e => if h e then v e else b) es b = m.
Proof.
  revert b; induction es as [|e es IH]; intros b H [e' [Hin Hh]]; [destruct Hin|].
  cbn [fold_left].
  destruct (existsb h es) eqn:Ex.
  - apply IH; [intros; apply H; auto; now right|]. apply existsb_exists in Ex. exact Ex.
  - assert (Hno : forall x, In x es -> h x = false).
    { intros x Hx. destruct (h x) eqn:Hhx; auto. exfalso.
      assert (existsb h es = true) by (apply existsb_exists; eauto). congruence. }
    rewrite fold_nohit by exact Hno.
    destruct Hin as [->|Hin]; [|rewrite Hno in Hh by auto; discriminate].
    rewrite Hh. apply H; auto. now left.
Qed.

Lemma is_nil_true {A} (l : list A) : is_nil l = true <-> l = [].
Proof. destruct l; cbn; split; congruence. Qed.

(** ** setPairMask *)
Lemma setPair_both s i j m k l :
  0 <= i -> 0 <= j ->
  getPairMask (setPairMask s i j m) k l =
  if zpair_eqd (sort2 i j) (sort2 k l) then m else getPairMask s k l.
Proof.
  intros Hi Hj. unfold setPairMask, ALLATOMSINT.
  replace (i <? 0) with false by lia. replace (j <? 0) with false by lia.
  replace (-1 =? i) with false by lia. replace (-1 =? j) with false by lia. cbn [andb orb].
  destruct (dropSiteAll m j _) as [sa mo].
  destruct (setPairMaskValue (dflt s) (invp s) i j m) as [ip ch] eqn:E.
  rewrite !gpm_get; cbn [dflt invp].
  replace ip with (fst (setPairMaskValue (dflt s) (invp s) i j m)) by now rewrite E.
  apply gpm_set.
Qed.

Lemma setPair_single s i j m :
  0 <= i -> 0 <= j ->
  (forall k l, same_pair k l i j -> getPairMask (setPairMask s i j m) k l = m) /\
  (forall k l, ~ same_pair k l i j -> getPairMask (setPairMask s i j m) k l = getPairMask s k l).
Proof.
  intros Hi Hj; split; intros k l H; rewrite setPair_both by auto;
    destruct (zpair_eqd (sort2 i j) (sort2 k l)) as [E|E]; auto.
  - exfalso; apply E. symmetry. now apply sort2_eq.
  - exfalso; apply H. apply sort2_eq. now symmetry.
Qed.

Lemma setPair_row s i j k m a b :
  (0 <= i /\ j < 0 /\ k = i) \/ (i < 0 /\ 0 <= j /\ k = j) ->
  getPairMask (setPairMask s i j m) a b =
  if hits (map (fun l => (k, l)) (zseq (countSites s))) a b then m else getPairMask s a b.
Proof.
  intros H. unfold setPairMask, ALLATOMSINT. destruct H as [(Hi & Hj & ->)|(Hi & Hj & ->)].
  - replace (i <? 0) with false by lia. replace (j <? 0) with true by lia.
    replace (-1 =? i) with false by lia. cbn [andb orb negb Z.eqb Pos.eqb].
    rewrite !gpm_get; cbn [dflt invp]. apply gpm_many.
  - replace (i <? 0) with true by lia. replace (j <? 0) with false by lia.
    replace (-1 =? j) with false by lia. cbn [andb orb negb Z.eqb Pos.eqb].
    rewrite !gpm_get; cbn [dflt invp]. apply gpm_many.
Qed.

Lemma setPair_all_one s i j k m :
  (0 <= i /\ j < 0 /\ k = i) \/ (i < 0 /\ 0 <= j /\ k = j) ->
  (forall l, is_site s l -> getPairMask (setPairMask s i j m) k l = m) /\
  (forall a b, a <> k -> b <> k -> getPairMask (setPairMask s i j m) a b = getPairMask s a b).
Proof.
  intros H; split.
  - intros l Hl. rewrite (setPair_row _ _ _ k) by auto.
    replace (hits _ _ _) with true; auto. symmetry. apply hits_row. left; split; auto; apply Hl.
  - intros a b Ha Hb. rewrite (setPair_row _ _ _ k) by auto.
    destruct (hits _ a b) eqn:E; auto. apply hits_row in E. destruct E as [[? _]|[? _]]; congruence.
Qed.

Lemma maskAll_get s m a b : getPairMask (maskAllPairs s m) a b = m.
Proof. reflexivity. Qed.
Lemma maskAll_type s m a b : getTypeMask (maskAllPairs s m) a b = m.
Proof. reflexivity. Qed.

Lemma setPair_all_all s i j m : i < 0 -> j < 0 ->
  setPairMask s i j m = maskAllPairs s m.
Proof.
  intros Hi Hj. unfold setPairMask, ALLATOMSINT.
  replace (i <? 0) with true by lia. replace (j <? 0) with true by lia. reflexivity.
Qed.

Lemma setPair_types s i j m : types (setPairMask s i j m) = types s.
Proof.
  unfold setPairMask, maskAllPairs.
  destruct (_ && _); [reflexivity|]. destruct (_ || _); [reflexivity|].
  destruct (dropSiteAll _ _ _) as [sa mo].
  destruct (setPairMaskValue _ _ _ _ _); reflexivity.
Qed.

(** ** invertMask *)
Lemma invert_pair s i j : getPairMask (invertMask s) i j = negb (getPairMask s i j).
Proof. unfold getPairMask; cbn [invertMask dflt invp]. destruct (in_dec _ _ _); auto. Qed.

Lemma invert_type s a b : getTypeMask (invertMask s) a b = negb (getTypeMask s a b).
Proof.
  unfold getTypeMask; cbn [invertMask dflt tmask]. rewrite !(afind_mapval spair_eqd negb).
  destruct (afind spair_eqd (ssort2 a b) (tmask s)); cbn; auto.
  destruct (afind spair_eqd (ssort2 a ALLATOMSSTR) (tmask s)); cbn; auto.
  destruct (afind spair_eqd (ssort2 b ALLATOMSSTR) (tmask s)); cbn; auto.
Qed.

Lemma invert_invert s : same_masks (invertMask (invertMask s)) s.
Proof.
  split; intros; [rewrite !invert_pair|rewrite !invert_type]; apply negb_involutive.
Qed.

Lemma drop_spec m x q : NoDup (akeys (fst q)) ->
  NoDup (akeys (fst (dropSiteAll m x q))) /\
  (forall k m', In (k, m') (fst (dropSiteAll m x q)) -> In (k, m') (fst q) /\ (k = x -> m' = m)) /\
  (snd q = true -> snd (dropSiteAll m x q) = true).
Proof.
  intros Hq. unfold dropSiteAll. destruct (afind Z.eq_dec x (fst q)) as [m0|] eqn:Ef.
  - destruct (eqb m m0) eqn:Em; cbn [fst snd].
    + apply eqb_prop in Em; subst m0. split; [|split]; auto. intros k0 m1 H; split; auto. intros ->.
      apply (In_afind Z.eq_dec) in H; auto. congruence.
    + split; [|split]; auto.
      * now apply NoDup_aerase.
      * intros k0 m1 H. unfold aerase in H.
        apply filter_In in H as [H H2]; cbn [fst] in H2. split; auto. intros ->.
        destruct (Z.eq_dec x x); congruence.
  - split; [|split]; auto. intros k0 m1 H; split; auto. intros ->. apply afind_None in Ef.
    exfalso; apply Ef. now apply (in_map fst) in H.
Qed.

Lemma drop2_spec s m i j b0 : NoDup (akeys (siteall s)) ->
  let r := dropSiteAll m j (dropSiteAll m i (siteall s, b0)) in
  NoDup (akeys (fst r)) /\
  (forall k m', In (k, m') (fst r) -> In (k, m') (siteall s) /\ ((k = i \/ k = j) -> m' = m)) /\
  (b0 = true -> snd r = true).
Proof.
  intros Hn. cbv zeta. destruct (drop_spec m i (siteall s, b0) Hn) as (A & B & C).
  destruct (drop_spec m j _ A) as (D & E & F). split; auto. split.
  - intros k m' H. apply E in H as [H H2]. apply B in H as [H H3]. split; auto. intuition.
  - intros H. apply F, C, H.
Qed.

(** ** Invariants of reachable states *)
Definition norm_key (p : string * string) : Prop :=
  ssort2 (fst p) (snd p) = p /\ p <> (ALLATOMSSTR, ALLATOMSSTR).

Record wf (s : pq) : Prop := {
  wf_site : NoDup (akeys (siteall s));
  wf_type : NoDup (akeys (tmask s));
  wf_norm : forall p, In p (akeys (tmask s)) -> norm_key p;
  wf_excl : siteall s = [] \/ tmask s = [];
  wf_pos : forall k, In k (akeys (siteall s)) -> 0 <= k
}.

Lemma sltb_antisym a b : String.ltb a b = true -> String.ltb b a = true -> False.
Proof.
  unfold String.ltb. rewrite (String.compare_antisym b a).
  destruct (String.compare a b); cbn; congruence.
Qed.
Lemma sltb_total a b : String.ltb a b = false -> String.ltb b a = false -> a = b.
Proof.
  unfold String.ltb. rewrite (String.compare_antisym b a).
  destruct (String.compare a b) eqn:E; cbn; try congruence.
  intros _ _. now apply String.compare_eq_iff.
Qed.

Lemma ssort2_comm a b : ssort2 a b = ssort2 b a.
Proof.
  unfold ssort2, sgt. destruct (String.ltb b a) eqn:A, (String.ltb a b) eqn:B; auto.
  - exfalso; eauto using sltb_antisym.
  - now rewrite (sltb_total _ _ A B).
Qed.

Lemma ssort2_cases a b : ssort2 a b = (a, b) \/ ssort2 a b = (b, a).
Proof. unfold ssort2; destruct (sgt a b); auto. Qed.

Lemma ssort2_inj a b c d : ssort2 a b = ssort2 c d -> (a = c /\ b = d) \/ (a = d /\ b = c).
Proof.
  destruct (ssort2_cases a b) as [-> | ->], (ssort2_cases c d) as [-> | ->]; intros [= -> ->]; auto.
Qed.

Lemma ssort2_norm a b : ssort2 (fst (ssort2 a b)) (snd (ssort2 a b)) = ssort2 a b.
Proof.
  destruct (ssort2_cases a b) as [E|E]; rewrite E; cbn [fst snd]; auto.
  now rewrite ssort2_comm.
Qed.

Lemma ssort2_other a b x : ssort2 a x = ssort2 b x -> a = b.
Proof. intros H. apply ssort2_inj in H. intuition congruence. Qed.

Lemma setType_shape s a b m :
  let a' := if string_dec UPCASEALL a then ALLATOMSSTR else a in
  let b' := if string_dec UPCASEALL b then ALLATOMSSTR else b in
  setTypeMask s a b m = maskAllPairs s m \/
  (ssort2 a' b' <> (ALLATOMSSTR, ALLATOMSSTR) /\
   exists f, tmask (setTypeMask s a b m) = aset spair_eqd (ssort2 a' b') m (filter f (tmask s)) /\
   siteall (setTypeMask s a b m) = [] /\ dflt (setTypeMask s a b m) = dflt s /\
   invp (setTypeMask s a b m) = invp s /\ types (setTypeMask s a b m) = types s).
Proof.
  cbv zeta. unfold setTypeMask.
  set (a' := if string_dec UPCASEALL a then _ else _).
  set (b' := if string_dec UPCASEALL b then _ else _).
  destruct (spair_eqd _ _) as [E|E]; [now left|right]. split; [congruence|].
  destruct (_ || _); cbn [tmask siteall dflt invp types].
  - eexists; repeat split; reflexivity.
  - exists (fun _ => true). repeat split. f_equal. induction (tmask s) as [|x l IH]; cbn; congruence.
Qed.

Lemma maskAll_wf s m : wf (maskAllPairs s m).
Proof. constructor; cbn; auto; try constructor; contradiction. Qed.

Lemma wf_step s o : wf s -> order_ok s o -> wf (mstep s o).
Proof.
  intros W Ho; destruct o as [m| |i j m|a b m|tps so to]; cbn [mstep].
  - apply maskAll_wf.
  - destruct W as [W1 W2 W3 W4 W5]. constructor; cbn [invertMask siteall tmask]; rewrite ?akeys_mapval; auto.
    destruct W4 as [-> | ->]; auto.
  - unfold setPairMask. destruct (_ && _) eqn:E0; [apply maskAll_wf|].
    destruct W as [W1 W2 W3 W4 W5].
    destruct (_ || _) eqn:E.
    + constructor; cbn [siteall tmask akeys map In]; auto.
      * now apply NoDup_aset.
      * constructor.
      * contradiction.
      * intros k Hk. apply akeys_aset in Hk as [->|Hk]; auto.
        unfold ALLATOMSINT in *.
        destruct (Z.ltb_spec i 0), (Z.ltb_spec j 0); destruct (Z.eqb_spec (-1) (-1)); try lia;
          try destruct (Z.eqb_spec (-1) i); try destruct (Z.eqb_spec (-1) j);
          cbn [negb andb orb] in *; try lia; discriminate.
    + set (i' := if i <? 0 then _ else _) in *. set (j' := if j <? 0 then _ else _) in *.
      pose proof (drop2_spec s m i' j' (negb (is_nil (tmask s))) W1) as (H1 & H2 & _).
      destruct (dropSiteAll m j' _) as [sa mo]. cbn [fst] in *.
      destruct (setPairMaskValue _ _ _ _ _) as [ip ch].
      constructor; cbn [siteall tmask akeys map In]; auto; [constructor|contradiction|].
      intros k Hk. apply in_map_iff in Hk as [[k0 m0] [<- Hk]]. apply H2 in Hk as [Hk _].
      apply W5. now apply (in_map fst) in Hk.
  - pose proof (setType_shape s a b m) as H. cbv zeta in H.
    destruct H as [->|(Hne & f & Ht & Hs & _)]; [apply maskAll_wf|].
    destruct W as [W1 W2 W3 W4 W5].
    constructor; rewrite ?Hs, ?Ht; auto.
    + constructor.
    + apply NoDup_aset. now apply NoDup_filter_keys.
    + intros p Hp. apply akeys_aset in Hp as [->|Hp].
      * split; auto. apply ssort2_norm.
      * apply W3. unfold akeys in *. apply in_map_iff in Hp as [e [<- He]].
        apply filter_In in He as [He _]. now apply in_map.
    + cbn; contradiction.
  - destruct W as [W1 W2 W3 W4 W5]. constructor; auto.
Qed.

Lemma wf0 : wf pq0. Proof. constructor; cbn; auto; try constructor; contradiction. Qed.

Lemma reach_wf s : reach s -> wf s.
Proof. induction 1; auto using wf0, wf_step. Qed.

Lemma cfreach_reach s : cfreach s -> reach s.
Proof. induction 1; econstructor; eauto. Qed.

(** ** setStructure with index masks *)
Lemma setStructure_sites s tps so to i j :
  tmask s = [] ->
  getPairMask (setStructure s tps so to) i j =
  fold_left (fun b e => if hits (map (fun l => (fst e, l)) (zseq (List.length tps))) i j then snd e else b)
    so (getPairMask s i j).
Proof.
  intros Ht. rewrite !gpm_get. unfold setStructure, updateMaskData. cbn [dflt invp tmask].
  rewrite Ht. cbn [is_nil].
  rewrite (gpm_fold (fun e => map (fun j0 => (fst e, j0)) (zseq (List.length tps))) snd).
  reflexivity.
Qed.

Lemma sites_persist s tps so to i j m :
  reach s -> tmask s = [] -> Permutation (siteall s) so ->
  In (i, m) (siteall s) -> 0 <= j < Z.of_nat (List.length tps) ->
  (forall m', In (j, m') (siteall s) -> m' = m) ->
  getPairMask (setStructure s tps so to) i j = m.
Proof.
  intros Hr Ht Hp Hin Hj Hc. pose proof (reach_wf _ Hr) as W.
  rewrite setStructure_sites by auto.
  apply (fold_hit (fun e => hits (map (fun l => (fst e, l)) (zseq (List.length tps))) i j) snd).
  - intros [k v] He Hh. cbn [fst snd] in *. apply hits_row in Hh.
    assert (He' : In (k, v) (siteall s)) by (eapply Permutation_in; [symmetry; exact Hp|auto]).
    destruct Hh as [[-> _]|[-> _]]; auto.
    assert (A : afind Z.eq_dec i (siteall s) = Some v) by (apply In_afind; auto; apply W).
    assert (B : afind Z.eq_dec i (siteall s) = Some m) by (apply In_afind; auto; apply W).
    congruence.
  - exists (i, m). split; [eapply Permutation_in; eauto|]. cbn [fst]. apply hits_row. left; auto.
Qed.

Lemma sites_unaffected s tps so to i j :
  tmask s = [] -> Permutation (siteall s) so ->
  ~ In i (akeys (siteall s)) -> ~ In j (akeys (siteall s)) ->
  getPairMask (setStructure s tps so to) i j = getPairMask s i j.
Proof.
  intros Ht Hp Hi Hj. rewrite setStructure_sites by auto.
  apply (fold_nohit (fun e => hits (map (fun l => (fst e, l)) (zseq (List.length tps))) i j) snd).
  intros [k v] He. cbn [fst snd]. destruct (hits _ _ _) eqn:E; auto. apply hits_row in E.
  assert (He' : In k (akeys (siteall s))).
  { apply (in_map fst) in He. cbn in He. eapply Permutation_in; [|exact He].
    apply Permutation_map. now symmetry. }
  destruct E as [[-> _]|[-> _]]; contradiction.
Qed.

(** ** setStructure with type masks *)
Lemma combine_zseq_In tps i t :
  In (i, t) (combine (zseq (List.length tps)) tps) <-> site_type tps i t.
Proof.
  unfold zseq, site_type.
  assert (G : forall k, In (i, t) (combine (map Z.of_nat (seq k (List.length tps))) tps) <->
              Z.of_nat k <= i /\ nth_error tps (Z.to_nat i - k) = Some t).
  { induction tps as [|x tps IH]; intros k; cbn [List.length seq map combine In].
    - split; [contradiction|]. intros [_ H]. destruct (Z.to_nat i - k)%nat; discriminate.
    - rewrite IH. split.
      + intros [[= <- <-]|[H1 H2]].
        * rewrite Nat2Z.id, Nat.sub_diag. split; [lia|reflexivity].
        * split; [lia|]. replace (Z.to_nat i - k)%nat with (S (Z.to_nat i - S k)) by lia. exact H2.
      + intros [H1 H2]. destruct (Z.eq_dec (Z.of_nat k) i) as [<-|Hne].
        * left. rewrite Nat2Z.id, Nat.sub_diag in H2. cbn in H2. congruence.
        * right. split; [lia|].
          replace (Z.to_nat i - k)%nat with (S (Z.to_nat i - S k)) in H2 by lia. exact H2. }
  rewrite (G 0%nat). rewrite Nat.sub_0_r. split; intros [? ?]; split; auto; lia.
Qed.

Lemma siteindices_In tps key x :
  In x (siteindices tps key) <->
  exists t, site_type tps x t /\ (t = key \/ key = ALLATOMSSTR).
Proof.
  unfold siteindices. rewrite in_flat_map. split.
  - intros [[i t] [Hin H]]. cbn [fst snd] in H. apply combine_zseq_In in Hin.
    apply in_app_iff in H as [H|H].
    + destruct (string_dec t key); [|contradiction]. destruct H as [<-|[]]. exists t; auto.
    + destruct (string_dec ALLATOMSSTR key); [|contradiction]. destruct H as [<-|[]]. exists t; auto.
  - intros [t [Hs H]]. exists (x, t). split; [now apply combine_zseq_In|].
    cbn [fst snd]. apply in_app_iff. destruct H as [->|H].
    + left. destruct (string_dec key key); [now left|congruence].
    + right. subst key. destruct (string_dec ALLATOMSSTR ALLATOMSSTR); [now left|congruence].
Qed.

Lemma triangle_In l a b : In (a, b) (triangle l) -> In a l /\ In b l.
Proof.
  induction l as [|x l IH]; cbn [triangle]; [contradiction|]. intros H.
  apply in_app_iff in H as [H|H].
  - apply in_map_iff in H as [y [[= <- <-] Hy]]. split; [now left|auto].
  - apply IH in H as [? ?]; split; now right.
Qed.

Lemma triangle_complete l a b : In a l -> In b l -> In (a, b) (triangle l) \/ In (b, a) (triangle l).
Proof.
  induction l as [|x l IH]; cbn [triangle]; [contradiction|].
  intros [<-|Ha] Hb.
  - left. apply in_app_iff; left. apply in_map_iff. exists b; auto.
  - destruct Hb as [<-|Hb].
    + right. apply in_app_iff; left. apply in_map_iff. exists a; split; auto; now right.
    + destruct (IH Ha Hb); [left|right]; apply in_app_iff; now right.
Qed.

Lemma hits_typepairs tps p i j :
  hits (typepairs tps p) i j = true <->
  (In i (siteindices tps (fst p)) /\ In j (siteindices tps (snd p))) \/
  (In j (siteindices tps (fst p)) /\ In i (siteindices tps (snd p))).
Proof.
  rewrite hits_iff. unfold typepairs. destruct p as [p q]; cbn [fst snd].
  destruct (string_dec p q) as [<-|Hne]; split.
  - intros (a & b & Hin & [[-> ->]|[-> ->]]); apply triangle_In in Hin; tauto.
  - intros H. assert (Hi : In i (siteindices tps p)) by tauto.
    assert (Hj : In j (siteindices tps p)) by tauto.
    destruct (triangle_complete _ _ _ Hi Hj) as [K|K]; [exists i, j|exists j, i]; split; auto;
      [left|right]; auto.
  - intros (a & b & Hin & [[-> ->]|[-> ->]]); apply in_prod_iff in Hin; tauto.
  - intros [[H1 H2]|[H1 H2]]; [exists i, j|exists j, i]; (split; [apply in_prod_iff; auto|]);
      [left|right]; auto.
Qed.

Lemma site_type_fun tps i t t' : site_type tps i t -> site_type tps i t' -> t = t'.
Proof. unfold site_type; intros [_ H] [_ H']; congruence. Qed.

Lemma hits_match tps p i j ti tj :
  ~ In ALLATOMSSTR tps -> norm_key p -> site_type tps i ti -> site_type tps j tj ->
  (hits (typepairs tps p) i j = true <->
   p = ssort2 ti tj \/ p = ssort2 ti ALLATOMSSTR \/ p = ssort2 tj ALLATOMSSTR).
Proof.
  intros Hna [Hn Hnall] Hi Hj. rewrite hits_typepairs, !siteindices_In.
  assert (Hti : ti <> ALLATOMSSTR).
  { intros ->. apply Hna. destruct Hi as [_ H]. eapply nth_error_In; eauto. }
  assert (Htj : tj <> ALLATOMSSTR).
  { intros ->. apply Hna. destruct Hj as [_ H]. eapply nth_error_In; eauto. }
  destruct p as [p q]; cbn [fst snd] in *. split.
  - intros [[[t [A [B|B]]] [t' [C [D|D]]]]|[[t [A [B|B]]] [t' [C [D|D]]]]]; subst;
      try (rewrite (site_type_fun _ _ _ _ A Hi) in * );
      try (rewrite (site_type_fun _ _ _ _ C Hj) in * );
      try (rewrite (site_type_fun _ _ _ _ A Hj) in * );
      try (rewrite (site_type_fun _ _ _ _ C Hi) in * ); rewrite <- Hn; auto; try congruence;
      rewrite ssort2_comm; auto.
  - intros H.
    assert (Hex : forall u v, (p, q) = ssort2 u v -> (p = u /\ q = v) \/ (p = v /\ q = u)).
    { intros u v E. destruct (ssort2_cases u v) as [K|K]; rewrite K in E; injection E as -> ->; auto. }
    destruct H as [H|[H|H]]; apply Hex in H as [[-> ->]|[-> ->]]; eauto 10.
Qed.

Definition hasall (p : string * string) : bool :=
  (if string_dec ALLATOMSSTR (fst p) then true else false) ||
  (if string_dec ALLATOMSSTR (snd p) then true else false).

Lemma orderedpairs_split ord : exists A B,
  orderedpairs ord = A ++ B /\
  (forall p, In p A <-> In p (map fst ord) /\ hasall p = true) /\
  (forall p, In p B <-> In p (map fst ord) /\ hasall p = false).
Proof.
  unfold orderedpairs.
  assert (G : forall l A B, exists A' B',
    fold_left (fun acc e => let p := fst e in
      if (if string_dec ALLATOMSSTR (fst p) then true else false) ||
         (if string_dec ALLATOMSSTR (snd p) then true else false)
      then p :: acc else acc ++ [p]) l (A ++ B) = A' ++ B' /\
    (forall p, In p A' <-> In p A \/ (In p (map (@fst (string*string) bool) l) /\ hasall p = true)) /\
    (forall p, In p B' <-> In p B \/ (In p (map (@fst (string*string) bool) l) /\ hasall p = false))).
  { induction l as [|[p v] l IH]; intros A B; cbn [fold_left map fst].
    - exists A, B. cbn [In]. split; [reflexivity|]. split; intros; tauto.
    - fold (hasall p). destruct (hasall p) eqn:E.
      + destruct (IH (p :: A) B) as (A' & B' & H1 & H2 & H3). exists A', B'. cbn [app] in H1.
        split; [exact H1|]. split; intros x; [rewrite H2|rewrite H3]; cbn [In]; split; intros K;
          intuition (subst; auto; congruence).
      + destruct (IH A (B ++ [p])) as (A' & B' & H1 & H2 & H3). exists A', B'.
        rewrite app_assoc in H1.
        split; [exact H1|]. split; intros x; [rewrite H2|rewrite H3, in_app_iff]; cbn [In]; split; intros K;
          intuition (subst; auto; congruence). }
  destruct (G ord [] []) as (A & B & H1 & H2 & H3). exists A, B. cbn [app] in H1.
  split; [exact H1|]. split; intros p; [rewrite H2|rewrite H3]; cbn [In].
  - tauto.
  - tauto.
Qed.

Lemma hasall_ssort2_all t : hasall (ssort2 t ALLATOMSSTR) = true.
Proof.
  unfold hasall. destruct (ssort2_cases t ALLATOMSSTR) as [-> | ->]; cbn [fst snd];
    destruct (string_dec ALLATOMSSTR ALLATOMSSTR); try congruence; auto. apply orb_true_r.
Qed.
Lemma hasall_ssort2 a b : a <> ALLATOMSSTR -> b <> ALLATOMSSTR -> hasall (ssort2 a b) = false.
Proof.
  intros Ha Hb. unfold hasall. destruct (ssort2_cases a b) as [-> | ->]; cbn [fst snd];
    destruct (string_dec ALLATOMSSTR a), (string_dec ALLATOMSSTR b); try congruence; reflexivity.
Qed.

Lemma setStructure_types_gen s tps so to i j :
  wf s -> tmask s <> [] -> Permutation (tmask s) to ->
  getPairMask (setStructure s tps so to) i j =
  fold_left (fun b p => if hits (typepairs tps p) i j
                        then match afind spair_eqd p (tmask s) with Some m => m | None => dflt s end else b)
    (orderedpairs to) (dflt s).
Proof.
  intros W Hne Hp. rewrite gpm_get. unfold setStructure, updateMaskData; cbn [dflt invp tmask types].
  destruct (is_nil (tmask s)) eqn:E; [apply is_nil_true in E; contradiction|].
  assert (Hk : forall p, In p (orderedpairs to) -> afind spair_eqd p (tmask s) <> None).
  { intros p Hin H. apply afind_None in H. apply H.
    destruct (orderedpairs_split to) as (A & B & HE & HA & HB). rewrite HE in Hin.
    apply in_app_iff in Hin.
    assert (In p (map fst to)) as Hin' by (destruct Hin as [K|K]; [apply HA in K|apply HB in K]; tauto).
    unfold akeys. eapply Permutation_in; [|exact Hin']. apply Permutation_map. now symmetry. }
  assert (G : forall l acc, (forall p, In p l -> afind spair_eqd p (tmask s) <> None) ->
     gpm (dflt s) (fold_left (fun acc p => match afind spair_eqd p (tmask s) with
        | Some msk => setMany (dflt s) acc (typepairs tps p) msk | None => acc end) l acc) i j =
     fold_left (fun b p => if hits (typepairs tps p) i j
                        then match afind spair_eqd p (tmask s) with Some m => m | None => dflt s end else b)
       l (gpm (dflt s) acc i j)).
  { induction l as [|p l IH]; intros acc H; cbn [fold_left]; auto.
    destruct (afind spair_eqd p (tmask s)) as [m|] eqn:Ef.
    - rewrite IH by (intros; apply H; now right). now rewrite gpm_many.
    - exfalso; apply (H p); auto. now left. }
  rewrite G by auto. reflexivity.
Qed.

Lemma types_determine s tps so to i j ti tj :
  reach s -> tmask s <> [] -> Permutation (tmask s) to ->
  ~ In ALLATOMSSTR tps -> site_type tps i ti -> site_type tps j tj ->
  ~ type_conflict s ti tj ->
  getPairMask (setStructure s tps so to) i j = getTypeMask s ti tj.
Proof.
  intros Hr Hne Hp Hna Hi Hj Hc. pose proof (reach_wf _ Hr) as W.
  rewrite setStructure_types_gen by auto.
  destruct (orderedpairs_split to) as (A & B & HE & HA & HB). rewrite HE.
  assert (Hti : ti <> ALLATOMSSTR).
  { intros ->. apply Hna. destruct Hi as [_ H]. eapply nth_error_In; eauto. }
  assert (Htj : tj <> ALLATOMSSTR).
  { intros ->. apply Hna. destruct Hj as [_ H]. eapply nth_error_In; eauto. }
  assert (Hkeys : forall p, In p (map fst to) <-> In p (akeys (tmask s))).
  { intros p. unfold akeys. split; apply Permutation_in; apply Permutation_map; auto. now symmetry. }
  assert (Hnorm : forall p, In p (map fst to) -> norm_key p) by (intros p H; apply W, Hkeys, H).
  assert (Hm : forall p, In p (map fst to) ->
     (hits (typepairs tps p) i j = true <->
      p = ssort2 ti tj \/ p = ssort2 ti ALLATOMSSTR \/ p = ssort2 tj ALLATOMSSTR)).
  { intros p H. apply hits_match; auto. }
  set (v := fun p => match afind spair_eqd p (tmask s) with Some m => m | None => dflt s end).
  set (h := fun p => hits (typepairs tps p) i j).
  change (fold_left (fun b p => if h p then v p else b) (A ++ B) (dflt s) = getTypeMask s ti tj).
  rewrite fold_left_app.
  set (bA := fold_left (fun b p => if h p then v p else b) A (dflt s)).
  assert (FA : afind spair_eqd (ssort2 ti tj) (tmask s) = None ->
    bA = match afind spair_eqd (ssort2 ti ALLATOMSSTR) (tmask s) with
         | Some m => m
         | None => match afind spair_eqd (ssort2 tj ALLATOMSSTR) (tmask s) with
                   | Some m => m | None => dflt s end end).
  { intros Hnone. unfold bA.
    assert (HinA : forall t m, afind spair_eqd (ssort2 t ALLATOMSSTR) (tmask s) = Some m ->
                   In (ssort2 t ALLATOMSSTR) A).
    { intros t m E. apply HA. split; [|apply hasall_ssort2_all]. apply Hkeys.
      apply afind_Some_In in E. now apply (in_map fst) in E. }
    assert (HA2 : forall p, In p A -> h p = true ->
              p = ssort2 ti ALLATOMSSTR \/ p = ssort2 tj ALLATOMSSTR).
    { intros p HpA Hh. apply HA in HpA as [HpA Hall]. apply Hm in Hh as [->|Hh]; auto.
      rewrite hasall_ssort2 in Hall by auto. discriminate. }
    assert (Hkt : forall t m, afind spair_eqd (ssort2 t ALLATOMSSTR) (tmask s) = Some m ->
                 In (ssort2 t ALLATOMSSTR, m) (tmask s)) by (intros; now apply afind_Some_In in H).
    destruct (afind spair_eqd (ssort2 ti ALLATOMSSTR) (tmask s)) as [m1|] eqn:E1.
    - apply fold_hit.
      + intros p HpA Hh. unfold v. destruct (HA2 p HpA Hh) as [->| ->]; [now rewrite E1|].
        destruct (afind spair_eqd (ssort2 tj ALLATOMSSTR) (tmask s)) as [m2|] eqn:E2.
        * destruct (bool_dec m2 m1) as [->|Hd]; auto. exfalso; apply Hc. exists m1.
          replace (negb m1) with m2 by (destruct m1, m2; cbn; congruence).
          repeat split; auto. now apply afind_None in Hnone.
        * apply HA in HpA as [HpA _]. apply Hkeys in HpA. apply afind_None in E2. contradiction.
      + exists (ssort2 ti ALLATOMSSTR). split; [eapply HinA; eauto|].
        apply Hm; auto. apply HA. eapply HinA; eauto.
    - destruct (afind spair_eqd (ssort2 tj ALLATOMSSTR) (tmask s)) as [m2|] eqn:E2.
      + apply fold_hit.
        * intros p HpA Hh. unfold v. destruct (HA2 p HpA Hh) as [->| ->]; [|now rewrite E2].
          apply HA in HpA as [HpA _]. apply Hkeys in HpA. apply afind_None in E1. contradiction.
        * exists (ssort2 tj ALLATOMSSTR). split; [eapply HinA; eauto|].
          apply Hm; auto. apply HA. eapply HinA; eauto.
      + apply fold_nohit. intros p HpA. destruct (h p) eqn:Hh; auto.
        apply HA in HpA as HpA'. destruct HpA' as [HpA' _]. apply Hkeys in HpA'.
        destruct (HA2 p HpA Hh) as [->| ->]; [apply afind_None in E1|apply afind_None in E2]; contradiction. }
  unfold getTypeMask.
  destruct (afind spair_eqd (ssort2 ti tj) (tmask s)) as [m|] eqn:E.
  - apply fold_hit.
    + intros p HpB Hh. apply HB in HpB as [HpB Hall]. apply Hm in Hh as [->|[->| ->]]; auto.
      * unfold v; now rewrite E.
      * rewrite hasall_ssort2_all in Hall; discriminate.
      * rewrite hasall_ssort2_all in Hall; discriminate.
    + assert (In (ssort2 ti tj) (map fst to)).
      { apply Hkeys. apply afind_Some_In in E. now apply (in_map fst) in E. }
      exists (ssort2 ti tj). split; [apply HB; split; auto using hasall_ssort2|]. apply Hm; auto.
  - rewrite fold_nohit; [now apply FA|].
    intros p HpB. destruct (h p) eqn:Hh; auto. apply HB in HpB as [HpB Hall].
    apply Hm in Hh as [->|[->| ->]]; auto.
    + apply Hkeys in HpB. apply afind_None in E. contradiction.
    + rewrite hasall_ssort2_all in Hall; discriminate.
    + rewrite hasall_ssort2_all in Hall; discriminate.
Qed.

Lemma typemask_sym s a b : reach s -> ~ type_conflict s a b -> getTypeMask s a b = getTypeMask s b a.
Proof.
  intros Hr Hc. pose proof (reach_wf _ Hr) as W. unfold getTypeMask. rewrite (ssort2_comm b a).
  destruct (afind spair_eqd (ssort2 a b) (tmask s)) eqn:E; auto.
  destruct (afind spair_eqd (ssort2 a ALLATOMSSTR) (tmask s)) as [m1|] eqn:E1,
           (afind spair_eqd (ssort2 b ALLATOMSSTR) (tmask s)) as [m2|] eqn:E2; auto.
  destruct (bool_dec m1 m2) as [|Hd]; auto. exfalso; apply Hc. exists m1.
  replace (negb m1) with m2 by (destruct m1, m2; cbn; congruence).
  repeat split; [now apply afind_None in E|now apply afind_Some_In in E1|now apply afind_Some_In in E2].
Qed.

(** setTypeMask followed by getTypeMask *)
Lemma setType_get s a b m :
  reach s -> a <> ALLATOMSSTR -> b <> ALLATOMSSTR -> a <> UPCASEALL -> b <> UPCASEALL ->
  getTypeMask (setTypeMask s a b m) a b = m /\
  (forall c d, ssort2 c d <> ssort2 a b -> getTypeMask (setTypeMask s a b m) c d = getTypeMask s c d) /\
  (forall i j, getPairMask (setTypeMask s a b m) i j = getPairMask s i j).
Proof.
  intros Hr Ha Hb Ha' Hb'. unfold setTypeMask.
  destruct (string_dec UPCASEALL a); [congruence|]. destruct (string_dec UPCASEALL b); [congruence|].
  destruct (spair_eqd _ _) as [E|E].
  { exfalso. destruct (ssort2_cases a b) as [K|K]; rewrite K in E; injection E; congruence. }
  destruct (string_dec ALLATOMSSTR a); [congruence|]. destruct (string_dec ALLATOMSSTR b); [congruence|].
  cbn [orb]. split; [|split].
  - unfold getTypeMask; cbn [tmask]. rewrite (afind_aset spair_eqd).
    destruct (spair_eqd _ _); congruence.
  - intros c d Hne. unfold getTypeMask; cbn [tmask dflt]. rewrite !(afind_aset spair_eqd).
    destruct (spair_eqd (ssort2 c d) (ssort2 a b)); [contradiction|].
    assert (Hx : forall t, ssort2 t ALLATOMSSTR <> ssort2 a b).
    { intros t H. apply ssort2_inj in H. intuition congruence. }
    destruct (spair_eqd (ssort2 c ALLATOMSSTR) (ssort2 a b)); [exfalso; eapply Hx; eauto|].
    destruct (spair_eqd (ssort2 d ALLATOMSSTR) (ssort2 a b)); [exfalso; eapply Hx; eauto|]. reflexivity.
  - reflexivity.
Qed.

(** ** Clicks *)
Definition rows (s : pq) : Prop :=
  forall k m l, In (k, m) (siteall s) -> is_site s l -> getPairMask s k l = m.

Lemma aset_In {K V} eqd (k : K) (v : V) m x y :
  NoDup (akeys m) -> In (x, y) (aset eqd k v m) -> (x = k /\ y = v) \/ (x <> k /\ In (x, y) m).
Proof.
  intros Hnd H. assert (Hnd2 : NoDup (akeys (aset eqd k v m))) by now apply NoDup_aset.
  apply (In_afind eqd) in H; auto. rewrite (afind_aset eqd) in H. destruct (eqd x k); auto.
  - left; split; congruence.
  - right; split; auto. eapply afind_Some_In; eauto.
Qed.

Lemma rows_step s o : wf s -> rows s -> order_ok s o -> cf_sites (mstep s o) -> reach s -> rows (mstep s o).
Proof.
  intros W R Ho Hcf Hr. destruct o as [m| |i j m|a b m|tps so to]; cbn [mstep] in *.
  - intros k m' l [].
  - intros k m' l Hin Hl. cbn in Hin. apply in_map_iff in Hin as [[k0 m0] [E Hin]]. cbn in E.
    injection E as <- <-. rewrite invert_pair. f_equal. apply R; auto.
  - destruct (Z_lt_le_dec i 0) as [Hi|Hi], (Z_lt_le_dec j 0) as [Hj|Hj].
    + rewrite setPair_all_all by auto. intros k m' l [].
    + (* row j *)
      intros k m' l Hin Hl. rewrite (setPair_row s i j j) by auto.
      unfold is_site, countSites in Hl. rewrite setPair_types in Hl.
      assert (Hs : siteall (setPairMask s i j m) = aset Z.eq_dec j m (siteall s)).
      { unfold setPairMask, ALLATOMSINT. replace (i <? 0) with true by lia. replace (j <? 0) with false by lia.
        replace (-1 =? j) with false by lia. reflexivity. }
      assert (m' = m).
      { eapply Hcf; [exact Hin|]. rewrite Hs. apply (afind_Some_In Z.eq_dec j).
        rewrite (afind_aset Z.eq_dec). destruct (Z.eq_dec j j); congruence. }
      subst m'. destruct (hits _ k l) eqn:Eh; auto.
      rewrite Hs in Hin. apply aset_In in Hin as [[-> _]|[_ Hin]]; [|apply R; auto|apply W].
      exfalso. assert (K : hits (map (fun l => (j, l)) (zseq (countSites s))) j l = true)
        by (apply hits_row; left; auto). congruence.
    + intros k m' l Hin Hl. rewrite (setPair_row s i j i) by auto.
      unfold is_site, countSites in Hl. rewrite setPair_types in Hl.
      assert (Hs : siteall (setPairMask s i j m) = aset Z.eq_dec i m (siteall s)).
      { unfold setPairMask, ALLATOMSINT. replace (j <? 0) with true by lia. replace (i <? 0) with false by lia.
        replace (-1 =? i) with false by lia. reflexivity. }
      assert (m' = m).
      { eapply Hcf; [exact Hin|]. rewrite Hs. apply (afind_Some_In Z.eq_dec i).
        rewrite (afind_aset Z.eq_dec). destruct (Z.eq_dec i i); congruence. }
      subst m'. destruct (hits _ k l) eqn:Eh; auto.
      rewrite Hs in Hin. apply aset_In in Hin as [[-> _]|[_ Hin]]; [|apply R; auto|apply W].
      exfalso. assert (K : hits (map (fun l => (i, l)) (zseq (countSites s))) i l = true)
        by (apply hits_row; left; auto). congruence.
    + intros k m' l Hin Hl. rewrite setPair_both by auto.
      unfold is_site, countSites in Hl. rewrite setPair_types in Hl.
      assert (Hin2 : In (k, m') (siteall s) /\ ((k = i \/ k = j) -> m' = m)).
      { revert Hin. unfold setPairMask, ALLATOMSINT.
        replace (i <? 0) with false by lia. replace (j <? 0) with false by lia.
        replace (-1 =? i) with false by lia. replace (-1 =? j) with false by lia. cbn [andb orb fst].
        pose proof (drop2_spec s m i j (negb (is_nil (tmask s))) (wf_site _ W)) as (H1 & H2 & _).
        destruct (dropSiteAll m j _) as [sa mo]. cbn [fst] in *.
        destruct (setPairMaskValue _ _ _ _ _) as [ip ch]. cbn [siteall]. apply H2. }
      destruct Hin2 as [Hin2 Hv].
      destruct (zpair_eqd (sort2 i j) (sort2 k l)) as [E|E].
      * symmetry. apply Hv. apply sort2_eq in E. destruct E as [[-> ->]|[-> ->]]; auto.
      * apply R; auto.
  - pose proof (setType_shape s a b m) as H. cbv zeta in H.
    destruct H as [->|(_ & f & _ & Hs & _)]; [intros k m' l []|].
    intros k m' l Hin. rewrite Hs in Hin. destruct Hin.
  - intros k m' l Hin Hl. cbn [setStructure siteall] in Hin. destruct Ho as [Ho1 Ho2].
    assert (Ht : tmask s = []).
    { destruct (wf_excl _ W) as [H|H]; auto. rewrite H in Hin. destruct Hin. }
    apply sites_persist; auto. intros m'' H. eapply Hcf; cbn [setStructure siteall]; eauto.
Qed.

Lemma cfreach_rows s : cfreach s -> rows s.
Proof.
  induction 1 as [|s o Hs IH Ho H1 H2].
  - intros k m l [].
  - apply rows_step; auto.
    + apply reach_wf, cfreach_reach; auto.
    + now apply cfreach_reach.
Qed.

Lemma cfreach_cf s : cfreach s -> cf_sites s /\ cf_types s.
Proof. destruct 1; auto. split; intros ? ? ? ? []. Qed.

Lemma click_same b n : click b n = n -> b = false.
Proof. destruct b; cbn; auto. lia. Qed.

Lemma maskAll_noclick s m : clicks (maskAllPairs s m) = clicks s -> same_masks s (maskAllPairs s m).
Proof.
  cbn [maskAllPairs clicks]. intros H. apply click_same in H. apply negb_false_iff in H.
  apply andb_prop in H as [H H4]. apply andb_prop in H as [H H3]. apply andb_prop in H as [H1 H2].
  apply is_nil_true in H1, H2, H3. apply eqb_prop in H4.
  split; intros.
  - rewrite !gpm_get. cbn. unfold gpm. now rewrite H1, H4.
  - unfold getTypeMask; cbn. now rewrite H3, H4.
Qed.

Lemma noclick_same s o :
  cfreach s -> (forall tps so to, o <> SetStru tps so to) ->
  clicks (mstep s o) = clicks s -> same_masks s (mstep s o).
Proof.
  intros Hcf Ho. pose proof (cfreach_rows _ Hcf) as R. pose proof (reach_wf _ (cfreach_reach _ Hcf)) as W.
  destruct (cfreach_cf _ Hcf) as [Hcs Hct].
  destruct o as [m| |i j m|a b m|tps so to]; cbn [mstep].
  - apply maskAll_noclick.
  - cbn. lia.
  - assert (Hrow : forall k, (0 <= i /\ j < 0 /\ k = i) \/ (i < 0 /\ 0 <= j /\ k = j) ->
       clicks (setPairMask s i j m) = clicks s -> same_masks s (setPairMask s i j m)).
    { intros k Hk Hc.
      assert (Hz : tmask s = [] /\ afind Z.eq_dec k (siteall s) = Some m /\
                   tmask (setPairMask s i j m) = [] /\ dflt (setPairMask s i j m) = dflt s).
      { revert Hc. unfold setPairMask, ALLATOMSINT. destruct Hk as [(Hi & Hj & ->)|(Hi & Hj & ->)].
        - replace (i <? 0) with false by lia. replace (j <? 0) with true by lia.
          replace (-1 =? i) with false by lia. cbn [andb orb negb Z.eqb Pos.eqb clicks tmask dflt].
          intros Hc. apply click_same in Hc.
          destruct (afind Z.eq_dec i (siteall s)) as [m0|]; [|discriminate].
          destruct (eqb m0 m) eqn:E; [|discriminate]. apply eqb_prop in E; subst.
          apply negb_false_iff in Hc. apply is_nil_true in Hc. auto.
        - replace (j <? 0) with false by lia. replace (i <? 0) with true by lia.
          replace (-1 =? j) with false by lia. cbn [andb orb negb Z.eqb Pos.eqb clicks tmask dflt].
          intros Hc. apply click_same in Hc.
          destruct (afind Z.eq_dec j (siteall s)) as [m0|]; [|discriminate].
          destruct (eqb m0 m) eqn:E; [|discriminate]. apply eqb_prop in E; subst.
          apply negb_false_iff in Hc. apply is_nil_true in Hc. auto. }
      destruct Hz as (Ht & Hf & Ht' & Hd). split.
      - intros x y. rewrite (setPair_row s i j k) by auto.
        destruct (hits _ x y) eqn:E; auto. apply afind_Some_In in Hf.
        apply hits_row in E. destruct E as [[<- Hy]|[<- Hx]].
        + apply R; auto.
        + rewrite getPairMask_sym. apply R; auto.
      - intros x y. unfold getTypeMask. now rewrite Ht, Ht', Hd. }
    destruct (Z_lt_le_dec i 0) as [Hi|Hi], (Z_lt_le_dec j 0) as [Hj|Hj].
    + rewrite setPair_all_all by auto. apply maskAll_noclick.
    + apply (Hrow j). auto.
    + apply (Hrow i). auto.
    + intros Hc. clear Hrow.
      assert (Hz : tmask s = [] /\ getPairMask s i j = m /\
                   tmask (setPairMask s i j m) = [] /\ dflt (setPairMask s i j m) = dflt s).
      { revert Hc. unfold setPairMask, ALLATOMSINT.
        replace (i <? 0) with false by lia. replace (j <? 0) with false by lia.
        replace (-1 =? i) with false by lia. replace (-1 =? j) with false by lia. cbn [andb orb fst].
        pose proof (drop2_spec s m i j (negb (is_nil (tmask s))) (wf_site _ W)) as (_ & _ & Hmo).
        destruct (dropSiteAll m j _) as [sa mo]. cbn [snd] in *.
        pose proof (set_changed (dflt s) (invp s) i j m) as Hch.
        destruct (setPairMaskValue _ _ _ _ _) as [ip ch]. cbn [snd] in Hch. cbn [clicks tmask dflt].
        intros Hc. apply click_same in Hc. destruct ch; [discriminate|].
        symmetry in Hch. apply negb_false_iff in Hch. apply eqb_prop in Hch.
        repeat split; auto. destruct (is_nil (tmask s)) eqn:E; [now apply is_nil_true|].
        rewrite Hmo in Hc by auto. discriminate. }
      destruct Hz as (Ht & Hf & Ht' & Hd). split.
      * intros x y. rewrite setPair_both by auto. destruct (zpair_eqd _ _) as [E|]; auto.
        apply sort2_eq in E. destruct E as [[-> ->]|[-> ->]]; auto. now rewrite getPairMask_sym.
      * intros x y. unfold getTypeMask. now rewrite Ht, Ht', Hd.
  - unfold setTypeMask.
    set (a' := if string_dec UPCASEALL a then _ else _).
    set (b' := if string_dec UPCASEALL b then _ else _).
    destruct (spair_eqd _ _) as [E|E]; [apply maskAll_noclick|].
    destruct (_ || _) eqn:Eall.
    + set (sk := if negb _ then a' else b').
      set (er := eraseitem (ssort2 a' b') sk).
      cbn [clicks]. intros Hc. apply click_same in Hc.
      destruct (afind spair_eqd (ssort2 a' b') (filter _ (tmask s))) as [m0|] eqn:Ef; [|discriminate].
      destruct (eqb m0 m) eqn:Em; [|discriminate]. apply eqb_prop in Em; subst m0.
      assert (Hab : ssort2 a' b' = ssort2 sk ALLATOMSSTR /\ sk <> ALLATOMSSTR).
      { unfold sk. destruct (string_dec ALLATOMSSTR a') as [<-|Ha]; cbn [negb].
        - split; [apply ssort2_comm|]. intros E2. apply E. rewrite E2.
          destruct (ssort2_cases ALLATOMSSTR ALLATOMSSTR) as [->| ->]; auto.
        - cbn [orb] in Eall. destruct (string_dec ALLATOMSSTR b') as [<-|]; [|discriminate]. auto. }
      destruct Hab as [Hab Hsk].
      rewrite (afind_filter spair_eqd) in Ef by apply W.
      destruct (afind spair_eqd (ssort2 a' b') (tmask s)) as [m1|] eqn:E1; [|discriminate].
      assert (m1 = m) by (destruct (negb (er _)); congruence). subst m1.
      (* what the new table answers *)
      assert (Hnew : forall p, afind spair_eqd p
          (aset spair_eqd (ssort2 a' b') m (filter (fun e => negb (er e)) (tmask s))) =
          match afind spair_eqd p (tmask s) with
          | Some v => if er (p, v) then None else Some v | None => None end).
      { intros p. rewrite (afind_aset spair_eqd). destruct (spair_eqd p (ssort2 a' b')) as [->|Hp].
        - rewrite E1. unfold er, eraseitem; cbn [fst snd]. destruct (spair_eqd _ _); [reflexivity|congruence].
        - rewrite (afind_filter spair_eqd) by apply W.
          destruct (afind spair_eqd p (tmask s)) as [v|]; auto. destruct (er (p, v)); auto. }
      assert (Hper : forall p v, er (p, v) = true <->
          p <> ssort2 sk ALLATOMSSTR /\ (sk = fst p \/ sk = snd p)).
      { intros p v. unfold er, eraseitem; cbn [fst snd]. rewrite Hab.
        destruct (spair_eqd p _) as [->|Hp]; cbn [andb]; [intuition congruence|].
        destruct (string_dec sk (fst p)), (string_dec sk (snd p)); cbn [orb]; intuition congruence. }
      assert (Hall : forall t, er (ssort2 t ALLATOMSSTR, true) = false /\ er (ssort2 t ALLATOMSSTR, false) = false).
      { intros t.
        assert (G : forall v, er (ssort2 t ALLATOMSSTR, v) = false).
        { intros v. destruct (er (ssort2 t ALLATOMSSTR, v)) eqn:Ee; auto. apply Hper in Ee as [K1 K2].
          destruct (ssort2_cases t ALLATOMSSTR) as [K|K]; rewrite K in K1, K2; cbn [fst snd] in K2;
            destruct K2 as [K2|K2]; try rewrite K2 in K1; congruence. }
        auto. }
      split; [reflexivity|]. intros x y. unfold getTypeMask; cbn [tmask dflt].
      rewrite !Hnew.
      assert (Hall' : forall t, match afind spair_eqd (ssort2 t ALLATOMSSTR) (tmask s) with
          | Some v => if er (ssort2 t ALLATOMSSTR, v) then None else Some v | None => None end =
          afind spair_eqd (ssort2 t ALLATOMSSTR) (tmask s)).
      { intros t. destruct (Hall t) as [HT HF]. destruct (afind spair_eqd (ssort2 t ALLATOMSSTR) (tmask s)) as [[|]|]; auto; rewrite ?HT, ?HF; auto. }
      rewrite !Hall'.
      destruct (afind spair_eqd (ssort2 x y) (tmask s)) as [v|] eqn:Exy; auto.
      destruct (er (ssort2 x y, v)) eqn:Ee; auto.
      assert (v = m).
      { destruct (bool_dec v m) as [|Hd]; auto. exfalso.
        assert (existsb (fun e => er e && negb (eqb m (snd e))) (tmask s) = true); [|congruence].
        apply existsb_exists. exists (ssort2 x y, v). split; [now apply afind_Some_In in Exy|].
        rewrite Ee; cbn [snd]. destruct m, v; cbn; congruence. }
      subst v. apply Hper in Ee as [K1 K2].
      assert (Hxy : x = sk \/ y = sk).
      { destruct (ssort2_cases x y) as [K|K]; rewrite K in K2; cbn [fst snd] in K2; intuition. }
      rewrite Hab in E1. destruct Hxy as [-> | ->].
      * now rewrite E1.
      * destruct (afind spair_eqd (ssort2 x ALLATOMSSTR) (tmask s)) as [v|] eqn:Ex; [|now rewrite E1].
        symmetry. eapply (Hct x sk); eapply afind_Some_In; eauto.
    + cbn [clicks]. intros Hc. apply click_same in Hc.
      destruct (afind spair_eqd (ssort2 a' b') (tmask s)) as [m0|] eqn:Ef; [|discriminate].
      destruct (eqb m0 m) eqn:Em; [|discriminate]. apply eqb_prop in Em; subst m0.
      assert (Hnew : forall p, afind spair_eqd p (aset spair_eqd (ssort2 a' b') m (tmask s)) =
                               afind spair_eqd p (tmask s)).
      { intros p. rewrite (afind_aset spair_eqd). destruct (spair_eqd p _) as [->|]; auto. }
      split; [reflexivity|]. intros x y. unfold getTypeMask; cbn [tmask dflt]. now rewrite !Hnew.
  - exfalso. eapply Ho; reflexivity.
Qed.

(** setTypeMask(a, "all", m) *)
Lemma setType_all_get s a all m :
  reach s -> a <> ALLATOMSSTR -> a <> UPCASEALL -> all = ALLATOMSSTR \/ all = UPCASEALL ->
  (forall x, getTypeMask (setTypeMask s a all m) a x = m) /\
  (forall c d, c <> a -> d <> a -> getTypeMask (setTypeMask s a all m) c d = getTypeMask s c d) /\
  (forall i j, getPairMask (setTypeMask s a all m) i j = getPairMask s i j).
Proof.
  intros Hr Ha Ha' Hall. pose proof (reach_wf _ Hr) as W. unfold setTypeMask.
  destruct (string_dec UPCASEALL a); [congruence|].
  assert (Eb : (if string_dec UPCASEALL all then ALLATOMSSTR else all) = ALLATOMSSTR).
  { destruct Hall as [-> | ->]; [destruct (string_dec _ _); auto|].
    destruct (string_dec UPCASEALL UPCASEALL); congruence. }
  rewrite Eb. clear Eb.
  destruct (spair_eqd _ _) as [E|E].
  { exfalso. destruct (ssort2_cases a ALLATOMSSTR) as [K|K]; rewrite K in E; injection E; congruence. }
  destruct (string_dec ALLATOMSSTR a); [congruence|].
  destruct (string_dec ALLATOMSSTR ALLATOMSSTR); [|congruence]. cbn [orb negb].
  set (key := ssort2 a ALLATOMSSTR). set (er := eraseitem key a).
  assert (Hnew : forall p, afind spair_eqd p
      (aset spair_eqd key m (filter (fun e => negb (er e)) (tmask s))) =
      if spair_eqd p key then Some m else
      match afind spair_eqd p (tmask s) with
      | Some v => if er (p, v) then None else Some v | None => None end).
  { intros p. rewrite (afind_aset spair_eqd). destruct (spair_eqd p key); auto.
    rewrite (afind_filter spair_eqd) by apply W.
    destruct (afind spair_eqd p (tmask s)) as [v|]; auto. destruct (er (p, v)); auto. }
  assert (Hper : forall p v, p <> key -> er (p, v) = true <-> (a = fst p \/ a = snd p)).
  { intros p v Hp. unfold er, eraseitem; cbn [fst snd].
    destruct (spair_eqd p key) as [->|_]; cbn [andb]; [congruence|].
    destruct (string_dec a (fst p)), (string_dec a (snd p)); cbn [orb]; intuition congruence. }
  split; [|split; [|reflexivity]].
  - intros x. unfold getTypeMask; cbn [tmask]. rewrite !Hnew.
    destruct (spair_eqd (ssort2 a x) key) as [|Hk]; auto.
    assert (HE : forall v, er (ssort2 a x, v) = true).
    { intros v. apply Hper; auto. destruct (ssort2_cases a x) as [-> | ->]; cbn; auto. }
    fold key. destruct (spair_eqd key key); [|congruence].
    destruct (afind spair_eqd (ssort2 a x) (tmask s)) as [v|]; auto. now rewrite HE.
  - intros c d Hc Hd. unfold getTypeMask; cbn [tmask dflt]. rewrite !Hnew.
    assert (HN : forall u v, u <> a -> v <> a -> ssort2 u v <> key /\ forall b, er (ssort2 u v, b) = false).
    { intros u v Hu Hv. assert (Hk : ssort2 u v <> key).
      { unfold key. intros K. apply ssort2_inj in K. intuition congruence. }
      split; auto. intros b. destruct (er (ssort2 u v, b)) eqn:Ee; auto.
      apply Hper in Ee; auto. destruct (ssort2_cases u v) as [K|K]; rewrite K in Ee; cbn [fst snd] in Ee;
        destruct Ee; congruence. }
    assert (HX : forall u v, u <> a -> v <> a ->
      (if spair_eqd (ssort2 u v) key then Some m
       else match afind spair_eqd (ssort2 u v) (tmask s) with
            | Some v0 => if er (ssort2 u v, v0) then None else Some v0 | None => None end) =
      afind spair_eqd (ssort2 u v) (tmask s)).
    { intros u v Hu Hv. destruct (HN u v Hu Hv) as [H1 H2].
      destruct (spair_eqd (ssort2 u v) key); [contradiction|].
      destruct (afind spair_eqd (ssort2 u v) (tmask s)) as [v0|]; auto. now rewrite H2. }
    rewrite !HX by auto. reflexivity.
Qed.

(** ** Witnesses of what conflicting wildcard masks do *)
Open Scope string_scope.

Definition steps (s : pq) (h : list mop) : pq := fold_left mstep h s.

Lemma reach_steps_nostru h : (forall o, In o h -> forall t a b, o <> SetStru t a b) -> reach (steps pq0 h).
Proof.
  intros H. unfold steps. assert (G : forall s, reach s -> reach (fold_left mstep h s)).
  { induction h as [|o h IH]; intros s Hs; cbn [fold_left]; auto.
    apply IH; [intros; apply H; now right|]. constructor; auto.
    destruct o; cbn; auto. exfalso. eapply H; [now left|reflexivity]. }
  apply G. constructor.
Qed.

Definition type_conflict_history : list mop :=
  [SetType "A" "all" true; SetType "B" "all" false].

Lemma type_asym : exists s a b, reach s /\ getTypeMask s a b <> getTypeMask s b a.
Proof.
  exists (steps pq0 type_conflict_history), "A", "B". split.
  - apply reach_steps_nostru. intros o Ho t a b ->. cbn in Ho. intuition congruence.
  - vm_compute. congruence.
Qed.

Lemma type_order_dependent : exists s tps to1 to2 i j,
  reach s /\ Permutation (tmask s) to1 /\ Permutation (tmask s) to2 /\
  getPairMask (setStructure s tps [] to1) i j <> getPairMask (setStructure s tps [] to2) i j.
Proof.
  exists (steps pq0 type_conflict_history), ["A"; "B"],
    (tmask (steps pq0 type_conflict_history)), (rev (tmask (steps pq0 type_conflict_history))), 0, 1.
  split; [|split; [|split]].
  - apply reach_steps_nostru. intros o Ho t a b ->. cbn in Ho. intuition congruence.
  - reflexivity.
  - apply Permutation_rev.
  - vm_compute. congruence.
Qed.

Definition two_sites : pq := setStructure pq0 ["A"; "B"] [] [].

Lemma two_sites_reach : reach two_sites.
Proof.
  change two_sites with (mstep pq0 (SetStru ["A"; "B"] [] [])). constructor; [constructor|].
  split; reflexivity.
Qed.

Definition site_conflict_state : pq := setPairMask (setPairMask two_sites 0 (-1) false) 1 (-1) true.

Lemma site_noclick : exists s i j m k l,
  reach s /\ clicks (setPairMask s i j m) = clicks s /\
  getPairMask (setPairMask s i j m) k l <> getPairMask s k l.
Proof.
  exists site_conflict_state, 0, (-1), false, 0, 1. split; [|split].
  - change site_conflict_state with
      (mstep (mstep two_sites (SetPair 0 (-1) false)) (SetPair 1 (-1) true)).
    repeat (constructor; [|exact I]). apply two_sites_reach.
  - reflexivity.
  - vm_compute. congruence.
Qed.

Lemma site_order_dependent : exists s tps so1 so2 i j,
  reach s /\ Permutation (siteall s) so1 /\ Permutation (siteall s) so2 /\ tmask s = [] /\
  getPairMask (setStructure s tps so1 []) i j <> getPairMask (setStructure s tps so2 []) i j.
Proof.
  exists site_conflict_state, ["A"; "B"], (siteall site_conflict_state), (rev (siteall site_conflict_state)), 0, 1.
  split; [|split; [|split; [|split]]].
  - change site_conflict_state with
      (mstep (mstep two_sites (SetPair 0 (-1) false)) (SetPair 1 (-1) true)).
    repeat (constructor; [|exact I]). apply two_sites_reach.
  - reflexivity.
  - apply Permutation_rev.
  - reflexivity.
  - vm_compute. congruence.
Qed.

Definition type_noclick_history : list mop :=
  [SetType "B" "all" false; SetType "A" "all" true; SetType "A" "B" true].
Lemma type_noclick : exists s a b m x y,
  reach s /\ clicks (setTypeMask s a b m) = clicks s /\
  getTypeMask (setTypeMask s a b m) x y <> getTypeMask s x y.
Proof.
  exists (steps pq0 type_noclick_history), "A", "all", true, "B", "A". split; [|split].
  - apply reach_steps_nostru. intros o Ho t a b ->. cbn in Ho. intuition congruence.
  - reflexivity.
  - vm_compute. congruence.
Qed.

(** C55: no mask reported means nothing is masked out. *)
Lemma hasMask_false s : hasMask s = false -> dflt s = true /\ invp s = [] /\ siteall s = [] /\ tmask s = [].
Proof.
  unfold hasMask. intros H. apply negb_false_iff in H.
  repeat (apply andb_true_iff in H; destruct H as [H ?]).
  destruct (invp s), (siteall s), (tmask s); try discriminate. auto.
Qed.
Lemma hasMask_complete s : hasMask s = false ->
  (forall i j, getPairMask s i j = true) /\ (forall a b, getTypeMask s a b = true) /\
  (forall tps so to i j, Permutation (siteall s) so -> Permutation (tmask s) to ->
     getPairMask (setStructure s tps so to) i j = true).
Proof.
  intros H. destruct (hasMask_false s H) as (Hd & Hi & Hs & Ht).
  unfold getPairMask, getTypeMask, setStructure, updateMaskData. rewrite Hd, Hi, Hs, Ht. cbn.
  split; [auto|]. split; [auto|]. intros tps so to i j P1 P2.
  apply Permutation_nil in P1, P2. subst. reflexivity.
Qed.
Lemma hasPairMask_complete s : hasPairMask s = false ->
  (forall i j, getPairMask s i j = true) \/ tmask s <> [].
Proof.
  unfold hasPairMask, hasTypeMask. intros H. apply andb_false_iff in H. destruct H as [H|H].
  - left. now apply hasMask_complete.
  - right. destruct (tmask s); [discriminate|congruence].
Qed.
