(** Proofs for DebyePDFCalculator: the structure cache and the Debye sum. *)
From Coq Require Import String.
From Verif Require Import RBase AList Trig Sums PdfGrid PdfProofs PdfMain PdfFft PdfResult Debye DebyeSpec DebyeProofs.
Open Scope R_scope.

Lemma kfirst_0 c : dsettings_ok c -> kfirst c = 0%Z.
Proof.
  intros (_ & _ & _ & _ & _ & Hq & _). unfold kfirst. pose proof eps_pos'. rewrite qminSteps_rmin by lra.
  assert (H1 : (rminSteps 0 (k_qstep c) <= 0)%Z) by (apply rminSteps_le; lra). assert (H2 := rminSteps_nonneg 0 (k_qstep c) Hq (Rle_refl 0)). lia.
Qed.
Lemma qmaxSteps_eq c : dsettings_ok c -> qmaxSteps c = rmaxSteps (k_qmax c) (k_qstep c).
Proof. intros (_ & _ & _ & _ & _ & Hq & _). unfold qmaxSteps. pose proof eps_pos'. destruct (Rleb (k_qstep c) 0) eqn:E; [apply Rleb_true in E; lra|reflexivity]. Qed.
Lemma qmaxSteps_nonneg c : dsettings_ok c -> (0 <= qmaxSteps c)%Z.
Proof. intros H. rewrite qmaxSteps_eq by exact H. destruct H as (_ & _ & _ & _ & Hm & Hq & _). pose proof eps_pos'. apply rmaxSteps_nonneg; lra. Qed.
Lemma qmaxSteps_lt' c k : dsettings_ok c -> ((k < qmaxSteps c)%Z <-> IZR k * k_qstep c < k_qmax c).
Proof. intros H. rewrite qmaxSteps_eq by exact H. destruct H as (_ & _ & _ & _ & _ & Hq & _). pose proof eps_pos'. apply rmaxSteps_lt. lra. Qed.

(** *** Types of the sites *)
Lemma first_site_same s j m : (j < m)%nat -> d_type s j = d_type s m -> first_site s m = first_site s j.
Proof.
  intros Hj E. unfold first_site. rewrite <- E. replace m with (j + S (m - j - 1))%nat at 2 by lia. rewrite seq_app, filter_app.
  cbn [seq filter Nat.add]. destruct (string_dec (d_type s j) (d_type s j)); [|congruence].
  now destruct (filter (fun j0 => if string_dec (d_type s j0) (d_type s j) then true else false) (seq 0 j)).
Qed.
Lemma filter_nil_ {A} (p : A -> bool) l : (forall x, In x l -> p x = false) -> filter p l = [].
Proof. induction l as [|x l IH]; intros H; cbn; [auto|]. rewrite H by (now left). apply IH. intros. apply H. now right. Qed.
Lemma first_site_new s m : (forall j, (j < m)%nat -> d_type s j <> d_type s m) -> first_site s m = m.
Proof.
  intros H. unfold first_site. rewrite filter_nil_; [reflexivity|]. intros j Hj. apply in_seq in Hj. destruct (string_dec _ _); [|reflexivity].
  exfalso. apply (H j); [lia|auto].
Qed.
Lemma first_site_spec s i : (first_site s i <= i)%nat /\ d_type s (first_site s i) = d_type s i /\
  forall j, (j < first_site s i)%nat -> d_type s j <> d_type s i.
Proof.
  induction i as [i IH] using lt_wf_ind.
  destruct (existsb (fun j => if string_dec (d_type s j) (d_type s i) then true else false) (seq 0 i)) eqn:E.
  - apply existsb_exists in E. destruct E as (j & Hj & E). apply in_seq in Hj. destruct (string_dec _ _) as [e|]; [|discriminate].
    assert (Hj' : (j < i)%nat) by lia. destruct (IH j Hj') as (H1 & H2 & H3). rewrite (first_site_same s j i Hj' e). rewrite <- e.
    split; [lia|]. split; assumption.
  - assert (Hn : forall j, (j < i)%nat -> d_type s j <> d_type s i).
    { intros j Hj e. assert (Ht : existsb (fun j => if string_dec (d_type s j) (d_type s i) then true else false) (seq 0 i) = true); [|congruence].
      apply existsb_exists. exists j. split; [apply in_seq; lia|]. destruct (string_dec _ _); congruence. }
    rewrite (first_site_new s i Hn). repeat split; auto.
Qed.
Record tinv (c : dconf) (s : dstru) (m : nat) (idx : list (string * nat)) (tos : list nat) (sft : list (list R)) : Prop := {
  t_tos : length tos = m;
  t_idx : length idx = length sft;
  t_site : forall i, (i < m)%nat -> afind string_dec (d_type s i) idx = Some (nth i tos 0%nat) /\ (nth i tos 0 < length sft)%nat /\
             nth (nth i tos 0%nat) sft [] = sfarray c s (first_site s i);
  t_all : forall a k, afind string_dec a idx = Some k -> exists i, (i < m)%nat /\ d_type s i = a }.
Lemma afind_None_aset_length a k (l : list (string * nat)) : afind string_dec a l = None -> length (aset string_dec a k l) = S (length l).
Proof.
  induction l as [|[b v] l IH]; cbn; [auto|]. destruct (string_dec a b); [discriminate|]. intros H. cbn. now rewrite IH.
Qed.
Lemma type_step_inv c s m idx tos sft : tinv c s m idx tos sft ->
  let '(idx', tos', sft') := type_step c s (idx, tos, sft) m in tinv c s (S m) idx' tos' sft'.
Proof.
  intros [H1 H2 H3 H4]. unfold type_step. destruct (afind string_dec (d_type s m) idx) as [k|] eqn:E.
  - rewrite E. destruct (H4 _ _ E) as (j & Hj & Ej). destruct (H3 j Hj) as (A1 & A2 & A3). rewrite Ej, E in A1. injection A1 as A1.
    rewrite A1. destruct (Nat.ltb_spec (nth j tos 0%nat) (length sft)); [|lia]. split; auto.
    + rewrite app_length. cbn. lia.
    + intros i Hi. destruct (Nat.eq_dec i m) as [->|]; [|rewrite app_nth1 by lia; apply H3; lia].
      rewrite app_nth2 by lia. replace (m - length tos)%nat with 0%nat by lia. cbn [nth]. rewrite E, A1. split; [auto|]. split; [auto|].
      rewrite A3. f_equal. symmetry. now apply first_site_same.
    + intros a k' Ha. destruct (H4 a k' Ha) as (i & Hi & Ei). exists i. split; [lia|auto].
  - rewrite afind_aset. destruct (string_dec (d_type s m) (d_type s m)); [|congruence].
    destruct (Nat.ltb_spec (length idx) (length sft)); [lia|]. split.
    + rewrite app_length. cbn. lia.
    + rewrite afind_None_aset_length by exact E. rewrite app_length. cbn. lia.
    + assert (Hn : forall j, (j < m)%nat -> d_type s j <> d_type s m). { intros j Hj Ej. destruct (H3 j Hj) as (A & _). rewrite Ej, E in A. discriminate. }
      intros i Hi. rewrite app_length. cbn [length]. destruct (Nat.eq_dec i m) as [->|].
      * rewrite (app_nth2 tos) by lia. replace (m - length tos)%nat with 0%nat by lia. cbn [nth]. rewrite afind_aset.
        destruct (string_dec (d_type s m) (d_type s m)); [|congruence]. split; [auto|]. split; [lia|].
        rewrite app_nth2 by lia. replace (length idx - length sft)%nat with 0%nat by lia. cbn. now rewrite first_site_new.
      * rewrite (app_nth1 tos) by lia. destruct (H3 i ltac:(lia)) as (A1 & A2 & A3). rewrite afind_aset.
        destruct (string_dec (d_type s i) (d_type s m)) as [e1|]; [exfalso; apply (Hn i); [lia|auto]|]. split; [auto|]. split; [lia|]. now rewrite app_nth1.
    + intros a k' Ha. rewrite afind_aset in Ha. destruct (string_dec a (d_type s m)) as [->|]; [exists m; auto|].
      destruct (H4 a k' Ha) as (i & Hi & Ei). exists i. split; [lia|auto].
Qed.
Lemma cacheTypes_inv c s : exists idx, tinv c s (d_n s) idx (fst (cacheTypes c s)) (snd (cacheTypes c s)).
Proof.
  unfold cacheTypes. assert (H : forall m, let '(idx, tos, sft) := fold_left (type_step c s) (seq 0 m) ([], [], []) in tinv c s m idx tos sft).
  { induction m as [|m IH]; [constructor; cbn; auto; [intros; lia|discriminate]|].
    rewrite seq_S, fold_left_app. cbn [fold_left Nat.add]. destruct (fold_left (type_step c s) (seq 0 m) ([], [], [])) as [[idx tos] sft].
    now apply type_step_inv. }
  specialize (H (d_n s)). destruct (fold_left (type_step c s) (seq 0 (d_n s)) ([], [], [])) as [[idx tos] sft]. exists idx. exact H.
Qed.
(** scattering factor the calculator uses for site i: the one of the first site of the same type *)
Definition used_sf (c : dconf) (s : dstru) (i : nat) (q : R) : R := own_sf c s (first_site s i) q.
Lemma used_own c s i q : occ_by_type s -> (i < d_n s)%nat -> used_sf c s i q = own_sf c s i q.
Proof.
  intros H Hi. destruct (first_site_spec s i) as (H1 & H2 & _). unfold used_sf, own_sf. rewrite H2. f_equal. apply H; [lia|auto|auto].
Qed.
Lemma sfarray_nth c s i k : dsettings_ok c -> (k < Z.to_nat (qmaxSteps c))%nat -> nth k (sfarray c s i) 0 = own_sf c s i (INR k * k_qstep c).
Proof.
  intros Hc Hk. unfold sfarray. rewrite kfirst_0 by exact Hc. rewrite map_zrange by (now apply qmaxSteps_nonneg). rewrite nth_map_seq by exact Hk.
  destruct (Z.leb_spec 0 (Z.of_nat k)); [|lia]. unfold sfSiteAtQ, own_sf. rewrite <- INR_IZR_INZ, Rmult_comm with (r1 := k_qstep c). reflexivity.
Qed.
Lemma sfSite_eq x i k : dsettings_ok (dc x) -> dsc x = cacheStructureData (dc x) (ds x) -> (i < d_n (ds x))%nat -> (0 <= k < qmaxSteps (dc x))%Z ->
  sfSiteAtkQ x i k = used_sf (dc x) (ds x) i (IZR k * k_qstep (dc x)).
Proof.
  intros Hc Hs Hi Hk. unfold sfSiteAtkQ. rewrite Hs. unfold cacheStructureData. destruct (cacheTypes_inv (dc x) (ds x)) as [idx [_ _ H3 _]].
  destruct (cacheTypes (dc x) (ds x)) as [tos sft]. cbn [fst snd] in H3. cbn [typeofsite sftypeatkq]. destruct (H3 i Hi) as (_ & _ & ->).
  rewrite sfarray_nth by (auto; lia). unfold used_sf. now rewrite INR_IZR by lia.
Qed.
Lemma tpmult_sum s tos tp : tpmultipl s tos tp = sumf (fun i => if (nth i tos 0 =? tp)%nat then INR (d_mult s i) else 0) (seq 0 (d_n s)).
Proof.
  unfold tpmultipl. transitivity (fold_left (fun t i => t + (if (nth i tos 0 =? tp)%nat then INR (d_mult s i) else 0)) (seq 0 (d_n s)) 0).
  - assert (H : forall l a, fold_left (fun t i => if (nth i tos 0 =? tp)%nat then t + INR (d_mult s i) else t) l a =
      fold_left (fun t i => t + (if (nth i tos 0 =? tp)%nat then INR (d_mult s i) else 0)) l a); [|apply H].
    induction l as [|i l IH]; intros a; cbn [fold_left]; [auto|]. rewrite IH. f_equal. destruct (nth i tos 0 =? tp)%nat; lra.
  - rewrite fold_plus. lra.
Qed.
Lemma average_eq c s k : dsettings_ok c -> (0 <= k < qmaxSteps c)%Z ->
  nth (Z.to_nat k) (sfaverageatkq (cacheStructureData c s)) 0 =
  (if eps_gt (atoms s) 0 SQRT_DOUBLE_EPS then 1 / atoms s else 1) * sumf (fun i => used_sf c s i (IZR k * k_qstep c) * INR (d_mult s i)) (seq 0 (d_n s)).
Proof.
  intros Hc Hk. unfold cacheStructureData. destruct (cacheTypes_inv c s) as [idx [_ _ H3 _]].
  destruct (cacheTypes c s) as [tos sft]. cbn [fst snd] in H3. cbn [sfaverageatkq]. rewrite nth_map_seq by lia.
  unfold totalOccupancy. rewrite fold_plus, Rplus_0_l. fold (atoms s). f_equal.
  rewrite fold_plus, Rplus_0_l.
  rewrite (sumf_ext _ (fun tp => sumf (fun i => if (nth i tos 0 =? tp)%nat then nth (Z.to_nat k) (nth tp sft []) 0 * INR (d_mult s i) else 0) (seq 0 (d_n s)))).
  2:{ intros tp _. rewrite tpmult_sum, <- sumf_scale. apply sumf_ext. intros i _. destruct (_ =? _)%nat; lra. }
  rewrite sumf_swap. apply sumf_ext. intros i Hi. apply in_seq in Hi. destruct (H3 i ltac:(lia)) as (_ & H & E).
  rewrite (sumf_pick (fun tp => nth (Z.to_nat k) (nth tp sft []) 0 * INR (d_mult s i)) _ _ H). rewrite E, sfarray_nth by (auto; lia). rewrite INR_IZR by lia. reflexivity.
Qed.
Lemma total_eq c s : totaloccupancy (cacheStructureData c s) = atoms s.
Proof. unfold cacheStructureData. destruct (cacheTypes c s). cbn. unfold totalOccupancy. now rewrite fold_plus, Rplus_0_l. Qed.
Lemma average_length c s : length (sfaverageatkq (cacheStructureData c s)) = Z.to_nat (qmaxSteps c).
Proof. unfold cacheStructureData. destruct (cacheTypes c s). cbn. now rewrite map_length, seq_length. Qed.

(** *** The sum *)
Lemma sine_loop_spec x b z : forall n a v, (0 <= a)%Z -> Z.of_nat n = (qmaxSteps (dc x) - a)%Z -> Z.of_nat (length v) = qmaxSteps (dc x) ->
  exists w, sine_loop x b z (zrange a (qmaxSteps (dc x))) v = Ok w /\ length w = length v /\ forall k, (0 <= k < qmaxSteps (dc x))%Z ->
    nth (Z.to_nat k) w 0 = nth (Z.to_nat k) v 0 +
      (if (a <=? k)%Z && forallb (fun j => Rltb (k_prec (dc x)) (Rabs (sinescale x b z j))) (zrange a (k + 1))
       then sinescale x b z k * sin (IZR k * k_qstep (dc x) * b_dist b) else 0).
Proof.
  induction n as [|n IH]; intros a v Ha Hn Hv.
  - rewrite zrange_nil by lia. exists v. split; [reflexivity|]. split; [reflexivity|]. intros k Hk. destruct (Z.leb_spec a k); [lia|]. cbn. lra.
  - rewrite zrange_cons by lia. cbn [sine_loop]. unfold eps_eq. rewrite Rminus_0_l, Rabs_Ropp.
    destruct (Rleb (Rabs (sinescale x b z a)) (k_prec (dc x))) eqn:E.
    + exists v. split; [reflexivity|]. split; [reflexivity|]. intros k Hk. destruct (Z.leb_spec a k); [|cbn; lra].
      rewrite zrange_cons by lia. cbn [forallb]. apply Rleb_true in E. replace (Rltb _ _) with false; [cbn; lra|]. symmetry. now apply Rltb_false.
    + rewrite addat_ok by lia. cbn [bind]. set (v' := upd _ _ v). assert (Hl : length v' = length v) by apply upd_length.
      destruct (IH (a + 1)%Z v') as (w & E1 & E2 & E3); [lia|lia|lia|]. exists w. split; [exact E1|]. split; [lia|]. intros k Hk. rewrite E3 by exact Hk.
      unfold v'. rewrite nth_updR by lia. apply Rleb_false in E. apply Rltb_true in E.
      destruct (Z.leb_spec a k).
      * rewrite (zrange_cons a (k + 1)) by lia. cbn [forallb]. rewrite E. cbn [andb].
        destruct (Nat.eqb_spec (Z.to_nat k) (Z.to_nat a)) as [e|e].
        -- assert (k = a) by lia. subst k. destruct (Z.leb_spec (a + 1) a); [lia|]. rewrite (zrange_nil (a + 1)) by lia. cbn. lra.
        -- destruct (Z.leb_spec (a + 1) k); [|lia]. reflexivity.
      * destruct (Z.leb_spec (a + 1) k); [lia|]. destruct (Nat.eqb_spec (Z.to_nat k) (Z.to_nat a)); [lia|]. cbn. lra.
Qed.
(** state after the structure was set: the arrays belong to the settings and the structure *)
Definition fits (x : deb) : Prop := dsettings_ok (dc x) /\ dsc x = cacheStructureData (dc x) (ds x) /\ length (dval x) = Z.to_nat (qmaxSteps (dc x)).
Lemma fits_len x : fits x -> Z.of_nat (length (dval x)) = qmaxSteps (dc x).
Proof. intros (H & _ & ->). pose proof (qmaxSteps_nonneg _ H). lia. Qed.
Lemma sinescale_amp x b z k : fits x -> (b_s0 b < d_n (ds x))%nat -> (b_s1 b < d_n (ds x))%nat -> (0 <= k < qmaxSteps (dc x))%Z ->
  sinescale x b z k = amplitude (used_sf (dc x) (ds x)) b z (IZR k * k_qstep (dc x)).
Proof.
  intros (Hc & Hs & _) H0 H1 Hk. unfold sinescale, amplitude. rewrite !sfSite_eq by auto. unfold dwsigma.
  replace (- / 2 * (1 / (2 * sqrt (2 * ln 2)) * b_fwhm b * (IZR k * k_qstep (dc x))) ^ 2)
    with (- (b_fwhm b / (2 * sqrt (2 * ln 2)) * (IZR k * k_qstep (dc x))) ^ 2 / 2) by (unfold Rdiv; ring).
  unfold Rdiv. ring.
Qed.
Definition term (c : dconf) (s : dstru) (e : pbond * Z) (k : Z) : R :=
  if apart (fst e) && kept (used_sf c s) (k_prec c) (k_qstep c) (fst e) (snd e) k
  then amplitude (used_sf c s) (fst e) (snd e) (IZR k * k_qstep c) * sin (IZR k * k_qstep c * b_dist (fst e)) else 0.
Lemma addPair_ok x b z : fits x -> (b_s0 b < d_n (ds x))%nat -> (b_s1 b < d_n (ds x))%nat ->
  exists v, addPair x b z = Ok v /\ length v = length (dval x) /\ forall k, (0 <= k < qmaxSteps (dc x))%Z ->
    nth (Z.to_nat k) v 0 = nth (Z.to_nat k) (dval x) 0 + term (dc x) (ds x) (b, z) k.
Proof.
  intros Hx H0 H1. pose proof (fits_len x Hx) as Hl. unfold addPair, term, apart, eps_eq. cbn [fst snd]. rewrite Rminus_0_l, Rabs_Ropp.
  destruct (Rleb (Rabs (b_dist b)) SQRT_DOUBLE_EPS) eqn:E.
  - exists (dval x). split; [reflexivity|]. split; [reflexivity|]. intros k Hk. apply Rleb_true, Rltb_false in E. rewrite E. cbn. lra.
  - apply Rleb_false, Rltb_true in E. rewrite E. rewrite kfirst_0 by apply Hx.
    destruct (sine_loop_spec x b z (length (dval x)) 0 (dval x)) as (w & E1 & E2 & E3); [lia|lia|lia|]. exists w. split; [exact E1|]. split; [exact E2|].
    intros k Hk. rewrite E3 by exact Hk. f_equal. destruct (Z.leb_spec 0 k); [|lia]. cbn [andb].
    rewrite (sinescale_amp x b z k) by auto. unfold kept.
    replace (forallb (fun j => Rltb (k_prec (dc x)) (Rabs (sinescale x b z j))) (zrange 0 (k + 1)))
      with (forallb (fun j => Rltb (k_prec (dc x)) (Rabs (amplitude (used_sf (dc x) (ds x)) b z (IZR j * k_qstep (dc x))))) (zrange 0 (k + 1))); [reflexivity|].
    assert (HE : forall l, (forall j, In j l -> (0 <= j < qmaxSteps (dc x))%Z) ->
      forallb (fun j => Rltb (k_prec (dc x)) (Rabs (amplitude (used_sf (dc x) (ds x)) b z (IZR j * k_qstep (dc x))))) l =
      forallb (fun j => Rltb (k_prec (dc x)) (Rabs (sinescale x b z j))) l).
    { induction l as [|j l IH]; intros Hj; cbn [forallb]; [auto|]. rewrite (sinescale_amp x b z j) by (auto; apply Hj; now left). f_equal. apply IH. intros. apply Hj. now right. }
    apply HE. intros j Hj. apply zrange_In in Hj. lia.
Qed.
Lemma fits_val x v : fits x -> length v = length (dval x) -> fits (with_dval x v).
Proof. intros (H1 & H2 & H3) E. split; [exact H1|]. split; [exact H2|]. cbn. now rewrite E. Qed.
Lemma addPairs_ok t : forall x, fits x -> pairs_ok (ds x) t -> exists v, addPairs x t = Ok (with_dval x v) /\ length v = length (dval x) /\
  forall k, (0 <= k < qmaxSteps (dc x))%Z -> nth (Z.to_nat k) v 0 = nth (Z.to_nat k) (dval x) 0 + sumf (fun e => term (dc x) (ds x) e k) t.
Proof.
  induction t as [|[b z] t IH]; intros x Hx Ht.
  - exists (dval x). split; [unfold addPairs; cbn; now destruct x|]. split; [reflexivity|]. intros. rewrite sumf_nil. lra.
  - destruct (Ht b z) as [H0 H1]; [now left|]. destruct (addPair_ok x b z Hx H0 H1) as (v & E & El & Ev).
    destruct (IH (with_dval x v)) as (w & F & Fl & Fv); [now apply fits_val|intros b' z' Hb; apply (Ht b' z'); now right|].
    exists w. unfold addPairs in *. cbn [fold_left fst snd]. rewrite E. split; [exact F|]. cbn [with_dval dval] in Fl. split; [congruence|].
    intros k Hk. rewrite Fv by exact Hk. cbn [with_dval dval dc ds]. rewrite Ev by exact Hk. rewrite sumf_cons. lra.
Qed.
Lemma term_sum c s t k : sumf (fun e => term c s e k) t = debye_cut (used_sf c s) (k_prec c) (k_qstep c) t k.
Proof. reflexivity. Qed.
