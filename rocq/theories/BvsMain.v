(** Proofs for BVSCalculator: precision cutoff, sums per site, deviations. *)
From Coq Require Import Ascii String.
From Verif Require Import RBase Sums Bvs BvsSpec BvsProofs BvsTable.
Open Scope R_scope.
Open Scope list_scope.

(** *** Precision cutoff *)
Lemma pairs_from_In {A} (l : list A) x y : In x l -> In y l -> In (x, y) (pairs_from l) \/ In (y, x) (pairs_from l).
Proof.
  induction l as [|z l IH]; [easy|]. intros Hx Hy. cbn [pairs_from]. rewrite !in_app_iff, !in_map_iff.
  destruct Hx as [->|Hx], Hy as [->|Hy].
  - left. left. exists y. split; [reflexivity|now left].
  - left. left. exists y. split; [reflexivity|now right].
  - right. left. exists x. split; [reflexivity|now right].
  - destruct (IH Hx Hy); auto.
Qed.
Lemma bvinsert_mono q l x : In x l -> In x (bvinsert q l).
Proof. unfold bvinsert. destruct (bvfind q l); [auto|now right]. Qed.
(** all members of the set come from lookups *)
Definition from_table (t : bvtable) (l : list bvparam) : Prop := forall q, In q l -> q = bvnone \/ findk t (key_of q) = Some q.
Lemma used_spec t (ps : list ((str * Z) * (str * Z))) : forall l0, from_table t l0 ->
  let l := fold_left (fun l '((a0, v0), (a1, v1)) => bvinsert (match lookup t a0 v0 a1 v1 with Some p => p | None => bvnone end) l) ps l0 in
  from_table t l /\ (forall x, In x l0 -> In x l) /\
  forall a0 v0 a1 v1 p, In ((a0, v0), (a1, v1)) ps -> lookup t a0 v0 a1 v1 = Some p -> matom0 p <> [] \/ matom1 p <> [] -> In p l.
Proof.
  induction ps as [|[[a0 v0] [a1 v1]] ps IH]; intros l0 H0; cbn [fold_left].
  - repeat split; auto. intros a0 v0 a1 v1 p [].
  - set (q := match lookup t a0 v0 a1 v1 with Some p => p | None => bvnone end).
    assert (H1 : from_table t (bvinsert q l0)).
    { intros x. unfold bvinsert. destruct (bvfind q l0); [apply H0|]. intros [<-|Hx]; [|now apply H0]. unfold q.
      destruct (lookup t a0 v0 a1 v1) as [p|] eqn:E; [|now left]. right. now apply lookup_found in E. }
    destruct (IH _ H1) as (IHa & IHb & IHc). split; [exact IHa|]. split.
    + intros x Hx. apply IHb. now apply bvinsert_mono.
    + intros b0 w0 b1 w1 p [E|Hp] Hl Hne; [|eapply IHc; eauto]. injection E as -> -> -> ->. apply IHb.
      unfold q. rewrite Hl. unfold bvinsert. rewrite bvfind_k. destruct (kfind (key_of p) l0) as [x|] eqn:Ek; [|now left].
      apply kfind_key in Ek as [Ek Hx]. destruct (H0 _ Hx) as [->|Hf].
      * unfold key_of in Ek. cbn in Ek. injection Ek as E1 _ E2 _. destruct Hne as [N|N]; congruence.
      * rewrite Ek in Hf. apply lookup_found in Hl as [Hl _]. rewrite Hl in Hf. now injection Hf as ->.
Qed.
Lemma rmax_fold eps l : forall r0 p, r0 <= fold_left (fun rv p => Rmax rv (bondvalenceToDistance p eps)) l r0 /\
  (In p l -> bondvalenceToDistance p eps <= fold_left (fun rv p => Rmax rv (bondvalenceToDistance p eps)) l r0).
Proof.
  induction l as [|q l IH]; intros r0 p; cbn [fold_left]; [split; [lra|easy]|].
  destruct (IH (Rmax r0 (bondvalenceToDistance q eps)) p) as [H1 H2]. split.
  - eapply Rle_trans; [apply Rmax_l|exact H1].
  - intros [->|Hp]; [eapply Rle_trans; [apply Rmax_r|exact H1]|auto].
Qed.
Lemma dropped_small c s ord i j d : enumerates c s ord -> 0 < bprec c -> (i < bn s)%nat -> (j < bn s)%nat -> ordered_pair c s i j ->
  baresymbol c s i <> [] -> baresymbol c s j <> [] -> d <= brmax c -> getRmaxUsed c ord < d -> bond c s i j d < bprec c.
Proof.
  intros Ho He Hi Hj Hp Ni Nj Hd Hcut.
  assert (Hcut' : rmaxFromPrecision c ord (bprec c) < d).
  { unfold getRmaxUsed in Hcut. unfold Rmin in Hcut. destruct (Rle_dec _ _); lra. }
  unfold bond. destruct (lookup _ _ _ _ _) as [p|] eqn:E; [|exact He].
  apply bv_cut; [exact He|]. eapply Rle_lt_trans; [|exact Hcut'].
  assert (Hne : matom0 p <> [] \/ matom1 p <> []).
  { destruct (lookup_found _ _ _ _ _ _ E) as [_ Hk]. unfold bond_key in Hk. destruct (_ <? _)%Z in Hk; cbn [k9] in Hk; unfold key_of in Hk;
      destruct Hk as [Hk|Hk]; injection Hk as -> _ -> _; auto. }
  unfold rmaxFromPrecision. apply rmax_fold. unfold bpused.
  destruct (used_spec (btab c) (pairs_from ord) []) as (_ & _ & HU); [intros q []|].
  destruct (pairs_from_In ord (baresymbol c s i, valence c s i) (baresymbol c s j, valence c s j)) as [H|H].
  - apply Ho. eauto.
  - apply Ho. eauto.
  - eapply HU; eauto.
  - eapply HU; eauto. rewrite lookup_sym; auto. destruct Hp as [Hp|Hp]; [left; congruence|right; congruence].
Qed.

(** *** Sums *)
Lemma fold_adds {A} (n k : nat) (step : list R -> A -> list R) (g : A -> R) l :
  (forall v x, In x l -> length v = n -> length (step v x) = n /\ nth k (step v x) 0 = nth k v 0 + g x) ->
  forall v, length v = n -> length (fold_left step l v) = n /\ nth k (fold_left step l v) 0 = nth k v 0 + sumf g l.
Proof.
  induction l as [|x l IH]; intros H v Hv; cbn [fold_left]; [split; [easy|rewrite sumf_nil; lra]|].
  destruct (H v x) as [H1 H2]; [now left|easy|]. destruct (IH (fun v x Hx => H v x (or_intror Hx)) (step v x) H1) as [H3 H4].
  split; [exact H3|]. rewrite H4, H2, sumf_cons. lra.
Qed.
Lemma addat_nth v i y k : (i < length v)%nat -> nth k (addat v i y) 0 = nth k v 0 + (if (i =? k)%nat then y else 0).
Proof.
  unfold addat. revert i k. induction v as [|x v IH]; intros i k Hi; [cbn in Hi; lia|]. destruct i as [|i], k as [|k]; cbn; try lra.
  - cbn in Hi. rewrite IH by lia. lra.
Qed.
Lemma addat_length v i y : length (addat v i y) = length v.
Proof. apply upd_length. Qed.
Lemma addPair_nth c s v i0 i1 d z k : (i0 < length v)%nat -> (i1 < length v)%nat ->
  length (addPair c s v i0 i1 d z) = length v /\
  nth k (addPair c s v i0 i1 d z) 0 = nth k v 0 + IZR z / 2 * bond c s i0 i1 d *
    ((if (i0 =? k)%nat then sgn (valence c s i0) * bocc s i1 else 0) + (if (i1 =? k)%nat then sgn (valence c s i1) * bocc s i0 else 0)).
Proof.
  intros H0 H1. unfold addPair, bond, sgn. destruct (lookup _ _ _ _ _) as [p|].
  - rewrite !addat_length, !addat_nth; rewrite ?addat_length; auto. split; [reflexivity|].
    destruct (i0 =? k)%nat, (i1 =? k)%nat, (0 <=? valence c s i0)%Z, (0 <=? valence c s i1)%Z; field.
  - split; [reflexivity|]. destruct (i0 =? k)%nat, (i1 =? k)%nat; field.
Qed.
Lemma gbonds_sum s rm i j f : lengths_ok s -> sumf f (gbonds s (0, rm) i j) = sumf (fun d => if Rle_dec d rm then f d else 0) (bdist s i j).
Proof.
  intros Hl. unfold gbonds. rewrite sumf_filter. apply sumf_ext. intros d Hd. unfold in_limits. cbn [fst snd]. apply Hl in Hd.
  rewrite (proj2 (Rleb_true 0 d) Hd). cbn. unfold Rleb. now destruct (Rle_dec d rm).
Qed.
Definition pair_term (c : bvs) (s : bstru) (rm : R) (k : nat) (i0 i1 : nat) : R :=
  bonds_upto c s rm i0 i1 * ((if (i0 =? k)%nat then sgn (valence c s i0) * bocc s i1 else 0) + (if (i1 =? k)%nat then sgn (valence c s i1) * bocc s i0 else 0)).
Definition scale_of (full : bool) (i0 i1 : nat) : Z := if full || (i0 =? i1)%nat then 1%Z else 2%Z.
Lemma eval_nth c ord s full k : lengths_ok s -> (k < bn s)%nat ->
  length (bvs_eval c ord s full) = bn s /\
  nth k (bvs_eval c ord s full) 0 =
    sumf (fun i0 => sumf (fun i1 => IZR (scale_of full i0 i1) / 2 * pair_term c s (getRmaxUsed c ord) k i0 i1) (seq 0 (if full then bn s else S i0))) (seq 0 (bn s)).
Proof.
  intros Hl Hk. unfold bvs_eval.
  match goal with |- context [fold_left ?F (seq 0 (bn s)) _] => set (step := F) end.
  set (g := fun i0 => sumf (fun i1 => IZR (scale_of full i0 i1) / 2 * pair_term c s (getRmaxUsed c ord) k i0 i1) (seq 0 (if full then bn s else S i0))).
  destruct (fold_adds (bn s) k step g (seq 0 (bn s))) with (v := repeat 0 (bn s)) as [H1 H2].
  - intros v i0 Hi0 Hv. apply in_seq in Hi0. unfold step, g.
    apply fold_adds; [|exact Hv]. intros w i1 Hi1 Hw. apply in_seq in Hi1.
    assert (i1 < bn s)%nat by (destruct full; lia).
    destruct (fold_adds (bn s) k (fun v d => addPair c s v i0 i1 d (if full || (i0 =? i1)%nat then 1%Z else 2%Z))
      (fun d => IZR (scale_of full i0 i1) / 2 * bond c s i0 i1 d *
        ((if (i0 =? k)%nat then sgn (valence c s i0) * bocc s i1 else 0) + (if (i1 =? k)%nat then sgn (valence c s i1) * bocc s i0 else 0)))
      (gbonds s (bvsLimits c ord) i0 i1)) with (v := w) as [H3 H4]; [|exact Hw|].
    { intros u d _ Hu. rewrite <- Hu. apply addPair_nth; lia. }
    split; [exact H3|]. rewrite H4. f_equal. unfold pair_term, bonds_upto, bvsLimits. rewrite gbonds_sum by exact Hl.
    set (q := (if (i0 =? k)%nat then _ else _) + _). rewrite <- Rmult_assoc, (Rmult_comm _ q), <- sumf_scale, <- sumf_scale. apply sumf_ext. intros d _.
    destruct (Rle_dec d (getRmaxUsed c ord)); ring.
  - now rewrite repeat_length.
  - split; [exact H1|]. rewrite H2. rewrite nth_repeat. unfold g. lra.
Qed.
Lemma sumf_pick' (f : nat -> R) k n : (k < n)%nat -> sumf (fun i => if (i =? k)%nat then f i else 0) (seq 0 n) = f k.
Proof. intros H. rewrite <- (sumf_pick f k n H). apply sumf_ext. intros i _. now rewrite Nat.eqb_sym. Qed.
(** sum over ordered pairs with weights w that vanish outside the loop *)
Lemma pair_sum c s rm k (w : nat -> nat -> R) : (k < bn s)%nat ->
  sumf (fun i0 => sumf (fun i1 => w i0 i1 * pair_term c s rm k i0 i1) (seq 0 (bn s))) (seq 0 (bn s)) =
  sgn (valence c s k) * sumf (fun j => bocc s j * (w k j * bonds_upto c s rm k j + w j k * bonds_upto c s rm j k)) (seq 0 (bn s)).
Proof.
  intros Hk. unfold pair_term.
  rewrite (sumf_ext _ (fun i0 => (if (i0 =? k)%nat then sgn (valence c s i0) * sumf (fun i1 => bocc s i1 * (w i0 i1 * bonds_upto c s rm i0 i1)) (seq 0 (bn s)) else 0)
     + sgn (valence c s k) * (bocc s i0 * (w i0 k * bonds_upto c s rm i0 k)))).
  - rewrite sumf_plus, sumf_pick' by exact Hk. rewrite sumf_scale, <- Rmult_plus_distr_l, <- sumf_plus. f_equal. apply sumf_ext. intros; ring.
  - intros i0 _. rewrite (sumf_ext _ (fun i1 => (if (i0 =? k)%nat then sgn (valence c s i0) * (bocc s i1 * (w i0 i1 * bonds_upto c s rm i0 i1)) else 0)
      + (if (i1 =? k)%nat then sgn (valence c s i1) * (bocc s i0 * (w i0 i1 * bonds_upto c s rm i0 i1)) else 0))).
    + rewrite sumf_plus, sumf_pick' by exact Hk. f_equal. destruct (i0 =? k)%nat; [apply sumf_scale|apply sumf_0].
    + intros i1 _. destruct (i0 =? k)%nat, (i1 =? k)%nat; ring.
Qed.
Lemma sumf_upto (f : nat -> R) m n : (m <= n)%nat -> sumf f (seq 0 m) = sumf (fun i => if (i <? m)%nat then f i else 0) (seq 0 n).
Proof.
  intros H. replace n with (m + (n - m))%nat by lia. rewrite seq_app, sumf_app. cbn [Nat.add].
  rewrite (sumf_zero _ (seq m (n - m))), Rplus_0_r.
  - apply sumf_ext. intros i Hi. apply in_seq in Hi. destruct (Nat.ltb_spec i m); [reflexivity|lia].
  - intros i Hi. apply in_seq in Hi. destruct (Nat.ltb_spec i m); [lia|reflexivity].
Qed.
Definition weight (full : bool) (i0 i1 : nat) : R := if full then 1 / 2 else if (i1 <? i0)%nat then 1 else if (i1 =? i0)%nat then 1 / 2 else 0.
Lemma eval_general c ord s full k : lengths_ok s -> (k < bn s)%nat ->
  nth k (bvs_eval c ord s full) 0 = sgn (valence c s k) *
    sumf (fun j => bocc s j * (weight full k j * bonds_upto c s (getRmaxUsed c ord) k j + weight full j k * bonds_upto c s (getRmaxUsed c ord) j k)) (seq 0 (bn s)).
Proof.
  intros Hl Hk. rewrite (proj2 (eval_nth c ord s full k Hl Hk)), <- pair_sum by exact Hk.
  apply sumf_ext. intros i0 Hi0. apply in_seq in Hi0. destruct full.
  - apply sumf_ext. intros i1 _. cbn. reflexivity.
  - rewrite (sumf_upto _ (S i0) (bn s)) by lia. apply sumf_ext. intros i1 _. unfold weight, scale_of. cbn [orb].
    destruct (Nat.ltb_spec i1 (S i0)), (Nat.ltb_spec i1 i0), (Nat.eqb_spec i1 i0), (Nat.eqb_spec i0 i1); try lia; lra.
Qed.
Lemma upto_sym c s rm i j : equal_counts s -> (i < bn s)%nat -> (j < bn s)%nat -> ordered_pair c s i j ->
  bonds_upto c s rm i j = bonds_upto c s rm j i.
Proof.
  intros He Hi Hj Hp. unfold bonds_upto. rewrite (sumf_perm _ _ _ (He i j Hi Hj)). apply sumf_ext. intros d _.
  unfold bond. rewrite lookup_sym by exact Hp. reflexivity.
Qed.
Lemma eval_equal c ord s full k : lengths_ok s -> equal_counts s -> (forall i j, (i < bn s)%nat -> (j < bn s)%nat -> ordered_pair c s i j) ->
  (k < bn s)%nat -> nth k (bvs_eval c ord s full) 0 = site_bvs c s (getRmaxUsed c ord) k.
Proof.
  intros Hl He Hp Hk. rewrite eval_general by auto. unfold site_bvs. f_equal. apply sumf_ext. intros j Hj. apply in_seq in Hj.
  rewrite (upto_sym c s _ j k) by (try apply Hp; auto; lia). f_equal. unfold weight.
  destruct full; [lra|]. destruct (Nat.ltb_spec j k), (Nat.ltb_spec k j), (Nat.eqb_spec j k), (Nat.eqb_spec k j); try lia; lra.
Qed.

(** *** deviations *)
Lemma msdiff_sum c s v : bvmsdiff c s v =
  if Rlt_dec 0 (sumf (fun i => bocc s i * INR (bmult s i)) (seq 0 (bn s))) then
    sumf (fun i => bocc s i * INR (bmult s i) * (Rabs (IZR (valence c s i)) - Rabs (nth i v 0)) ^ 2) (seq 0 (bn s)) /
    sumf (fun i => bocc s i * INR (bmult s i)) (seq 0 (bn s)) else 0.
Proof.
  unfold bvmsdiff, totalOccupancy, Rltb. rewrite fold_plus, Rplus_0_l. destruct (Rlt_dec _ _); [|reflexivity]. f_equal.
  rewrite fold_plus, Rplus_0_l. apply sumf_ext. intros i Hi. apply in_seq in Hi. unfold bvdiff.
  rewrite (nth_indep _ 0 (Rabs (IZR (valence c s 0)) - Rabs (nth 0 v 0))) by (rewrite map_length, seq_length; lia).
  rewrite (map_nth (fun i => Rabs (IZR (valence c s i)) - Rabs (nth i v 0))), seq_nth by lia. cbn [Nat.add]. ring.
Qed.
Lemma sumf_nonneg {A} (f : A -> R) l : (forall x, In x l -> 0 <= f x) -> 0 <= sumf f l.
Proof. induction l as [|x l IH]; intros H; [rewrite sumf_nil; lra|]. rewrite sumf_cons. assert (0 <= f x) by (apply H; now left). assert (0 <= sumf f l) by (apply IH; intros; apply H; now right). lra. Qed.
Lemma sumf_zero_inv {A} (f : A -> R) l : (forall x, In x l -> 0 <= f x) -> sumf f l = 0 -> forall x, In x l -> f x = 0.
Proof.
  induction l as [|y l IH]; intros H E x Hx; [easy|]. rewrite sumf_cons in E.
  assert (0 <= f y) by (apply H; now left). assert (0 <= sumf f l) by (apply sumf_nonneg; intros; apply H; now right).
  destruct Hx as [->|Hx]; [lra|]. apply IH; auto; [intros; apply H; now right|lra].
Qed.
Lemma msdiff_nonneg c s v : (forall i, (i < bn s)%nat -> 0 <= bocc s i) -> 0 <= bvmsdiff c s v.
Proof.
  intros H. rewrite msdiff_sum. destruct (Rlt_dec _ _) as [Hp|_]; [|lra].
  apply Rmult_le_pos; [|left; now apply Rinv_0_lt_compat]. apply sumf_nonneg. intros i Hi. apply in_seq in Hi.
  apply Rmult_le_pos; [apply Rmult_le_pos; [apply H; lia|apply pos_INR]|]. rewrite <- Rsqr_pow2. apply Rle_0_sqr.
Qed.
Lemma msdiff_zero c s v : (forall i, (i < bn s)%nat -> 0 <= bocc s i /\ (0 < bmult s i)%nat) ->
  (bvmsdiff c s v = 0 <-> forall i, (i < bn s)%nat -> 0 < bocc s i -> Rabs (nth i v 0) = Rabs (IZR (valence c s i))).
Proof.
  intros H.
  assert (Hw : forall i, In i (seq 0 (bn s)) -> 0 <= bocc s i * INR (bmult s i)).
  { intros i Hi. apply in_seq in Hi. apply Rmult_le_pos; [apply H; lia|apply pos_INR]. }
  assert (Hq : forall i, In i (seq 0 (bn s)) -> 0 <= bocc s i * INR (bmult s i) * (Rabs (IZR (valence c s i)) - Rabs (nth i v 0)) ^ 2).
  { intros i Hi. apply Rmult_le_pos; [now apply Hw|]. rewrite <- Rsqr_pow2. apply Rle_0_sqr. }
  rewrite msdiff_sum. destruct (Rlt_dec _ _) as [Hp|Hn]; split; intros Hz.
  - assert (Hs : sumf (fun i => bocc s i * INR (bmult s i) * (Rabs (IZR (valence c s i)) - Rabs (nth i v 0)) ^ 2) (seq 0 (bn s)) = 0).
    { apply Rmult_integral in Hz as [Hz|Hz]; [exact Hz|]. apply Rinv_0_lt_compat in Hp. lra. }
    intros i Hi Ho. assert (Hin : In i (seq 0 (bn s))) by (apply in_seq; lia).
    pose proof (sumf_zero_inv _ _ Hq Hs i Hin) as Hz'. cbn beta in Hz'. destruct (H i Hi) as [_ Hm]. apply lt_0_INR in Hm.
    assert (0 < bocc s i * INR (bmult s i)) by now apply Rmult_lt_0_compat. apply Rmult_integral in Hz' as [Hz'|Hz']; [lra|].
    cbn in Hz'. rewrite Rmult_1_r in Hz'. apply Rmult_integral in Hz'. lra.
  - rewrite sumf_zero; [lra|]. intros i Hi. destruct (H i) as [Ho Hm]; [apply in_seq in Hi; lia|]. destruct Ho as [Ho|<-]; [|ring].
    rewrite (Hz i) by (auto; apply in_seq in Hi; lia). ring.
  - intros i Hi Ho. exfalso. apply Hn. assert (Hin : In i (seq 0 (bn s))) by (apply in_seq; lia).
    pose proof (sumf_nonneg _ _ Hw) as [Hs|Hs]; [exact Hs|].
    pose proof (sumf_zero_inv _ _ Hw (eq_sym Hs) i Hin) as Hz'. cbn beta in Hz'. destruct (H i Hi) as [_ Hm]. apply lt_0_INR in Hm.
    apply Rmult_integral in Hz'. lra.
  - reflexivity.
Qed.
Lemma rms_sq c s v : (forall i, (i < bn s)%nat -> 0 <= bocc s i) -> 0 <= bvrmsdiff c s v /\ bvrmsdiff c s v ^ 2 = bvmsdiff c s v.
Proof. intros H. unfold bvrmsdiff. split; [apply sqrt_pos|]. rewrite <- Rsqr_pow2. apply Rsqr_sqrt. now apply msdiff_nonneg. Qed.
Lemma eval_both c ord s k : lengths_ok s -> (k < bn s)%nat -> let rm := getRmaxUsed c ord in
  nth k (bvs_eval c ord s true) 0 = sgn (valence c s k) *
    sumf (fun j => bocc s j * ((bonds_upto c s rm k j + bonds_upto c s rm j k) / 2)) (seq 0 (bn s)) /\
  nth k (bvs_eval c ord s false) 0 = sgn (valence c s k) *
    sumf (fun j => bocc s j * (if (j <=? k)%nat then bonds_upto c s rm k j else bonds_upto c s rm j k)) (seq 0 (bn s)).
Proof.
  intros Hl Hk rm. rewrite !eval_general by auto. fold rm. split; f_equal; apply sumf_ext; intros j _; f_equal; unfold weight; [lra|].
  destruct (Nat.ltb_spec j k), (Nat.ltb_spec k j), (Nat.eqb_spec j k), (Nat.eqb_spec k j), (Nat.leb_spec j k); subst; try lia; lra.
Qed.
