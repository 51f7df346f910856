(** Proofs about the active occupancy of PDFCalculator, i.e. the baseline of partial PDFs. *)
From Coq Require Import String.
From Verif Require Import RBase AList Trig Sums PdfGrid PdfSpec PdfProofs.
From Verif Require Masks MasksSpec.
Open Scope R_scope.

(** the set of inverted pairs holds ordered pairs once *)
Definition sorted_set (l : list (Z * Z)) : Prop := NoDup l /\ forall i j, In (i, j) l -> (i <= j)%Z.
Lemma sort2_le i j : (fst (Masks.sort2 i j) <= snd (Masks.sort2 i j))%Z.
Proof. unfold Masks.sort2. destruct (i >? j)%Z eqn:E; cbn [fst snd]; [apply Z.gtb_lt in E|rewrite Z.gtb_ltb in E; apply Z.ltb_ge in E]; lia. Qed.
Lemma NoDup_remove' {A} eqd (x : A) l : NoDup l -> NoDup (remove eqd x l).
Proof.
  induction 1 as [|y l Hy Hl IH]; cbn [remove]; [constructor|]. destruct (eqd x y); [assumption|]. constructor; auto.
  intros H. apply Hy. eapply in_remove; eassumption.
Qed.
Lemma set_sorted d l i j m : sorted_set l -> sorted_set (fst (Masks.setPairMaskValue d l i j m)).
Proof.
  intros [H1 H2]. unfold Masks.setPairMaskValue. destruct (eqb m d); cbn [fst].
  - split; [now apply NoDup_remove'|]. intros a b H%in_remove. apply H2, H.
  - destruct (in_dec _ _ _) as [Hin|Hin]; [split; auto|]. split; [constructor; auto|].
    intros a b [E|H]; auto. pose proof (sort2_le i j) as L. rewrite E in L. exact L.
Qed.
Lemma many_sorted d ps m : forall l, sorted_set l -> sorted_set (Masks.setMany d l ps m).
Proof. unfold Masks.setMany. induction ps as [|[a b] ps IH]; intros l H; cbn [fold_left]; auto. apply IH, set_sorted, H. Qed.
Lemma fold_sorted {A} (f : list (Z * Z) -> A -> list (Z * Z)) l : (forall acc a, sorted_set acc -> sorted_set (f acc a)) ->
  forall acc, sorted_set acc -> sorted_set (fold_left f l acc).
Proof. intros Hf. induction l as [|a l IH]; intros acc H; cbn [fold_left]; auto. Qed.
Lemma mstep_sorted s o : sorted_set (Masks.invp s) -> sorted_set (Masks.invp (Masks.mstep s o)).
Proof.
  assert (N : sorted_set []) by (split; [constructor|intros ? ? []]).
  intros H. destruct o; cbn [Masks.mstep]; auto.
  - unfold Masks.setPairMask.
    destruct (_ && _); [exact N|]. destruct (_ || _); cbn [Masks.invp]; [apply many_sorted, H|].
    destruct (Masks.dropSiteAll _ _ _). pose proof (set_sorted (Masks.dflt s) (Masks.invp s) (if (i <? 0)%Z then Masks.ALLATOMSINT else i)
      (if (j <? 0)%Z then Masks.ALLATOMSINT else j) m H) as G.
    destruct (Masks.setPairMaskValue _ _ _ _ _). exact G.
  - unfold Masks.setTypeMask. cbv zeta. destruct (Masks.spair_eqd _ _); [exact N|].
    destruct (_ || _); exact H.
  - cbn [Masks.setStructure Masks.invp]. unfold Masks.updateMaskData. destruct (Masks.is_nil _).
    + apply fold_sorted; [|exact H]. intros acc e Ha. apply many_sorted, Ha.
    + apply fold_sorted; [|exact N]. intros acc p Ha. destruct (afind _ _ _); [apply many_sorted, Ha|assumption].
Qed.
Lemma reach_sorted s : MasksSpec.reach s -> sorted_set (Masks.invp s).
Proof.
  induction 1 as [|s o H IH Ho]; [split; [constructor|intros ? ? []]|]. now apply mstep_sorted.
Qed.

(** ** Sums over pairs *)
Definition zz_dec := Masks.zpair_eqd.
Definition is_pair (p : Z * Z) (i j : nat) : bool := if zz_dec (Masks.sort2 (Z.of_nat i) (Z.of_nat j)) p then true else false.
Lemma sort2_pair i j a b : (a <= b)%Z -> (Masks.sort2 i j = (a, b) <-> (i = a /\ j = b) \/ (i = b /\ j = a)).
Proof.
  intros H. unfold Masks.sort2. destruct (i >? j)%Z eqn:E; [apply Z.gtb_lt in E|rewrite Z.gtb_ltb in E; apply Z.ltb_ge in E];
    split; [intros [= -> ->]; lia|intros [[-> ->]|[-> ->]]; [lia|reflexivity]|intros [= -> ->]; lia|
            intros [[-> ->]|[-> ->]]; [reflexivity|f_equal; lia]].
Qed.
Lemma sumf_pick2 (w : nat -> R) n a b : (a < n)%nat -> (b < n)%nat ->
  sumf (fun i => sumf (fun j => if (a =? i)%nat && (b =? j)%nat then w i * w j else 0) (seq 0 n)) (seq 0 n) = w a * w b.
Proof.
  intros Ha Hb. rewrite (sumf_ext _ (fun i => if (a =? i)%nat then w i * w b else 0)).
  - now rewrite (sumf_pick (fun i => w i * w b)).
  - intros i _. destruct (a =? i)%nat; cbn [andb]; [now rewrite (sumf_pick (fun j => w i * w j))|]. apply sumf_0.
Qed.
Lemma one_pair (w : nat -> R) n a b : (0 <= a <= b)%Z -> (b < Z.of_nat n)%Z ->
  sumf (fun i => sumf (fun j => if is_pair (a, b) i j then w i * w j else 0) (seq 0 n)) (seq 0 n) =
  (if (a =? b)%Z then 1 else 2) * (w (Z.to_nat a) * w (Z.to_nat b)).
Proof.
  intros H1 H2. set (na := Z.to_nat a). set (nb := Z.to_nat b).
  assert (P : forall i j, is_pair (a, b) i j = ((na =? i) && (nb =? j) || (nb =? i) && (na =? j))%nat).
  { intros i j. unfold is_pair. destruct (zz_dec _ _) as [E|E]; symmetry.
    - apply sort2_pair in E; [|lia]. apply orb_true_iff. rewrite !andb_true_iff, !Nat.eqb_eq. subst na nb. lia.
    - apply orb_false_iff. split; apply not_true_iff_false; rewrite andb_true_iff, !Nat.eqb_eq; intros [? ?]; apply E, sort2_pair; subst na nb; lia. }
  destruct (Z.eqb_spec a b) as [Eab|Hab].
  - assert (na = nb) by (subst na nb; lia).
    rewrite <- (sumf_pick2 w n na nb) by (subst na nb; lia). rewrite Rmult_1_l. apply sumf_ext. intros i _. apply sumf_ext. intros j _.
    rewrite P. replace nb with na by congruence. now rewrite orb_diag.
  - assert (na <> nb) by (subst na nb; lia).
    transitivity (w na * w nb + w nb * w na); [|ring].
    rewrite <- (sumf_pick2 w n na nb), <- (sumf_pick2 w n nb na) by (subst na nb; lia).
    rewrite <- sumf_plus. apply sumf_ext. intros i _. rewrite <- sumf_plus. apply sumf_ext. intros j _. rewrite P.
    destruct (Nat.eqb_spec na i), (Nat.eqb_spec nb j), (Nat.eqb_spec nb i), (Nat.eqb_spec na j); cbn [andb orb]; try lia; ring.
Qed.
Lemma no_pair (w : nat -> R) n a b : (a <= b)%Z -> (a < 0 \/ Z.of_nat n <= b)%Z ->
  sumf (fun i => sumf (fun j => if is_pair (a, b) i j then w i * w j else 0) (seq 0 n)) (seq 0 n) = 0.
Proof.
  intros H1 H2. apply sumf_zero. intros i Hi%in_seq. apply sumf_zero. intros j Hj%in_seq. unfold is_pair.
  destruct (zz_dec _ _) as [E|E]; [|reflexivity]. apply sort2_pair in E; lia.
Qed.
Lemma in_sum (v : R) p l : NoDup l -> sumf (fun q => if zz_dec p q then v else 0) l = if in_dec zz_dec p l then v else 0.
Proof.
  intros H. induction H as [|q l Hq Hl IH]; [reflexivity|]. rewrite sumf_cons, IH.
  destruct (zz_dec p q) as [E|E].
  - subst q. destruct (in_dec zz_dec p l); [contradiction|]. destruct (in_dec zz_dec p (p :: l)) as [|H]; [ring|]. destruct H; now left.
  - destruct (in_dec zz_dec p l) as [I|I]; destruct (in_dec zz_dec p (q :: l)) as [J|J]; try ring.
    + destruct J; now right.
    + destruct J; [congruence|contradiction].
Qed.
(** the loop over the inverted pairs sums the occupancies of the ordered pairs that are inverted *)
Lemma invmask_eq c s : sorted_set (c_inv c) ->
  invmask_sum c s = allowed_occ (fun i j => if in_dec zz_dec (Masks.sort2 (Z.of_nat i) (Z.of_nat j)) (c_inv c) then true else false) s.
Proof.
  intros [ND Hs]. unfold invmask_sum, allowed_occ. set (w := fun i => p_occ s i * INR (p_mult s i)).
  rewrite (sumf_ext _ (fun i => sumf (fun j => sumf (fun p => if is_pair p i j then w i * w j else 0) (c_inv c)) (seq 0 (p_n s)))).
  2:{ intros i _. apply sumf_ext. intros j _. unfold is_pair.
      rewrite (sumf_ext _ (fun p => if zz_dec (Masks.sort2 (Z.of_nat i) (Z.of_nat j)) p then w i * w j else 0))
        by (intros p _; destruct (zz_dec _ _); reflexivity).
      rewrite in_sum by assumption. destruct (in_dec _ _ _); reflexivity. }
  rewrite (sumf_ext _ (fun i => sumf (fun p => sumf (fun j => if is_pair p i j then w i * w j else 0) (seq 0 (p_n s))) (c_inv c)))
    by (intros i _; apply sumf_swap).
  rewrite sumf_swap. clear ND.
  assert (G : forall l acc, (forall i j, In (i, j) l -> (i <= j)%Z) ->
    fold_left (fun t '(i, j) =>
    if ((i <? 0) || (Z.of_nat (p_n s) <=? i) || (j <? 0) || (Z.of_nat (p_n s) <=? j))%Z then t
    else t + (if (i =? j)%Z then 1 else 2) * p_occ s (Z.to_nat i) * INR (p_mult s (Z.to_nat i)) *
             p_occ s (Z.to_nat j) * INR (p_mult s (Z.to_nat j))) l acc =
    acc + sumf (fun p => sumf (fun i => sumf (fun j => if is_pair p i j then w i * w j else 0) (seq 0 (p_n s))) (seq 0 (p_n s))) l).
  { induction l as [|[a b] l IH]; intros acc H; cbn [fold_left]; [rewrite sumf_nil; ring|].
    rewrite IH by auto with datatypes. rewrite sumf_cons, <- Rplus_assoc. f_equal.
    assert (Hab : (a <= b)%Z) by (apply H; now left).
    destruct (Z.ltb_spec a 0); cbn [orb]; [rewrite no_pair by lia; ring|].
    destruct (Z.leb_spec (Z.of_nat (p_n s)) a); cbn [orb]; [rewrite no_pair by lia; ring|].
    destruct (Z.ltb_spec b 0); cbn [orb]; [lia|].
    destruct (Z.leb_spec (Z.of_nat (p_n s)) b); cbn [orb]; [rewrite no_pair by lia; ring|].
    rewrite one_pair by lia. unfold w. ring. }
  rewrite (G (c_inv c) 0 Hs). ring.
Qed.
Lemma all_pairs s : sumf (fun i => sumf (fun j => p_occ s i * INR (p_mult s i) * (p_occ s j * INR (p_mult s j))) (seq 0 (p_n s))) (seq 0 (p_n s))
  = tot_occ s * tot_occ s.
Proof.
  unfold tot_occ at 2. rewrite <- sumf_scale. apply sumf_ext. intros i _. rewrite sumf_scale. fold (tot_occ s). ring.
Qed.
(** activeoccupancy times totaloccupancy is the sum over the pairs that are not masked out *)
Lemma active_eq c s m : MasksSpec.reach m -> c_dflt c = Masks.dflt m -> c_inv c = Masks.invp m -> 0 < tot_occ s ->
  actocc (cacheStructureData c s) * tot_occ s = allowed_occ (fun i j => Masks.getPairMask m (Z.of_nat i) (Z.of_nat j)) s.
Proof.
  intros Hr Hd Hi Ht. pose proof (reach_sorted m Hr) as Hs. rewrite <- Hi in Hs.
  pose proof (cache_totocc c s) as Et. unfold cacheStructureData in *. cbn [totocc actocc] in *. rewrite Et.
  destruct (Rltb 0 (tot_occ s)) eqn:E; [|apply Rltb_false in E; lra]. rewrite invmask_eq by assumption.
  unfold Masks.getPairMask. rewrite <- Hd, <- Hi. fold zz_dec. destruct (c_dflt c); cbn [negb].
  - rewrite Rmult_minus_distr_r. unfold Rdiv. rewrite Rmult_assoc, Rinv_l, Rmult_1_r by lra. rewrite <- all_pairs.
    unfold allowed_occ. rewrite <- sumf_minus. apply sumf_ext. intros i _. rewrite <- sumf_minus. apply sumf_ext. intros j _.
    destruct (in_dec _ _ _); ring.
  - unfold Rdiv. rewrite Rmult_assoc, Rinv_l, Rmult_1_r by lra. reflexivity.
Qed.
