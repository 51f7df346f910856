(** Proofs about the grids, the limits, the peak sums and the results of PDFCalculator. *)
From Coq Require Import String.
From Verif Require Import RBase AList Trig Sums PdfGrid PdfSpec.
Open Scope R_scope.

Lemma eps_pos : 0 < SQRT_DOUBLE_EPS. Proof. unfold SQRT_DOUBLE_EPS. lra. Qed.

(** ** rminSteps, rmaxSteps *)
Lemma div_lt_iff a b d : 0 < d -> (a / d < b <-> a < b * d).
Proof.
  intros H. split; intros H1.
  - apply (Rmult_lt_compat_r d) in H1; auto. unfold Rdiv in H1. rewrite Rmult_assoc, Rinv_l in H1; lra.
  - apply Rmult_lt_reg_r with d; auto. unfold Rdiv. rewrite Rmult_assoc, Rinv_l; lra.
Qed.
Lemma div_le_iff a b d : 0 < d -> (a / d <= b <-> a <= b * d).
Proof.
  intros H. split; intros H1.
  - apply (Rmult_le_compat_r d) in H1; [|lra]. unfold Rdiv in H1. rewrite Rmult_assoc, Rinv_l in H1; lra.
  - apply Rmult_le_reg_r with d; auto. unfold Rdiv. rewrite Rmult_assoc, Rinv_l; lra.
Qed.
Lemma lt_div_iff a b d : 0 < d -> (b < a / d <-> b * d < a).
Proof.
  intros H. split; intros H1.
  - apply Rnot_le_lt. intros H2. apply (div_le_iff _ _ _ H) in H2. lra.
  - apply Rnot_le_lt. intros H2. apply (div_le_iff _ _ _ H) in H2. lra.
Qed.
Lemma le_div_iff a b d : 0 < d -> (b <= a / d <-> b * d <= a).
Proof.
  intros H. split; intros H1.
  - apply Rnot_lt_le. intros H2. apply (div_lt_iff _ _ _ H) in H2. lra.
  - apply Rnot_lt_le. intros H2. apply (div_lt_iff _ _ _ H) in H2. lra.
Qed.

(** below rmaxSteps are the multiples below rmax *)
Lemma rmaxSteps_lt r dr n : 0 < dr -> ((n < rmaxSteps r dr)%Z <-> IZR n * dr < r).
Proof. intros H. unfold rmaxSteps. rewrite Rceil_gt. now apply lt_div_iff. Qed.
(** from rminSteps on are the multiples not below rmin - eps *)
Lemma rminSteps_le r dr n : SQRT_DOUBLE_EPS < dr -> ((rminSteps r dr <= n)%Z <-> r - SQRT_DOUBLE_EPS <= IZR n * dr).
Proof.
  intros Hd. pose proof eps_pos as He. assert (Hd0 : 0 < dr) by lra.
  unfold rminSteps, eps_eq. destruct (Rceil_spec (r / dr)) as [H1 H2].
  set (c := Rceil (r / dr)) in *.
  apply (lt_div_iff _ _ _ Hd0) in H1. apply (div_le_iff _ _ _ Hd0) in H2.
  assert (Hc : forall z, (z < c)%Z -> IZR z * dr <= (IZR c - 1) * dr).
  { intros z Hz. apply Rmult_le_compat_r; [lra|]. replace (IZR c - 1) with (IZR (c - 1)) by (rewrite minus_IZR; reflexivity). apply IZR_le. lia. }
  assert (Hc' : forall z, (z < c - 1)%Z -> IZR z * dr <= (IZR c - 2) * dr).
  { intros z Hz. apply Rmult_le_compat_r; [lra|]. replace (IZR c - 2) with (IZR (c - 2)) by (rewrite minus_IZR; reflexivity). apply IZR_le. lia. }
  assert (Hg : forall z, (c <= z)%Z -> IZR c * dr <= IZR z * dr).
  { intros z Hz. apply Rmult_le_compat_r; [lra|]. now apply IZR_le. }
  assert (Hg' : forall z, (c - 1 <= z)%Z -> (IZR c - 1) * dr <= IZR z * dr).
  { intros z Hz. apply Rmult_le_compat_r; [lra|]. replace (IZR c - 1) with (IZR (c - 1)) by (rewrite minus_IZR; reflexivity). now apply IZR_le. }
  assert (Em : IZR (c - 1) = IZR c - 1) by (rewrite minus_IZR; reflexivity).
  destruct (Rleb (Rabs (r - IZR (c - 1) * dr)) SQRT_DOUBLE_EPS) eqn:E.
  - apply Rleb_true in E. rewrite Em in E. rewrite Rabs_pos_eq in E by lra. split; intros H.
    + apply Hg' in H. lra.
    + apply Z.nlt_ge. intros Hlt. apply Hc' in Hlt. lra.
  - apply Rleb_false in E. rewrite Em in E. rewrite Rabs_pos_eq in E by lra. split; intros H.
    + apply Hg in H. lra.
    + apply Z.nlt_ge. intros Hlt. apply Hc in Hlt. lra.
Qed.
Lemma rminSteps_mono r r' dr : SQRT_DOUBLE_EPS < dr -> r <= r' -> (rminSteps r dr <= rminSteps r' dr)%Z.
Proof.
  intros Hd H. apply rminSteps_le; auto. pose proof (proj1 (rminSteps_le r' dr _ Hd) (Z.le_refl _)). lra.
Qed.
Lemma rmaxSteps_mono r r' dr : 0 < dr -> r <= r' -> (rmaxSteps r dr <= rmaxSteps r' dr)%Z.
Proof.
  intros Hd H. apply Z.nlt_ge. intros H1. apply (rmaxSteps_lt _ _ _ Hd) in H1.
  pose proof (proj1 (rmaxSteps_lt r dr (rmaxSteps r' dr) Hd)). 
  assert (H2 : (rmaxSteps r' dr < rmaxSteps r' dr)%Z) by (apply rmaxSteps_lt; auto; lra). lia.
Qed.
Lemma rminSteps_nonneg r dr : SQRT_DOUBLE_EPS < dr -> 0 <= r -> (0 <= rminSteps r dr)%Z.
Proof.
  intros Hd H. apply Z.nlt_ge. intros H1.
  assert (H2 : (rminSteps r dr <= -1)%Z) by lia. apply (rminSteps_le _ _ _ Hd) in H2.
  replace (IZR (-1)) with (-1) in H2 by reflexivity. pose proof eps_pos. lra.
Qed.

(** ** Limits *)
Definition lims_ok (l : rlims) : Prop := (0 <= calclo l <= extmin l /\ extmin l <= extmax l <= calchi l)%Z.
Definition nonempty_range (c : conf) : Prop := (rminSteps (c_rmin c) (c_rstep c) < rmaxSteps (c_rmax c) (c_rstep c))%Z.

Lemma ripples_nonneg c : settings_ok c -> 0 <= extFromTerminationRipples c.
Proof.
  intros (_ & _ & Hd & _). pose proof eps_pos. unfold extFromTerminationRipples, eps_gt.
  destruct (Rltb (0 + SQRT_DOUBLE_EPS) (getQmax c)) eqn:E; cbn [andb]; [|lra].
  apply Rltb_true in E. destruct (eps_lt _ _ _); [|lra].
  apply Rlt_le. apply Rdiv_lt_0_compat; [pose proof PI_RGT_0; lra|lra].
Qed.
Lemma tails_nonneg c s : 0 <= extFromPeakTails c s.
Proof. unfold extFromPeakTails. eapply Rle_trans; [apply Rabs_pos|apply Rmax_l]. Qed.

(** the two extensions after the rescaling *)
Definition ext_pair (c : conf) (s : pstru) : R * R :=
  let rip := extFromTerminationRipples c in
  let tot := rip + extFromPeakTails c s in
  if Rltb (c_maxext c) tot then (rip * (c_maxext c / tot), c_maxext c) else (rip, tot).
Lemma ext_pair_ok c s : settings_ok c -> 0 <= fst (ext_pair c s) <= snd (ext_pair c s).
Proof.
  intros H. pose proof (ripples_nonneg c H). pose proof (tails_nonneg c s). destruct H as (_ & _ & _ & _ & _ & Hm).
  unfold ext_pair. destruct (Rltb _ _) eqn:E; cbn [fst snd]; [|lra].
  apply Rltb_true in E. set (rip := extFromTerminationRipples c) in *. set (tl := extFromPeakTails c s) in *.
  assert (Hk : 0 <= c_maxext c / (rip + tl)).
  { apply Rmult_le_pos; [lra|]. apply Rlt_le, Rinv_0_lt_compat. lra. }
  split; [apply Rmult_le_pos; auto|].
  replace (c_maxext c) with ((rip + tl) * (c_maxext c / (rip + tl))) at 2 by (field; lra).
  apply Rmult_le_compat_r; lra.
Qed.
Lemma cacheRlimits_eq c s : cacheRlimitsData c s =
  if (rmaxSteps (c_rmax c) (c_rstep c) <=? rminSteps (c_rmin c) (c_rstep c))%Z
  then {| extmin := 0; extmax := 0; calclo := 0; calchi := 0 |}
  else {| extmin := Z.max 0 (rminSteps (c_rmin c - fst (ext_pair c s)) (c_rstep c));
          extmax := rmaxSteps (c_rmax c + fst (ext_pair c s)) (c_rstep c);
          calclo := Z.max 0 (rminSteps (c_rmin c - snd (ext_pair c s)) (c_rstep c));
          calchi := rmaxSteps (c_rmax c + snd (ext_pair c s)) (c_rstep c) |}.
Proof. unfold cacheRlimitsData, ext_pair. destruct (Z.leb _ _); auto. destruct (Rltb _ _); reflexivity. Qed.
Lemma limits_inside c s : settings_ok c -> nonempty_range c ->
  let l := cacheRlimitsData c s in
  (0 <= calclo l /\ calclo l <= extmin l /\ extmin l <= rminSteps (c_rmin c) (c_rstep c) /\
   rmaxSteps (c_rmax c) (c_rstep c) <= extmax l /\ extmax l <= calchi l)%Z.
Proof.
  intros H Hne l. subst l. rewrite cacheRlimits_eq. unfold nonempty_range in Hne.
  pose proof (ext_pair_ok c s H) as [H1 H2]. destruct H as (Hr & _ & Hd & _). pose proof eps_pos.
  destruct (Z.leb_spec (rmaxSteps (c_rmax c) (c_rstep c)) (rminSteps (c_rmin c) (c_rstep c))); [lia|].
  cbn [extmin extmax calclo calchi].
  assert (E1 : (rminSteps (c_rmin c - snd (ext_pair c s)) (c_rstep c) <= rminSteps (c_rmin c - fst (ext_pair c s)) (c_rstep c))%Z)
    by (apply rminSteps_mono; auto; lra).
  assert (E2 : (rminSteps (c_rmin c - fst (ext_pair c s)) (c_rstep c) <= rminSteps (c_rmin c) (c_rstep c))%Z)
    by (apply rminSteps_mono; auto; lra).
  assert (E3 : (rmaxSteps (c_rmax c) (c_rstep c) <= rmaxSteps (c_rmax c + fst (ext_pair c s)) (c_rstep c))%Z)
    by (apply rmaxSteps_mono; lra).
  assert (E4 : (rmaxSteps (c_rmax c + fst (ext_pair c s)) (c_rstep c) <= rmaxSteps (c_rmax c + snd (ext_pair c s)) (c_rstep c))%Z)
    by (apply rmaxSteps_mono; lra).
  pose proof (rminSteps_nonneg (c_rmin c) (c_rstep c) Hd Hr). lia.
Qed.
Lemma limits_empty c s : ~ nonempty_range c -> cacheRlimitsData c s = {| extmin := 0; extmax := 0; calclo := 0; calchi := 0 |}.
Proof.
  intros H. rewrite cacheRlimits_eq. unfold nonempty_range in H.
  destruct (Z.leb_spec (rmaxSteps (c_rmax c) (c_rstep c)) (rminSteps (c_rmin c) (c_rstep c))); [auto|lia].
Qed.
Lemma cacheRlimits_ok c s : settings_ok c -> lims_ok (cacheRlimitsData c s).
Proof.
  intros H. unfold lims_ok.
  destruct (Z_lt_dec (rminSteps (c_rmin c) (c_rstep c)) (rmaxSteps (c_rmax c) (c_rstep c))) as [Hn|Hn].
  - pose proof (limits_inside c s H Hn). cbv zeta in H0. lia.
  - rewrite limits_empty by assumption. cbn. lia.
Qed.

(** ** Invariant of all reachable states *)
Record wf (x : pdfc) : Prop := {
  wf_conf : settings_ok (cf x);
  wf_lims : lims_ok (lim x);
  wf_len : Z.of_nat (length (mvalue x)) = countCalcPoints (lim x);
  wf_sf : length (sfsite (sc x)) = p_n (str x) }.
(** limits up to date with the settings *)
Definition current (x : pdfc) : Prop := lim x = cacheRlimitsData (cf x) (str x).

Definition sf_step (c : conf) (s : pstru) := fun '(fcache, rv) i =>
    let smbl := p_type s i in
    let '(fcache, f) := match afind string_dec smbl fcache with
                        | Some v => (fcache, v)
                        | None => let v := c_sftable c smbl in (aset string_dec smbl v fcache, v)
                        end in
    (fcache, rv ++ [f * p_occ s i]).
Lemma sfsites_gen c s l : forall fc rv,
  (forall k v, afind string_dec k fc = Some v -> v = c_sftable c k) ->
  snd (fold_left (sf_step c s) l (fc, rv)) = rv ++ map (site_sf c s) l.
Proof.
  induction l as [|i l IH]; intros fc rv H; cbn [fold_left map]; [now rewrite app_nil_r|].
  unfold sf_step at 2. cbv zeta. destruct (afind string_dec (p_type s i) fc) as [v|] eqn:E; cbv beta iota.
  - rewrite IH by assumption. rewrite <- app_assoc. cbn [app]. unfold site_sf at 2. now rewrite (H _ _ E).
  - rewrite IH.
    + rewrite <- app_assoc. reflexivity.
    + intros k v. rewrite afind_aset. destruct (string_dec k (p_type s i)); [congruence|apply H].
Qed.
Lemma sfsites_eq c s : sfsites c s = map (site_sf c s) (seq 0 (p_n s)).
Proof. unfold sfsites. fold (sf_step c s). rewrite (sfsites_gen c s); [reflexivity|]. discriminate. Qed.
Lemma nth_map_seq (f : nat -> R) n i : (i < n)%nat -> nth i (map f (seq 0 n)) 0 = f i.
Proof.
  intros H. rewrite nth_indep with (d' := f 0%nat) by (rewrite map_length, seq_length; auto).
  rewrite map_nth, seq_nth by auto. reflexivity.
Qed.

Lemma cache_totocc c s : totocc (cacheStructureData c s) = tot_occ s.
Proof. unfold cacheStructureData, totalOccupancy. cbn [totocc]. rewrite fold_plus. unfold tot_occ. ring. Qed.
Lemma cache_sfavg c s : sfaverage (cacheStructureData c s) = if Reqb (tot_occ s) 0 then 0 else mean_sf c s.
Proof.
  pose proof (cache_totocc c s) as E. unfold cacheStructureData in *. cbn [sfaverage totocc] in *. rewrite E.
  destruct (Reqb _ _); [reflexivity|]. unfold mean_sf. f_equal. rewrite fold_plus, Rplus_0_l. apply sumf_ext.
  intros i [_ Hi]%in_seq. rewrite sfsites_eq, nth_map_seq by lia. reflexivity.
Qed.

Lemma wf_reset x : settings_ok (cf x) -> wf (resetValue x) /\ current (resetValue x).
Proof.
  intros H. pose proof (cacheRlimits_ok _ (str x) H) as Hl. split; [|reflexivity]. constructor; cbn; auto.
  - rewrite repeat_length. unfold lims_ok, countCalcPoints in *. lia.
  - rewrite sfsites_eq, map_length, seq_length. reflexivity.
Qed.

(** ** addPairContribution *)
Lemma addat_ok v i y : (0 <= i < Z.of_nat (length v))%Z -> addat v i y = Ok (upd (Z.to_nat i) (nth (Z.to_nat i) v 0 + y) v).
Proof.
  intros H. unfold addat. destruct (Z.leb_spec 0 i); [|lia]. destruct (Z.ltb_spec i (Z.of_nat (length v))); [|lia]. reflexivity.
Qed.
Lemma nth_updR v i j (y : R) : (i < length v)%nat -> nth j (upd i y v) 0 = if (j =? i)%nat then y else nth j v 0.
Proof.
  revert i j; induction v as [|z v IH]; intros [|i] [|j] H; cbn in *; try lia; auto. apply IH. lia.
Qed.
(** adding f i at every index i of a range *)
Lemma add_range (f : Z -> R) a b v : (0 <= a)%Z -> (b <= Z.of_nat (length v))%Z ->
  exists v', fold_left (fun r i => match r with Ok v => addat v i (f i) | r => r end) (zrange a b) (Ok v) = Ok v' /\
    length v' = length v /\
    forall k, nth k v' 0 = nth k v 0 + (if ((a <=? Z.of_nat k) && (Z.of_nat k <? b))%Z then f (Z.of_nat k) else 0).
Proof.
  intros Ha. remember (Z.to_nat (b - a)) as n eqn:En. revert a v Ha En. induction n as [|n IH]; intros a v Ha En Hb.
  - rewrite zrange_nil by lia. exists v. split; [reflexivity|split; [reflexivity|]]. intros k.
    destruct (Z.leb_spec a (Z.of_nat k)); destruct (Z.ltb_spec (Z.of_nat k) b); cbn [andb]; try lia; ring.
  - rewrite zrange_cons by lia. cbn [fold_left]. rewrite addat_ok by lia.
    destruct (IH (a + 1)%Z (upd (Z.to_nat a) (nth (Z.to_nat a) v 0 + f a) v)) as (v' & E & L & N); [lia|lia|rewrite upd_length; lia|].
    exists v'. rewrite E. split; [reflexivity|]. rewrite upd_length in L. split; [assumption|].
    intros k. rewrite N, nth_updR by lia.
    destruct (Nat.eqb_spec k (Z.to_nat a)) as [Ek|Ek].
    + subst k. rewrite Z2Nat.id by lia. destruct (Z.leb_spec (a + 1) a); [lia|]. destruct (Z.leb_spec a a); [|lia].
      destruct (Z.ltb_spec a b); [|lia]. cbn [andb]. ring.
    + destruct (Z.leb_spec (a + 1) (Z.of_nat k)); destruct (Z.leb_spec a (Z.of_nat k)); cbn [andb]; try lia; reflexivity.
Qed.

(** the grid point with index k of the value array *)
Definition rpoint (x : pdfc) (k : nat) : R := IZR (calclo (lim x) + Z.of_nat k) * c_rstep (cf x).

Lemma index_reached x b k : settings_ok (cf x) -> (k < length (mvalue x))%nat ->
  Z.of_nat (length (mvalue x)) = countCalcPoints (lim x) ->
  ((Z.max 0 (calcIndex x (peak_lo (cf x) b)) <=? Z.of_nat k) &&
   (Z.of_nat k <? Z.min (countCalcPoints (lim x)) (calcIndex x (peak_hi (cf x) b) + 1)))%Z = reached (cf x) b (rpoint x k).
Proof.
  intros (_ & _ & Hd & _) Hk Hl. pose proof eps_pos. assert (Hd0 : 0 < c_rstep (cf x)) by lra.
  unfold reached, calcIndex, rpoint. set (n := (calclo (lim x) + Z.of_nat k)%Z).
  assert (A : (Rfloor (peak_lo (cf x) b / c_rstep (cf x)) <= n)%Z <-> peak_lo (cf x) b - c_rstep (cf x) < IZR n * c_rstep (cf x)).
  { rewrite <- Z.lt_succ_r, Rfloor_lt, succ_IZR, (div_lt_iff _ _ _ Hd0). split; intros; lra. }
  assert (B : (n <= Rfloor (peak_hi (cf x) b / c_rstep (cf x)))%Z <-> IZR n * c_rstep (cf x) <= peak_hi (cf x) b).
  { rewrite Rfloor_le. apply (le_div_iff _ _ _ Hd0). }
  destruct (Rltb (peak_lo (cf x) b - c_rstep (cf x)) (IZR n * c_rstep (cf x))) eqn:E1;
    [apply Rltb_true, A in E1|assert (E1' : ~ (Rfloor (peak_lo (cf x) b / c_rstep (cf x)) <= n)%Z)
      by (rewrite A; apply Rltb_false in E1; lra)];
    (destruct (Rleb (IZR n * c_rstep (cf x)) (peak_hi (cf x) b)) eqn:E2;
      [apply Rleb_true, B in E2|assert (E2' : ~ (n <= Rfloor (peak_hi (cf x) b / c_rstep (cf x)))%Z)
        by (rewrite B; apply Rleb_false in E2; lra)]);
    cbn [andb].
  - apply andb_true_intro. split; [apply Z.leb_le|apply Z.ltb_lt]; subst n; lia.
  - apply andb_false_iff. right. apply Z.ltb_ge. subst n; lia.
  - apply andb_false_iff. left. apply Z.leb_gt. subst n; lia.
  - apply andb_false_iff. left. apply Z.leb_gt. subst n; lia.
Qed.

(** what one call adds at r, with the cached scattering factors *)
Definition contribution (x : pdfc) (b : pbond) (z : Z) (r : R) : R :=
  if reached (cf x) b r
  then sfSite x (b_s0 b) * sfSite x (b_s1 b) * b_mult b * IZR z *
       (pkf (c_pk (cf x)) (r - b_dist b) (b_fwhm b) * ((r - b_dist b) / b_dist b + 1))
  else 0.
Lemma addPair_spec x b z : wf x -> exists v, addPairContribution x b z = Ok v /\ length v = length (mvalue x) /\
  forall k, (k < length (mvalue x))%nat -> nth k v 0 = nth k (mvalue x) 0 + contribution x b z (rpoint x k).
Proof.
  intros [Hc Hl Hn _]. unfold addPairContribution. cbv zeta.
  fold (peak_lo (cf x) b). fold (peak_hi (cf x) b).
  set (f := fun i => sfSite x (b_s0 b) * sfSite x (b_s1 b) * b_mult b * IZR z *
     (pkf (c_pk (cf x)) (IZR (calclo (lim x) + i) * c_rstep (cf x) - b_dist b) (b_fwhm b) *
      ((IZR (calclo (lim x) + i) * c_rstep (cf x) - b_dist b) / b_dist b + 1))).
  destruct (add_range f (Z.max 0 (calcIndex x (peak_lo (cf x) b)))
              (Z.min (countCalcPoints (lim x)) (calcIndex x (peak_hi (cf x) b) + 1)) (mvalue x)) as (v & E & L & N); [lia|lia|].
  exists v. split; [exact E|split; [exact L|]]. intros k Hk. rewrite N, index_reached by auto.
  unfold contribution, rpoint. destruct (reached _ _ _); reflexivity.
Qed.

Lemma with_value_wf x v : wf x -> length v = length (mvalue x) -> wf (with_value x v).
Proof. intros [A B C D] H. constructor; cbn; auto. congruence. Qed.
Definition same_but_value (x y : pdfc) : Prop :=
  cf y = cf x /\ str y = str x /\ sc y = sc x /\ lim y = lim x /\ base y = base x /\ stashed y = stashed x /\
  length (mvalue y) = length (mvalue x).
Lemma addPairs_spec t : forall x, wf x -> exists y, addPairs x t = Ok y /\ wf y /\ same_but_value x y /\
  forall k, (k < length (mvalue x))%nat ->
    nth k (mvalue y) 0 = nth k (mvalue x) 0 + sumf (fun e => contribution x (fst e) (snd e) (rpoint x k)) t.
Proof.
  unfold addPairs. induction t as [|[b z] t IH]; intros x Hx; cbn [fold_left fst snd].
  - exists x. split; [reflexivity|split; [assumption|split]].
    + unfold same_but_value; tauto.
    + intros k _. rewrite sumf_nil. ring.
  - destruct (addPair_spec x b z Hx) as (v & E & L & N). rewrite E.
    destruct (IH (with_value x v) (with_value_wf x v Hx L)) as (y & Ey & Wy & Sy & Ny). exists y.
    split; [exact Ey|split; [exact Wy|split]].
    + unfold same_but_value in *. cbn in Sy. rewrite L in Sy. tauto.
    + intros k Hk. rewrite Ny by (cbn; lia). cbn [mvalue with_value]. rewrite N by assumption.
      rewrite sumf_cons. cbn [fst snd]. change (rpoint (with_value x v) k) with (rpoint x k).
      change (contribution (with_value x v)) with (contribution x). ring.
Qed.
