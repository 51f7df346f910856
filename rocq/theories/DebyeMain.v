(** Proofs for DebyePDFCalculator: histories, sum, range. *)
From Coq Require Import String.
From Verif Require Import RBase AList Trig Sums PdfGrid PdfProofs PdfMain PdfFft PdfResult Debye DebyeSpec DebyeProofs DebyeSum.
Open Scope R_scope.

Lemma current_fits x : dinv x -> current x -> fits x.
Proof. intros (H & _) (_ & H1 & H2 & _). exact (conj H (conj H1 H2)). Qed.
(** pairs with any site indices *)
Lemma addPair_any x b z : fits x -> exists v, addPair x b z = Ok v /\ length v = length (dval x).
Proof.
  intros Hx. pose proof (fits_len x Hx). unfold addPair. destruct (eps_eq _ _ _); [eauto|]. rewrite kfirst_0 by apply Hx.
  destruct (sine_loop_spec x b z (length (dval x)) 0 (dval x)) as (w & E1 & E2 & _); [lia|lia|lia|]. eauto.
Qed.
Lemma addPairs_any t : forall x, fits x -> exists v, addPairs x t = Ok (with_dval x v) /\ length v = length (dval x).
Proof.
  induction t as [|[b z] t IH]; intros x Hx; [exists (dval x); split; [unfold addPairs; cbn; now destruct x|reflexivity]|].
  destruct (addPair_any x b z Hx) as (v & E & El). destruct (IH (with_dval x v)) as (w & F & Fl); [now apply fits_val|].
  exists w. unfold addPairs in *. cbn [fold_left fst snd]. rewrite E. split; [exact F|]. cbn [with_dval dval] in Fl. congruence.
Qed.
Lemma current_val x v : current x -> length v = length (dval x) -> current (with_dval x v).
Proof.
  intros (H1 & H2 & H3 & H4 & H5 & H6) E. split; [exact H1|]. split; [exact H2|]. split; [cbn; now rewrite E|]. split; [exact H4|]. split; [exact H5|].
  assert (Eo : oq (with_dval x v) = oq x) by (unfold oq, rcalchi, cached; cbn; now rewrite H1). rewrite Eo. exact H6.
Qed.
Definition kept_conf (c c' : dconf) : Prop :=
  exists q o, c' = upd_dconf c (k_rmin c) (k_rmax c) (k_rstep c) (k_qmin c) (k_qmax c) q o (k_maxext c) /\ (o = false -> q = k_qstep c /\ k_opt c = false).
Lemma setStructure_cases s x : dinv x -> (exists y, setStructure s x = Ok y) \/ (exists y, setStructure s x = Throw InvalidArgument y /\ dinv y /\ oq y <= SQRT_DOUBLE_EPS).
Proof.
  intros Hx. unfold setStructure, resetValue. set (x0 := {| dc := dc x; ds := s; dsc := dsc x; closteps := closteps x; chisteps := chisteps x; rcached := rcached x; dval := dval x; dtick := dtick x |}).
  destruct (updateQstep_cases (cacheRlimits x0)) as (q & o & [(E & _)|(E & Hq)]); rewrite E; cbn [andthen]; [left; eauto|right].
  eexists. split; [reflexivity|]. assert (Hc : dinv (cacheRlimits x0)) by (apply cache_inv; exact (proj1 Hx)).
  change (cached (cacheRlimits x0)) with (cacheRlimits x0). split.
  - apply setq_inv; [exact Hc|]. destruct Hx as (Hx & _). unfold dsettings_ok in Hx. cbn. tauto.
  - rewrite oq_setq by reflexivity. exact Hq.
Qed.
Lemma eval_cases o s t x : dinv x -> evaluates o s t ->
  (exists y z v, dstep o x = Ok y /\ setStructure s x = Ok z /\ y = with_dval z v /\ addPairs z t = Ok y /\ length v = length (dval z) /\ dinv z /\ current z /\ ds z = s) \/
  (exists y, dstep o x = Throw InvalidArgument y /\ dinv y /\ oq y <= SQRT_DOUBLE_EPS).
Proof.
  intros Hx Ho. destruct (setStructure_cases s x Hx) as [(z & E)|(y & E & H1 & H2)].
  - left. destruct (set_current s x z Hx E) as (Hz & Hcur & Hs & _). pose proof (current_fits z Hz Hcur) as Hf.
    destruct (addPairs_any t z Hf) as (v & Ev & El). exists (with_dval z v), z, v.
    destruct Ho as [[-> ->]| ->]; cbn [dstep]; unfold eval; rewrite E; cbn [andthen].
    + unfold addPairs in Ev. cbn in Ev. injection Ev as Ev. rewrite <- Ev. repeat (split; [auto; fail|]). auto.
    + repeat (split; [auto; fail|]). auto.
  - right. exists y. destruct Ho as [[-> ->]| ->]; cbn [dstep]; unfold eval; rewrite E; cbn [andthen]; auto.
Qed.
Lemma dstep_good o x : dinv x -> good (dstep o x).
Proof.
  intros Hx. pose proof Hx as (Hc & Hcov & Hn). pose proof Hc as (S1 & S2 & S3 & S4 & S5 & S6 & S7). pose proof eps_pos' as Hep.
  assert (Hrep : forall c click, dsettings_ok c -> k_rmax c = k_rmax (dc x) -> k_rstep c = k_rstep (dc x) -> dinv (with_conf x c click)).
  { intros c click H1 H2 H3. apply (conf_change_inv x false c click); auto. }
  destruct o; cbn [dstep].
  - unfold setRmin. destruct (Rltb r 0) eqn:E; [now apply good_throw|]. apply Rltb_false in E. apply good_ok, conf_change_inv; [auto|unfold dsettings_ok; cbn; tauto|auto].
  - unfold setRmax. destruct (Rltb r 0) eqn:E; [now apply good_throw|]. apply Rltb_false in E. apply good_update, conf_change_inv; [auto|unfold dsettings_ok; cbn; tauto|].
    intros H. apply negb_Reqb in H. now subst.
  - unfold setRstep. destruct (eps_gt r 0 SQRT_DOUBLE_EPS) eqn:E; cbn [negb]; [|now apply good_throw]. apply Rltb_true in E. rewrite Rplus_0_l in E.
    apply good_ok, conf_change_inv; [auto|unfold dsettings_ok; cbn; tauto|]. intros H. apply negb_Reqb in H. now subst.
  - unfold setQmin. destruct (Rltb q 0) eqn:E; [now apply good_throw|]. apply Rltb_false in E. apply good_ok, Hrep; [unfold dsettings_ok; cbn; tauto|auto|auto].
  - unfold setQmax. destruct (Rltb q 0) eqn:E; [now apply good_throw|]. apply Rltb_false in E. apply good_update, Hrep; [unfold dsettings_ok; cbn; tauto|auto|auto].
  - unfold setQstep, base_setQstep. destruct (eps_gt q 0 SQRT_DOUBLE_EPS) eqn:E; cbn [negb andthen]; [|now apply good_throw]. apply Rltb_true in E. rewrite Rplus_0_l in E.
    apply good_update. unfold set_opt. cbn [with_conf dc upd_dconf k_rmin k_rmax k_rstep k_qmin k_qmax k_qstep k_opt k_maxext].
    match goal with |- dinv (with_conf (with_conf x ?c ?b) _ _) => pose proof (Hrep c b) as H end.
    apply (conf_change_inv _ false); [apply H; [unfold dsettings_ok; cbn; tauto|reflexivity|reflexivity]|unfold dsettings_ok; cbn; tauto|auto].
  - unfold setOptimumQstep. apply good_update. apply Hrep; [unfold dsettings_ok; cbn; tauto|auto|auto].
  - unfold setMaxExtension. destruct (Rltb m 0) eqn:E; [now apply good_throw|]. apply Rltb_false in E. apply good_update, conf_change_inv; [auto|unfold dsettings_ok; cbn; tauto|auto].
  - apply good_ok, Hrep; [unfold dsettings_ok; cbn; tauto|auto|auto].
  - now apply setStructure_good.
  - destruct (eval_cases (DEval s t) s t x Hx) as [(y & z & v & E & _ & -> & _ & El & Hz & Hcur & _)|(y & E & Hy & _)]; [now right| |]; cbn [dstep] in E; rewrite E.
    + apply good_ok. exact Hz.
    + now apply good_throw.
Qed.
Lemma drun_good ops : forall x, dinv x -> exists y, fold_left drun_from ops (Ok x) = Ok y /\ dinv y.
Proof.
  induction ops as [|o ops IH]; intros x Hx; [exists x; auto|]. cbn [fold_left]. unfold drun_from at 2.
  destruct (dstep_good o x Hx) as (y & [E|[e E]] & Hy); rewrite E; now apply IH.
Qed.

(** *** Construction *)
Lemma oq_big x : dsettings_ok (dc x) -> 1 <= k_qmax (dc x) -> rcalchi x <= 100 -> SQRT_DOUBLE_EPS < oq x.
Proof.
  intros Hc Hq Hr. unfold oq, oqstep. pose proof PI_RGT_0 as Hpi. pose proof PI2_3_2 as H32. unfold SQRT_DOUBLE_EPS in *.
  destruct (Rltb 4 _) eqn:E; [|lra]. apply Rltb_true in E. assert (Hp : 0 < rcalchi x).
  { apply Rnot_le_lt. intros Hn. assert (k_qmax (dc x) * rcalchi x / PI <= 0); [|lra]. apply div_le_iff; [exact Hpi|]. nra. }
  apply lt_div_iff; [exact Hp|]. lra.
Qed.
Lemma nhi_bound c s : dsettings_ok c -> IZR (nhi c s) * k_rstep c < k_rmax c + k_maxext c + k_rstep c.
Proof.
  intros Hc. assert (He : ext_total c s <= k_maxext c) by (unfold ext_total; apply Rmin_l). destruct Hc as (_ & _ & Hr & _). pose proof eps_pos'.
  assert (Hd : 0 < k_rstep c) by lra. destruct (Rceil_spec ((k_rmax c + ext_total c s) / k_rstep c)) as [Hlo _].
  apply (lt_div_iff _ _ _ Hd) in Hlo. unfold nhi, rmaxSteps. lra.
Qed.
Definition small (x : deb) : Prop := k_rmax (dc x) = 10 /\ k_maxext (dc x) = 10 /\ k_rstep (dc x) = 1 / 100 /\ (chisteps x < 2051)%Z.
Lemma small_cache x : dsettings_ok (dc x) -> small x -> small (cacheRlimits x).
Proof.
  intros Hc (H1 & H2 & H3 & _). destruct (cache_hi x) as [[_ Hh] _]. pose proof (nhi_bound (dc x) (ds x) Hc) as Hb. rewrite H1, H2, H3 in Hb.
  split; [auto|]. split; [auto|]. split; [auto|]. assert (Hn : IZR (nhi (dc x) (ds x)) < IZR 2001) by lra. apply lt_IZR in Hn. lia.
Qed.
Lemma small_cached x : dsettings_ok (dc x) -> small x -> small (cached x).
Proof. intros Hc Hs. unfold cached. destruct (rcached x); [exact Hs|now apply small_cache]. Qed.
Lemma small_update x : dinv x -> small x -> 1 <= k_qmax (dc x) -> exists y, updateQstep x = Ok y /\ dinv y /\ small y /\ k_qmax (dc y) = k_qmax (dc x) /\ rcached y = true /\
  exists q o, dc y = upd_dconf (dc x) (k_rmin (dc x)) (k_rmax (dc x)) (k_rstep (dc x)) (k_qmin (dc x)) (k_qmax (dc x)) q o (k_maxext (dc x)) /\ (k_opt (dc x) = true -> o = true).
Proof.
  intros Hx Hs Hq. pose proof (small_cached x (proj1 Hx) Hs) as Hs'. destruct (cached_inv x Hx) as [Hc' _]. pose proof Hs as (A1 & A2 & A3 & _).
  assert (Hr : rcalchi x <= 100). { unfold rcalchi. rewrite A3. destruct Hs' as (_ & _ & _ & H). assert (IZR (chisteps (cached x)) <= 2051) by (apply IZR_le; lia). lra. }
  pose proof (oq_big x (proj1 Hx) Hq Hr) as Ho. destruct (updateQstep_cases x) as (q & o & [(E & _ & Ht & Hf)|(E & H)]); [|lra].
  eexists. split; [exact E|]. split.
  - apply setq_inv; [exact Hc'|]. destruct o; [now apply Ht|]. destruct (Hf eq_refl) as [-> _]. destruct Hx as (Hx & _). unfold dsettings_ok in Hx. tauto.
  - split; [exact Hs'|]. split; [cbn; now rewrite dc_cached|]. split; [cbn; apply rc_cached|].
    exists q, o. split; [unfold setq; rewrite dc_cached; reflexivity|]. intros Ho'. destruct o; [reflexivity|]. destruct (Hf eq_refl). congruence.
Qed.
Lemma new_ok sf mw env : exists x, newDebye sf mw env = Ok x /\ dinv x /\ small x /\ k_qmax (dc x) = 25 /\ rcached x = true /\ fits x /\
  exists q, dc x = {| k_rmin := 0; k_rmax := 10; k_rstep := 1 / 100; k_qmin := 0; k_qmax := 25; k_qstep := q; k_opt := true;
                     k_maxext := 10; k_prec := 1 / 1000000; k_sf := sf; k_mw := mw; k_env := env |}.
Proof.
  assert (Hr : Rltb 10 0 = false) by (apply Rltb_false; lra). assert (Hq : Rltb 25 0 = false) by (apply Rltb_false; lra).
  unfold newDebye, setRmax. rewrite Hr. set (x0 := with_conf (uncache _ _) _ _).
  assert (Hi : dinv x0). { apply conf_change_inv; unfold rawDebye; [|unfold dsettings_ok, SQRT_DOUBLE_EPS; cbn; lra|intros H; apply negb_Reqb in H; cbn in H; lra].
    split; [unfold dsettings_ok, SQRT_DOUBLE_EPS; cbn; lra|]. split; [discriminate|cbn; lia]. }
  assert (Hs : small x0). { assert (Hch : chisteps x0 = 0%Z) by (unfold x0; cbn [with_conf chisteps]; now destruct (uncache_fields (negb (Reqb (k_rmax (dc (rawDebye sf mw env))) 10)) (rawDebye sf mw env)) as (_ & _ & -> & _)).
    unfold small. rewrite Hch. cbn. split; [lra|]. split; [lra|]. split; [lra|lia]. }
  destruct (small_update x0 Hi Hs) as (x1 & -> & Hi1 & Hs1 & Hq1 & _ & q1 & o1 & E1 & _); [cbn; lra|]. cbn [andthen]. unfold setQmax. rewrite Hq. set (x2 := with_conf x1 _ _).
  assert (Hi2 : dinv x2). { pose proof Hi1 as ((? & ? & ? & ? & ? & ? & ?) & ? & ?). split; [unfold dsettings_ok; cbn; repeat split; auto; lra|]. split; auto. }
  assert (Hs2 : small x2) by exact Hs1. destruct (small_update x2 Hi2 Hs2) as (x3 & -> & Hi3 & Hs3 & Hq3 & _ & q3 & o3 & E3 & _); [cbn; lra|]. cbn [andthen]. unfold setOptimumQstep.
  assert (Hi4 : dinv (set_opt true x3)) by exact Hi3. assert (Hs4 : small (set_opt true x3)) by exact Hs3.
  assert (Hq4 : k_qmax (dc (set_opt true x3)) = 25) by (cbn [set_opt with_conf dc upd_dconf k_qmax]; rewrite Hq3; reflexivity).
  destruct (small_update _ Hi4 Hs4) as (x5 & -> & Hi5 & Hs5 & Hq5 & _ & q5 & o5 & E5 & O5); [rewrite Hq4; lra|]. cbn [andthen].
  rewrite Hq4 in Hq5. unfold setStructure, resetValue. set (x6 := {| dc := dc x5; ds := empty_stru; dsc := dsc x5; closteps := closteps x5; chisteps := chisteps x5; rcached := rcached x5; dval := dval x5; dtick := dtick x5 |}).
  assert (Hi7 : dinv (cacheRlimits x6)) by (apply cache_inv; exact (proj1 Hi5)).
  assert (Hs7 : small (cacheRlimits x6)) by (apply small_cache; [exact (proj1 Hi5)|exact Hs5]).
  assert (Hq7 : k_qmax (dc (cacheRlimits x6)) = 25) by exact Hq5.
  destruct (small_update _ Hi7 Hs7) as (x8 & -> & Hi8 & Hs8 & Hq8 & R8 & q8 & o8 & E8 & O8); [rewrite Hq7; lra|]. cbn [andthen]. eexists. split; [reflexivity|].
  split; [exact Hi8|]. split; [exact Hs8|]. split; [cbn; congruence|]. split; [exact R8|]. split.
  { split; [exact (proj1 Hi8)|]. split; [reflexivity|]. apply repeat_length. }
  exists q8. cbn [dc]. rewrite E8. change (dc (cacheRlimits x6)) with (dc x5) in *. rewrite E5 in *.
  cbn [k_rmin k_rmax k_rstep k_qmin k_qmax k_opt k_maxext upd_dconf k_prec k_sf k_mw k_env set_opt with_conf dc] in *.
  rewrite O8 by (apply O5; reflexivity). rewrite E3. unfold x2. cbn [dc with_conf upd_dconf k_rmin k_rmax k_rstep k_qmin k_qmax k_opt k_maxext k_prec k_sf k_mw k_env].
  rewrite E1. reflexivity.
Qed.
Lemma reach_inv ops sf mw env : exists x, drun ops (newDebye sf mw env) = Ok x /\ dinv x.
Proof. destruct (new_ok sf mw env) as (x & -> & Hx & _). now apply drun_good. Qed.

(** *** C34 *)
Section Eval.
  Variables (ops : list dop) (sf : string -> R -> R) (mw : dstru -> R -> R -> R) (env : list (R -> R)) (o : dop) (s : dstru) (t : list (pbond * Z)) (x y : deb).
  Hypothesis Hx : drun ops (newDebye sf mw env) = Ok x.
  Hypothesis Ho : evaluates o s t.
  Hypothesis Hy : dstep o x = Ok y.
  Lemma x_inv : dinv x. Proof. destruct (reach_inv ops sf mw env) as (x' & E & H). rewrite Hx in E. now injection E as ->. Qed.
  Lemma y_inv : dinv y /\ current y /\ ds y = s /\ kept_conf (dc x) (dc y).
  Proof.
    destruct (eval_cases o s t x x_inv Ho) as [(y' & z & v & E & Es & E2 & _ & El & Hz & Hcur & Hs)|(y' & E & _)]; rewrite Hy in E; [|discriminate].
    injection E as <-. subst y. split; [exact Hz|]. split; [now apply current_val|]. split; [exact Hs|].
    unfold setStructure, resetValue in Es. revert Es. set (x0 := {| dc := dc x; ds := s; dsc := dsc x; closteps := closteps x; chisteps := chisteps x; rcached := rcached x; dval := dval x; dtick := dtick x |}).
    destruct (updateQstep_cases (cacheRlimits x0)) as (q & o' & [(E & _ & _ & Hf)|(E & Hq)]); rewrite E; cbn [andthen]; [|discriminate]. intros Es. injection Es as <-.
    exists q, o'. split; [reflexivity|exact Hf].
  Qed.
  Lemma y_length : length (dval y) = Z.to_nat (qmaxSteps (dc y)). Proof. apply y_inv. Qed.
  Lemma y_value : pairs_ok s t -> forall k, (0 <= k < qmaxSteps (dc y))%Z ->
    nth (Z.to_nat k) (dval y) 0 = debye_cut (used_sf (dc y) s) (k_prec (dc y)) (k_qstep (dc y)) t k.
  Proof.
    intros Ht k Hk. destruct (eval_cases o s t x x_inv Ho) as [(y' & z & v & E & Es & E2 & Ea & El & Hz & Hcur & Hs)|(y' & E & _)]; rewrite Hy in E; [|discriminate].
    injection E as <-. destruct (set_current s x z x_inv Es) as (_ & _ & _ & H0 & _). rewrite <- Hs in Ht.
    destruct (addPairs_ok t z (current_fits z Hz Hcur) Ht) as (v' & Ev & Evl & Evn). rewrite Ea in Ev. injection Ev as Ev. subst y.
    assert (v = v') by (now injection Ev). subst v'. change (dc (with_dval z v)) with (dc z) in *. change (dval (with_dval z v)) with v. rewrite Evn by exact Hk.
    rewrite term_sum, Hs. replace (nth (Z.to_nat k) (dval z) 0) with 0; [lra|].
    destruct (Nat.lt_ge_cases (Z.to_nat k) (length (dval z))) as [Hl|Hl]; [|now rewrite nth_overflow]. rewrite Forall_forall in H0. apply H0. now apply nth_In.
  Qed.
End Eval.
Lemma kept_ext f g prec dq b z k : (forall i, i = b_s0 b \/ i = b_s1 b -> forall q, f i q = g i q) -> kept f prec dq b z k = kept g prec dq b z k.
Proof.
  intros H. unfold kept. induction (zrange 0 (k + 1)) as [|j l IH]; cbn [forallb]; [auto|]. rewrite IH. unfold amplitude. now rewrite !(H _ (or_introl eq_refl)), !(H _ (or_intror eq_refl)).
Qed.
Lemma debye_cut_ext f g prec dq s t k : (forall i q, (i < d_n s)%nat -> f i q = g i q) -> pairs_ok s t -> debye_cut f prec dq t k = debye_cut g prec dq t k.
Proof.
  intros H Ht. apply sumf_ext. intros [b z] Hb. destruct (Ht b z Hb) as [H0 H1]. cbn [fst snd]. rewrite (kept_ext f g) by (intros i [->| ->] q; now apply H).
  destruct (apart b && _); [|reflexivity]. unfold amplitude. now rewrite !H by auto.
Qed.
Lemma amplitude_mono f b z p q : decreasing_sf f -> 0 <= p <= q -> Rabs (amplitude f b z q) <= Rabs (amplitude f b z p).
Proof.
  intros Hf Hp. unfold amplitude, Rdiv. rewrite !Rabs_mult. set (w := b_fwhm b * / (2 * sqrt (2 * ln 2))).
  assert (He : Rabs (exp (- (w * q) ^ 2 * / 2)) <= Rabs (exp (- (w * p) ^ 2 * / 2))).
  { rewrite !Rabs_right by (left; apply exp_pos). assert (H : - (w * q) ^ 2 * / 2 <= - (w * p) ^ 2 * / 2).
    { assert (Hs : 0 <= w ^ 2) by apply pow2_ge_0. assert (p ^ 2 <= q ^ 2) by (apply pow_incr; lra).
      assert (w ^ 2 * p ^ 2 <= w ^ 2 * q ^ 2) by (now apply Rmult_le_compat_l). rewrite !Rpow_mult_distr. lra. }
    destruct H as [H|H]; [left; now apply exp_increasing|rewrite H; lra]. }
  apply Rmult_le_compat; [repeat apply Rmult_le_pos; apply Rabs_pos|apply Rabs_pos| |exact He].
  apply Rmult_le_compat_r; [apply Rabs_pos|]. apply Rmult_le_compat; [repeat apply Rmult_le_pos; apply Rabs_pos|apply Rabs_pos| |now apply Hf].
  apply Rmult_le_compat_l; [apply Rmult_le_pos; apply Rabs_pos|now apply Hf].
Qed.
Lemma sumf_abs_bound {A} (f : A -> R) k l : (forall x, In x l -> Rabs (f x) <= k) -> Rabs (sumf f l) <= INR (length l) * k.
Proof.
  induction l as [|a l IH]; intros H; [cbn; rewrite Rabs_R0; lra|]. rewrite sumf_cons. cbn [length]. rewrite S_INR.
  eapply Rle_trans; [apply Rabs_triang|]. assert (Rabs (f a) <= k) by (apply H; now left). assert (Rabs (sumf f l) <= INR (length l) * k) by (apply IH; intros; apply H; now right). lra.
Qed.
Lemma cut_error f prec dq t k : decreasing_sf f -> 0 <= prec -> 0 <= dq -> (0 <= k)%Z ->
  Rabs (debye_cut f prec dq t k - debye f t (IZR k * dq)) <= INR (length t) * prec.
Proof.
  intros Hf Hp Hd Hk. unfold debye_cut, debye. rewrite <- sumf_minus. apply sumf_abs_bound. intros [b z] _. cbn [fst snd].
  destruct (apart b); cbn [andb]; [|rewrite Rminus_0_r, Rabs_R0; exact Hp].
  destruct (kept f prec dq b z k) eqn:E; [replace (_ - _) with 0 by ring; rewrite Rabs_R0; exact Hp|].
  rewrite Rminus_0_l, Rabs_Ropp, Rabs_mult.
  assert (Hex : exists j, (0 <= j <= k)%Z /\ Rabs (amplitude f b z (IZR j * dq)) <= prec).
  { unfold kept in E. assert (Hl : forall j, In j (zrange 0 (k + 1)) -> (0 <= j <= k)%Z) by (intros j Hj; apply zrange_In in Hj; lia).
    revert Hl E. induction (zrange 0 (k + 1)) as [|j l IH]; intros Hl E; [discriminate|]. cbn [forallb] in E.
    destruct (Rltb prec (Rabs (amplitude f b z (IZR j * dq)))) eqn:Ej; [apply IH; [intros; apply Hl; now right|exact E]|].
    apply Rltb_false in Ej. exists j. split; [apply Hl; now left|exact Ej]. }
  destruct Hex as (j & Hj & Hle). assert (Hj0 : 0 <= IZR j) by (apply (IZR_le 0); lia). assert (Hjk : IZR j <= IZR k) by (apply IZR_le; lia).
  assert (Hm : Rabs (amplitude f b z (IZR k * dq)) <= prec).
  { eapply Rle_trans; [apply (amplitude_mono f b z (IZR j * dq)); [exact Hf|]|exact Hle]. split; [now apply Rmult_le_pos|]. apply Rmult_le_compat_r; auto. }
  assert (Hs : Rabs (sin (IZR k * dq * b_dist b)) <= 1) by (apply Rabs_le; apply SIN_bound).
  assert (0 <= Rabs (amplitude f b z (IZR k * dq))) by apply Rabs_pos. assert (0 <= Rabs (sin (IZR k * dq * b_dist b))) by apply Rabs_pos. nra.
Qed.
(** F *)
Lemma getF_value y : fits y -> atoms (ds y) = 0 \/ SQRT_DOUBLE_EPS < atoms (ds y) ->
  getF y = Ok (map (fun k => normalised (used_sf (dc y) (ds y)) (ds y) (IZR k * k_qstep (dc y)) (nth (Z.to_nat k) (dval y) 0)) (zrange 0 (qmaxSteps (dc y)))).
Proof.
  intros Hy Ha. pose proof (fits_len y Hy) as Hl. destruct Hy as (Hc & Hs & Hn). unfold getF. rewrite kfirst_0 by exact Hc. rewrite Hl, Hs, average_length.
  pose proof (qmaxSteps_nonneg _ Hc) as Hq. rewrite Z2Nat.id by exact Hq. rewrite !Z.ltb_irrefl. cbn [orb]. f_equal. apply map_ext_in. intros k Hk. apply zrange_In in Hk.
  destruct (Z.leb_spec 0 k), (Z.ltb_spec k (qmaxSteps (dc y))); try lia. cbn [andb]. unfold fscale. rewrite Hs, total_eq, average_eq by auto.
  unfold normalised, mean_of. destruct Ha as [Ha|Ha].
  - rewrite Ha, !Rmult_0_r. unfold Reqb. destruct (Req_EM_T 0 0); [lra|congruence].
  - unfold eps_gt. replace (Rltb (0 + SQRT_DOUBLE_EPS) (atoms (ds y))) with true by (symmetry; apply Rltb_true; lra).
    set (u := sumf _ _). set (a := atoms (ds y)) in *. pose proof eps_pos'. replace (1 / a * u) with (u / a) by (unfold Rdiv; ring).
    destruct (Reqb (u / a * a) 0); [lra|]. unfold Rdiv. rewrite Rmult_1_l. do 2 f_equal. ring.
Qed.
