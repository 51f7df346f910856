(** Proofs for DebyePDFCalculator: G(r) from F(Q). *)
From Coq Require Import String.
From Verif Require Import RBase AList Trig Sums PdfGrid PdfProofs PdfMain PdfFft PdfResult Debye DebyeSpec DebyeProofs DebyeSum DebyeMain.
Open Scope R_scope.

Lemma list_map0 (F : list R) : F = map (fun k => nth (Z.to_nat k) F 0) (zrange 0 (Z.of_nat (length F))).
Proof. rewrite (as_map F 0 (Z.of_nat (length F))) at 1 by lia. apply map_ext. intros n. now rewrite Z.sub_0_r. Qed.
Lemma pad0_map (F : list R) n : (Z.of_nat (length F) <= n)%Z -> pad0 F n = map (fun k => nth (Z.to_nat k) F 0) (zrange 0 n).
Proof.
  intros H. unfold pad0. rewrite (list_map0 F) at 1. rewrite (zrange_app 0 (Z.of_nat (length F)) n) by lia. rewrite map_app. f_equal.
  assert (E : map (fun k => nth (Z.to_nat k) F 0) (zrange (Z.of_nat (length F)) n) = map (fun _ => 0) (zrange (Z.of_nat (length F)) n)).
  { apply map_ext_in. intros k Hk. apply zrange_In in Hk. apply nth_overflow. lia. }
  rewrite E. unfold zrange. rewrite map_map. replace (Z.to_nat n - length F)%nat with (Z.to_nat (n - Z.of_nat (length F))) by lia.
  generalize (Z.to_nat (n - Z.of_nat (length F))) as m. intros m. generalize 0%nat as a. induction m as [|m IH]; intros a; cbn; [auto|]. now rewrite <- IH.
Qed.
Lemma nth_map_zrange (f : Z -> R) n k : (0 <= k < n)%Z -> nth (Z.to_nat k) (map f (zrange 0 n)) 0 = f k.
Proof. intros H. rewrite map_zrange by lia. rewrite nth_map_seq by lia. f_equal. lia. Qed.
Definition first_q (y : deb) (qmin : R) : Z := qminSteps qmin (k_qstep (dc y)).
(** length of the padded array *)
Definition npad (y : deb) (F : list R) : Z := padded (Z.max (Z.of_nat (length F)) (Rceil (PI / k_rstep (dc y) / k_qstep (dc y)))).
Definition delta (y : deb) (F : list R) : R := PI / (IZR (npad y F) * k_qstep (dc y)).
Lemma settings_pos c : dsettings_ok c -> 0 < k_rstep c /\ 0 < k_qstep c.
Proof. intros (_ & _ & H1 & _ & _ & H2 & _). pose proof eps_pos'. split; lra. Qed.
Lemma nfromdr_pos y : dsettings_ok (dc y) -> (1 <= Rceil (PI / k_rstep (dc y) / k_qstep (dc y)))%Z.
Proof.
  intros H. destruct (settings_pos _ H) as [H1 H2]. apply (Zlt_le_succ 0). apply Rceil_gt. apply Rdiv_lt_0_compat; [|exact H2]. apply Rdiv_lt_0_compat; [apply PI_RGT_0|exact H1].
Qed.
Lemma npad_pos y F : dsettings_ok (dc y) -> (0 < npad y F)%Z.
Proof. intros H. apply padded_pos. pose proof (nfromdr_pos y H). lia. Qed.
Lemma npad_ge y F : dsettings_ok (dc y) -> PI / k_rstep (dc y) / k_qstep (dc y) <= IZR (npad y F).
Proof.
  intros H. pose proof (nfromdr_pos y H) as Hn. eapply Rle_trans; [apply Rceil_spec|]. apply IZR_le. unfold npad.
  eapply Z.le_trans; [|apply padded_ge; lia]. lia.
Qed.
Lemma delta_ok y F : dsettings_ok (dc y) -> 0 < delta y F <= k_rstep (dc y).
Proof.
  intros H. destruct (settings_pos _ H) as [H1 H2]. pose proof (npad_pos y F H) as Hn. apply (IZR_lt 0) in Hn. pose proof PI_RGT_0 as Hpi. unfold delta. split.
  - apply Rdiv_lt_0_compat; [exact Hpi|]. now apply Rmult_lt_0_compat.
  - apply div_le_iff; [now apply Rmult_lt_0_compat|]. pose proof (npad_ge y F H) as Hg. apply (proj1 (div_le_iff _ _ _ H2)) in Hg. apply (proj1 (div_le_iff _ _ _ H1)) in Hg. lra.
Qed.
(** what the transform of the padded array holds *)
Lemma transform_ok y F qmin : dsettings_ok (dc y) -> 0 <= qmin -> getF y = Ok F ->
  let g := map (fun j => sine_transform (k_qstep (dc y)) F (first_q y qmin) (IZR j * delta y F)) (zrange 0 (npad y F)) in
  getPDFAtQmin qmin y = mapo (interpolate g (delta y F)) (getRgrid y).
Proof.
  intros H Hq HF g. destruct (settings_pos _ H) as [H1 H2]. unfold getPDFAtQmin. rewrite HF. cbn [bind].
  set (L := Z.of_nat (length F)). set (nf := Rceil (PI / k_rstep (dc y) / k_qstep (dc y))). fold (first_q y qmin). set (fq := first_q y qmin).
  assert (Hf : (0 <= fq)%Z). { unfold fq, first_q. rewrite qminSteps_rmin by lra. apply rminSteps_nonneg; [|exact Hq]. destruct H as (_ & _ & _ & _ & _ & H & _). exact H. }
  rewrite (list_map0 F) at 1. fold L. rewrite fill_map by lia. cbn [bind]. set (h := fun k => if ((0 <=? k) && (k <? Z.min fq L))%Z then 0 else nth (Z.to_nat k) F 0).
  assert (Hlen : length (map h (zrange 0 L)) = length F) by (rewrite map_length, zrange_length; lia). rewrite Hlen. fold L.
  assert (Epad : (if (L <? nf)%Z then pad0 (map h (zrange 0 L)) nf else map h (zrange 0 L)) = map h (zrange 0 (Z.max L nf))).
  { destruct (Z.ltb_spec L nf).
    - rewrite pad0_map by (rewrite Hlen; fold L; lia). replace (Z.max L nf) with nf by lia. apply map_ext_in. intros k Hk. apply zrange_In in Hk.
      destruct (Z.lt_ge_cases k L); [now rewrite nth_map_zrange by lia|]. rewrite nth_overflow by (rewrite Hlen; lia). unfold h.
      destruct ((0 <=? k) && (k <? Z.min fq L))%Z; [reflexivity|]. symmetry. apply nth_overflow. lia.
    - now replace (Z.max L nf) with L by lia. }
  rewrite Epad. pose proof (nfromdr_pos y H) as Hn. fold nf in Hn. unfold fftftog.
  replace 0 with (IZR 0 * k_qstep (dc y)) at 1 by ring. rewrite fftgtof_map by (auto; lia). cbn [bind].
  fold L nf in g |- *. assert (En : padded (Z.max L nf) = npad y F) by reflexivity. rewrite En.
  rewrite map_map, !map_length, zrange_length. pose proof (npad_pos y F H) as Hp. rewrite Z.sub_0_r, INR_IZR by lia. fold (delta y F).
  f_equal. f_equal. unfold g. apply map_ext_in. intros j Hj. unfold sine_transform. fold L. match goal with |- ?a * ?s * ?b = _ => replace (a * s * b) with (b * a * s) by ring end. f_equal.
  rewrite (zrange_app 0 L (Z.max L nf)) by lia. rewrite sumf_app. rewrite (sumf_zero _ (zrange L (Z.max L nf))).
  2:{ intros k Hk. apply zrange_In in Hk. unfold h. replace (nth (Z.to_nat k) F 0) with 0 by (symmetry; apply nth_overflow; lia). destruct (_ && _)%bool; ring. }
  rewrite Rplus_0_r. apply sumf_ext. intros k Hk. apply zrange_In in Hk. unfold h. fold fq. destruct (Z.leb_spec 0 k); [|lia].
  destruct (Z.ltb_spec k (Z.min fq L)), (Z.leb_spec fq k); try lia; cbn [andb].
  { ring. }
  f_equal. f_equal. unfold delta. apply (IZR_lt 0) in Hp. field. split; lra.
Qed.
Lemma mapo_ok f g l : (forall r, In r l -> f r = Ok (g r)) -> mapo f l = Ok (map g l).
Proof.
  induction l as [|r l IH]; intros H; cbn [mapo map]; [auto|]. rewrite (H r) by (now left). rewrite IH by (intros; apply H; now right). reflexivity.
Qed.
Lemma interpolate_ok (G : Z -> R) N d r : 0 < d -> 0 <= r -> (Rfloor (r / d) + 1 < N)%Z ->
  interpolate (map G (zrange 0 N)) d r = Ok ((1 - (r / d - IZR (Rfloor (r / d)))) * G (Rfloor (r / d)) + (r / d - IZR (Rfloor (r / d))) * G (Rfloor (r / d) + 1)%Z).
Proof.
  intros Hd Hr HN. assert (H0 : (0 <= Rfloor (r / d))%Z). { apply Rfloor_le. apply Rmult_le_pos; [exact Hr|]. left. now apply Rinv_0_lt_compat. }
  unfold interpolate. rewrite map_length, zrange_length. destruct (Z.ltb_spec (Rfloor (r / d)) 0); [lia|].
  destruct (Z.leb_spec (Z.of_nat (Z.to_nat (N - 0))) (Rfloor (r / d) + 1)); [lia|]. cbn [orb]. rewrite !nth_map_zrange by lia. reflexivity.
Qed.
(** the step Q is not above pi / rcalchi *)
Lemma qstep_hi y : dinv y -> current y -> k_qstep (dc y) * (IZR (chisteps y) * k_rstep (dc y)) <= PI.
Proof.
  intros Hy (Hr & _ & _ & _ & _ & Hq & _). pose proof PI_RGT_0 as Hpi. destruct (settings_pos _ (proj1 Hy)) as [H1 H2].
  assert (Er : rcalchi y = IZR (chisteps y) * k_rstep (dc y)) by (unfold rcalchi, cached; now rewrite Hr). rewrite <- Er. unfold oq, oqstep in Hq.
  assert (Hh : 0 <= rcalchi y). { rewrite Er. apply Rmult_le_pos; [|lra]. apply (IZR_le 0). apply Hy. }
  destruct (Rltb 4 (k_qmax (dc y) * rcalchi y / PI)) eqn:E.
  - apply Rltb_true in E. assert (Hp : 0 < rcalchi y). { apply Rnot_le_lt. intros Hn. assert (E0 : rcalchi y = 0) by lra. rewrite E0 in E. unfold Rdiv in E. lra. }
    apply (proj1 (le_div_iff _ _ _ Hp)) in Hq. exact Hq.
  - apply Rltb_false in E. apply (proj1 (div_le_iff _ _ _ Hpi)) in E. nra.
Qed.
Lemma index_ok y F r : dinv y -> current y -> (rmaxSteps (k_rmax (dc y)) (k_rstep (dc y)) < chisteps y)%Z -> In r (getRgrid y) ->
  0 <= r /\ (Rfloor (r / delta y F) + 1 < npad y F)%Z.
Proof.
  intros Hy Hcur Hlt Hr. pose proof Hy as (Hc & _). destruct (settings_pos _ Hc) as [H1 H2]. unfold getRgrid, grid in Hr. apply in_map_iff in Hr. destruct Hr as (n & <- & Hn).
  apply zrange_In in Hn. set (m := rmaxSteps (k_rmax (dc y)) (k_rstep (dc y))) in *. set (c := chisteps y) in *.
  assert (Hn0 : (0 <= n)%Z). { eapply Z.le_trans; [|apply Hn]. destruct Hc as (Ha & _ & Hb & _). now apply rminSteps_nonneg. }
  split; [apply Rmult_le_pos; [now apply (IZR_le 0)|lra]|]. pose proof (qstep_hi y Hy Hcur) as Hq. fold c in Hq. pose proof (npad_ge y F Hc) as Hg. pose proof (npad_pos y F Hc) as Hp.
  set (N := npad y F) in *. pose proof PI_RGT_0 as Hpi. set (dr := k_rstep (dc y)) in *. set (dq := k_qstep (dc y)) in *.
  assert (HNc : IZR c <= IZR N).
  { eapply Rle_trans; [|exact Hg]. apply le_div_iff; [exact H2|]. apply le_div_iff; [exact H1|]. lra. }
  apply le_IZR in HNc.
  assert (Hbound : (Rfloor (IZR n * dr / delta y F) < N - 1)%Z); [|lia]. apply Rfloor_lt. unfold delta. fold N dq.
  assert (HN0 : 0 < IZR N) by (now apply (IZR_lt 0)). replace (IZR n * dr / (PI / (IZR N * dq))) with (IZR N * (IZR n * dr * dq) / PI) by (field; repeat split; lra).
  apply div_lt_iff; [exact Hpi|]. rewrite minus_IZR.
  assert (Hcn : IZR n * IZR N < IZR c * (IZR N - 1)).
  { rewrite <- minus_IZR, <- !mult_IZR. apply IZR_lt. assert (H : (n + 2 <= c)%Z) by lia. nia. }
  assert (Hc0 : 0 < IZR c) by (apply (IZR_lt 0); lia).
  apply (Rmult_lt_reg_l (IZR c)); [exact Hc0|].
  apply Rle_lt_trans with (IZR n * IZR N * PI).
  - replace (IZR c * (IZR N * (IZR n * dr * dq))) with (IZR n * IZR N * (dq * (IZR c * dr))) by ring. apply Rmult_le_compat_l; [|exact Hq].
    apply Rmult_le_pos; [now apply (IZR_le 0)|lra].
  - rewrite <- Rmult_assoc. apply Rmult_lt_compat_r; [exact Hpi|exact Hcn].
Qed.
Lemma pdf_at y F qmin : dinv y -> current y -> (rmaxSteps (k_rmax (dc y)) (k_rstep (dc y)) < chisteps y)%Z -> 0 <= qmin -> getF y = Ok F ->
  getPDFAtQmin qmin y = Ok (map (interpolated (delta y F) (sine_transform (k_qstep (dc y)) F (first_q y qmin))) (getRgrid y)).
Proof.
  intros Hy Hcur Hlt Hq HF. rewrite (transform_ok y F qmin (proj1 Hy) Hq HF). apply mapo_ok. intros r Hr. destruct (index_ok y F r Hy Hcur Hlt Hr) as [H0 Hi].
  rewrite interpolate_ok by (auto; apply delta_ok; apply Hy). reflexivity.
Qed.
Lemma env_ok y f l : applyEnvelopes y l (map f l) = Ok (map (fun r => f r * envelope (dc y) r) l).
Proof.
  unfold applyEnvelopes, envelope. revert f. induction (k_env (dc y)) as [|e es IH]; intros f; cbn [fold_left fold_right].
  - f_equal. apply map_ext. intros; ring.
  - cbn [bind]. assert (E : map2 (fun r z => z * e r) l (map f l) = Ok (map (fun r => f r * e r) l)).
    { clear IH. induction l as [|r l IH]; cbn [map2 map]; [auto|]. now rewrite IH. }
    rewrite E, IH. f_equal. apply map_ext. intros. ring.
Qed.
(** enough room when the range is extended by a step or more *)
Lemma room y : dinv y -> current y -> k_rstep (dc y) <= ext_total (dc y) (ds y) -> (rmaxSteps (k_rmax (dc y)) (k_rstep (dc y)) < chisteps y)%Z.
Proof.
  intros Hy (_ & _ & _ & Hh & _) He. destruct (settings_pos _ (proj1 Hy)) as [H1 _]. eapply Z.lt_le_trans; [|apply Hh]. unfold nhi.
  apply Rceil_gt. destruct (Rceil_spec (k_rmax (dc y) / k_rstep (dc y))) as [H _]. unfold rmaxSteps at 1. set (m := Rceil _) in *.
  apply lt_div_iff; [exact H1|]. apply (proj1 (lt_div_iff _ _ _ H1)) in H. lra.
Qed.
Lemma F_defined y : fits y -> exists F, getF y = Ok F /\ length F = Z.to_nat (qmaxSteps (dc y)).
Proof.
  intros Hy. pose proof (fits_len y Hy) as Hl. destruct Hy as (Hc & Hs & Hn). unfold getF. rewrite kfirst_0 by exact Hc. rewrite Hl, Hs, average_length.
  pose proof (qmaxSteps_nonneg _ Hc) as Hq. rewrite Z2Nat.id by exact Hq. rewrite !Z.ltb_irrefl. cbn [orb]. eexists. split; [reflexivity|].
  rewrite map_length, zrange_length. now rewrite Z.sub_0_r.
Qed.
(** *** Out of the array *)
Lemma index_bad y F m : dinv y -> current y -> getF y = Ok F -> (0 < m)%Z -> chisteps y = m -> rmaxSteps (k_rmax (dc y)) (k_rstep (dc y)) = m ->
  k_qstep (dc y) = PI / (IZR m * k_rstep (dc y)) -> npad y F = m -> k_rmin (dc y) = 0 -> getPDF y = UB.
Proof.
  intros Hy Hcur HF Hm Hch Hmx Hq Hn Hr0. destruct (settings_pos _ (proj1 Hy)) as [H1 H2]. pose proof Hy as ((S1 & _ & S3 & S4 & _) & _). unfold getPDF. rewrite (transform_ok y F _ (proj1 Hy) S4 HF). rewrite Hn.
  assert (Hd : delta y F = k_rstep (dc y)). { unfold delta. rewrite Hn, Hq. apply (IZR_lt 0) in Hm. pose proof PI_RGT_0. field. repeat split; lra. }
  rewrite Hd. unfold getRgrid. rewrite Hmx.
  assert (E0 : rminSteps (k_rmin (dc y)) (k_rstep (dc y)) = 0%Z).
  { rewrite Hr0. pose proof eps_pos'. assert ((rminSteps 0 (k_rstep (dc y)) <= 0)%Z) by (apply rminSteps_le; lra). assert (Hx := rminSteps_nonneg 0 (k_rstep (dc y)) S3 (Rle_refl 0)). lia. }
  rewrite E0. set (g := map _ (zrange 0 m)).
  assert (Hg : length g = Z.to_nat m) by (unfold g; rewrite map_length, zrange_length; lia). clearbody g.
  assert (HU : forall f l, (exists r, In r l /\ f r = UB) -> mapo f l = UB).
  { intros f l (r & Hr & Ef). induction l as [|r' l IH]; [destruct Hr|]. cbn [mapo]. destruct Hr as [->|Hr]; [now rewrite Ef|].
    destruct (f r'); try reflexivity. now rewrite (IH Hr). }
  rewrite HU; [reflexivity|]. exists (IZR (m - 1) * k_rstep (dc y)). split; [unfold grid; apply in_map_iff; exists (m - 1)%Z; split; [reflexivity|apply zrange_In; lia]|].
  unfold interpolate. rewrite Hg. replace (IZR (m - 1) * k_rstep (dc y) / k_rstep (dc y)) with (IZR (m - 1)) by (field; lra).
  assert (Ef : Rfloor (IZR (m - 1)) = (m - 1)%Z). { apply Z.le_antisymm; [|apply Rfloor_le; lra]. apply Zlt_succ_le. apply Rfloor_lt. apply IZR_lt. lia. }
  rewrite Ef. destruct (Z.leb_spec (Z.of_nat (Z.to_nat m)) (m - 1 + 1)); [|lia]. now rewrite orb_true_r.
Qed.
