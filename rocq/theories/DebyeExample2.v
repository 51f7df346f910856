(** More concrete DebyePDFCalculator histories. *)
From Coq Require Import String.
From Verif Require Import RBase AList Trig Sums PdfGrid PdfProofs PdfMain PdfFft PdfResult Debye DebyeSpec DebyeProofs DebyeSum DebyeMain DebyePdf DebyeFast DebyeExample.
Open Scope R_scope.

(** *** Sites of one type with different occupancies *)
Definition half_empty : dstru := one_type 2 (fun i => if (i =? 0)%nat then 1 else 0).
Definition bond01 : pbond := {| b_s0 := 0; b_s1 := 1; b_mult := 1; b_dist := 1; b_fwhm := 0 |}.
Lemma eval_small ops s t sf mw env : (exists x, drun ops (newDebye sf mw env) = Ok x /\ dinv x /\ small x /\ k_qmax (dc x) = 25) ->
  exists x y, drun ops (newDebye sf mw env) = Ok x /\ dstep (DEval s t) x = Ok y /\ dinv y /\ current y /\ small y /\ k_qmax (dc y) = 25 /\ k_prec (dc y) = k_prec (dc x) /\ k_sf (dc y) = k_sf (dc x) /\ (k_opt (dc x) = true -> k_opt (dc y) = true).
Proof.
  intros (x & E & Hx & Hs & Hq). exists x.
  assert (Hi7 : dinv (cacheRlimits (with_ds x s))) by (apply cache_inv; exact (proj1 Hx)).
  assert (Hs7 : small (cacheRlimits (with_ds x s))) by (apply small_cache; [exact (proj1 Hx)|exact Hs]).
  destruct (small_update _ Hi7 Hs7) as (x8 & E8 & Hi8 & Hs8 & Hq8 & R8 & q8 & o8 & Ed8 & O8); [cbn; rewrite Hq; lra|].
  destruct (eval_cases (DEval s t) s t x Hx) as [(y & z & v & Ey & Ez & -> & _ & El & Hz & Hcur & Hds)|(y & Ey & _)]; [now right| |].
  - exists (with_dval z v). split; [exact E|]. split; [exact Ey|]. split; [exact Hz|]. split; [now apply current_val|].
    unfold setStructure, resetValue in Ez. fold (with_ds x s) in Ez. rewrite E8 in Ez. cbn [andthen] in Ez. injection Ez as <-. cbn. rewrite Hq8. split; [exact Hs8|].
    split; [exact Hq|]. rewrite Ed8. cbn. auto.
  - exfalso. cbn [dstep] in Ey. unfold eval, setStructure, resetValue in Ey. fold (with_ds x s) in Ey. rewrite E8 in Ey. cbn [andthen] in Ey.
    match type of Ey with addPairs ?w _ = _ => assert (Hf : fits w) end.
    { split; [exact (proj1 Hi8)|]. split; [reflexivity|apply repeat_length]. }
    destruct (addPairs_any t _ Hf) as (v & Ev & _). rewrite Ev in Ey. discriminate.
Qed.
Lemma qstep_small y : dinv y -> current y -> small y -> k_qmax (dc y) = 25 -> SQRT_DOUBLE_EPS < k_qstep (dc y) < 1 /\ (1 < qmaxSteps (dc y))%Z /\
  (k_opt (dc y) = true -> k_qstep (dc y) = PI / (IZR (chisteps y) * k_rstep (dc y))) /\ (1000 <= chisteps y)%Z.
Proof.
  intros Hy Hcur (S1 & S2 & S3 & S4) Hq. pose proof PI_34 as Hpi. pose proof Hy as (Hc & Hcov & Hn). destruct Hcur as (Hr & _ & _ & _ & _ & Hle & Ho).
  assert (Hh : (1000 <= chisteps y)%Z). { specialize (Hcov Hr). rewrite S1, S3 in Hcov. unfold rmaxSteps in Hcov. rewrite (Rceil_is _ 1000) in Hcov by lra. exact Hcov. }
  assert (Hh' := Hh). apply IZR_le in Hh. assert (Er : rcalchi y = IZR (chisteps y) * k_rstep (dc y)) by (unfold rcalchi, cached; now rewrite Hr).
  assert (Hoq : oq y = PI / (IZR (chisteps y) * k_rstep (dc y))).
  { unfold oq, oqstep. rewrite Er, Hq, S3. replace (Rltb 4 _) with true; [reflexivity|]. symmetry. apply Rltb_true. apply lt_div_iff; lra. }
  rewrite Hoq, S3 in *. assert (Hlt : PI / (IZR (chisteps y) * (1 / 100)) < 1) by (apply div_lt_iff; lra).
  split; [split; [|lra]; destruct Hc as (_ & _ & _ & _ & _ & H & _); exact H|]. split; [|auto]. apply qmaxSteps_lt'; [exact Hc|]. rewrite Hq. lra.
Qed.
Lemma occupancy_shared : exists x y, drun [DObjects 0 sf1 mw2 []] (newDebye sf1 mw2 []) = Ok x /\ dstep (DEval half_empty [(bond01, 2%Z)]) x = Ok y /\
  pairs_ok half_empty [(bond01, 2%Z)] /\ (1 < qmaxSteps (dc y))%Z /\ k_prec (dc y) = 0 /\
  (forall q, debye (own_sf (dc y) half_empty) [(bond01, 2%Z)] q = 0) /\ nth 1 (dval y) 0 = 2 * sin (k_qstep (dc y)) /\ 0 < sin (k_qstep (dc y)).
Proof.
  destruct (new_ok sf1 mw2 []) as (x0 & E0 & Hx0 & Hs0 & Hq0 & _ & _ & q0 & Hd0).
  assert (Ex : drun [DObjects 0 sf1 mw2 []] (newDebye sf1 mw2 []) = Ok (setObjects 0 sf1 mw2 [] x0)) by (unfold drun; cbn [fold_left]; rewrite E0; reflexivity).
  destruct (eval_small [DObjects 0 sf1 mw2 []] half_empty [(bond01, 2%Z)] sf1 mw2 []) as (x & y & E & Ey & Hy & Hcur & Hs & Hq & Hp & Hsf & _).
  { exists (setObjects 0 sf1 mw2 [] x0). split; [exact Ex|]. split; [|split; [exact Hs0|exact Hq0]].
    destruct (dstep_good (DObjects 0 sf1 mw2 []) x0 Hx0) as (z & [Ez|[e Ez]] & Hz); [|discriminate]. cbn [dstep] in Ez. injection Ez as ->. exact Hz. }
  rewrite Ex in E. assert (Exx : setObjects 0 sf1 mw2 [] x0 = x) by (now injection E). subst x.
  exists (setObjects 0 sf1 mw2 [] x0), y. destruct (qstep_small y Hy Hcur Hs Hq) as ((Q1 & Q2) & Q3 & _).
  assert (Hpk : pairs_ok half_empty [(bond01, 2%Z)]) by (intros b z [H|[]]; injection H as <- <-; cbn; lia).
  assert (Hp0 : k_prec (dc y) = 0) by (rewrite Hp; reflexivity). assert (Hsf' : k_sf (dc y) = sf1) by (rewrite Hsf; reflexivity).
  split; [exact Ex|]. split; [exact Ey|]. split; [exact Hpk|]. split; [exact Q3|]. split; [exact Hp0|]. split.
  { intros q. unfold debye. rewrite sumf_cons, sumf_nil. cbn [fst snd]. destruct (apart bond01); [|lra]. unfold amplitude, own_sf. cbn [bond01 b_s1 half_empty one_type d_occ Nat.eqb].
    unfold Rdiv. rewrite !Rmult_0_r, !Rmult_0_l. lra. }
  pose proof eps_pos' as Hep. pose proof PI_34 as Hpi. assert (Hsin : 0 < sin (k_qstep (dc y))) by (apply sin_gt_0; lra). split; [|exact Hsin].
  assert (Hv := y_value [DObjects 0 sf1 mw2 []] sf1 mw2 [] (DEval half_empty [(bond01, 2%Z)]) half_empty [(bond01, 2%Z)] _ y Ex (or_intror eq_refl) Ey Hpk 1%Z ltac:(lia)).
  change (Z.to_nat 1) with 1%nat in Hv. rewrite Hv, Hp0. unfold debye_cut. rewrite sumf_cons, sumf_nil. cbn [fst snd].
  assert (Ha : forall q, amplitude (used_sf (dc y) half_empty) bond01 2 q = 2).
  { intros q. unfold amplitude, used_sf, own_sf. rewrite Hsf'. cbn. unfold sf1. unfold Rdiv. rewrite !Rmult_0_l, !Rmult_1_l, !Rmult_1_r, Ropp_0, Rmult_0_l, exp_0, Rinv_1. lra. }
  replace (apart bond01) with true by (symmetry; apply Rltb_true; cbn; rewrite Rabs_R1; unfold SQRT_DOUBLE_EPS; lra).
  assert (Hk : kept (used_sf (dc y) half_empty) 0 (k_qstep (dc y)) bond01 2 1 = true).
  { unfold kept. apply forallb_forall. intros j _. rewrite Ha. apply Rltb_true. rewrite Rabs_right; lra. }
  rewrite Hk. cbn [andb]. rewrite Ha. cbn [bond01 b_dist]. rewrite Rplus_0_r, Rmult_1_r, Rmult_1_l. reflexivity.
Qed.

(** *** A rejected Qmax is kept *)
Lemma qmax_zero sf mw env : exists x z, newDebye sf mw env = Ok x /\ k_qmax (dc x) = 25 /\ dstep (DQmax 0) x = Throw InvalidArgument z /\ k_qmax (dc z) = 0 /\
  forall s t, exists w, dstep (DEval s t) z = Throw InvalidArgument w.
Proof.
  destruct (new_ok sf mw env) as (x & E & Hx & _ & Hq & _ & _ & q & Hd). exists x. cbn [dstep]. unfold setQmax. replace (Rltb 0 0) with false by (symmetry; apply Rltb_false; lra).
  set (x1 := with_conf x _ _). pose proof Hx as ((S1 & S2 & S3 & S4 & S5 & S6 & S7) & Hc & Hn). pose proof eps_pos'.
  assert (Hx1 : dinv x1). { split; [unfold dsettings_ok; cbn; repeat split; auto; lra|]. split; [exact Hc|exact Hn]. }
  assert (Hoq : oq x1 = 0). { unfold oq, oqstep. change (k_qmax (dc x1)) with 0. unfold Rdiv. rewrite !Rmult_0_l. replace (Rltb 4 0) with false by (symmetry; apply Rltb_false; lra). reflexivity. }
  destruct (updateQstep_cases x1) as (q1 & o1 & [(E1 & Hle & Ht & Hf)|(E1 & _)]).
  { exfalso. rewrite Hoq in *. destruct o1; [destruct (Ht eq_refl); lra|]. destruct (Hf eq_refl) as [-> _]. change (k_qstep (dc x1)) with (k_qstep (dc x)) in Hle. lra. }
  exists (setq (cached x1) (k_qstep (dc x1)) o1). split; [exact E|]. split; [exact Hq|]. split; [exact E1|].
  assert (Hqz : k_qmax (dc (setq (cached x1) (k_qstep (dc x1)) o1)) = 0) by (cbn; now rewrite dc_cached). split; [exact Hqz|].
  intros s t. apply zero_qmax; [|exact Hqz]. apply setq_inv; [apply (cached_inv x1 Hx1)|]. exact S6.
Qed.

(** *** A greater Qmax after an evaluation *)
Lemma stale_F sf mw env s t : exists y z, drun [DEval s t] (newDebye sf mw env) = Ok y /\ dstep (DQmax 50) y = Ok z /\ getF z = UB.
Proof.
  destruct (new_ok sf mw env) as (x0 & E0 & Hx0 & Hs0 & Hq0 & _ & _ & q0 & Hd0).
  destruct (eval_small [] s t sf mw env) as (x & y & E & Ey & Hy & Hcur & Hs & Hq & _ & _ & Ho); [exists x0; auto|].
  cbn in E. rewrite E0 in E. injection E as <-. assert (Ho' : k_opt (dc y) = true) by (apply Ho; rewrite Hd0; reflexivity).
  destruct (qstep_small y Hy Hcur Hs Hq) as ((Q1 & Q2) & Q3 & Q4 & Q5). specialize (Q4 Ho'). exists y. cbn [dstep]. unfold setQmax. replace (Rltb 50 0) with false by (symmetry; apply Rltb_false; lra).
  set (y1 := with_conf y _ _). pose proof PI_34 as Hpi. pose proof eps_pos' as Hep. destruct Hs as (S1 & S2 & S3 & S4). apply IZR_le in Q5.
  assert (Hr : rcached y1 = true) by apply Hcur. assert (Er : rcalchi y1 = IZR (chisteps y) * k_rstep (dc y)) by (unfold rcalchi, cached; now rewrite Hr).
  assert (Hoq : oq y1 = k_qstep (dc y)). { unfold oq, oqstep. rewrite Er, Q4, S3. change (k_qmax (dc y1)) with 50. replace (Rltb 4 _) with true; [reflexivity|]. symmetry. apply Rltb_true. apply lt_div_iff; lra. }
  assert (E1 : updateQstep y1 = Ok (setq (cached y1) (oq y1) true)) by (apply update_opt; [exact Ho'|rewrite Hoq; exact Q1]).
  exists (setq (cached y1) (oq y1) true). split; [unfold drun; cbn [fold_left]; rewrite E0; unfold drun_from; now rewrite Ey|]. split; [exact E1|].
  unfold getF. assert (Hc1 : cached y1 = y1) by (unfold cached; now rewrite Hr). rewrite Hc1, Hoq. set (z := setq y1 _ true).
  assert (Hz : dsettings_ok (dc z)). { destruct Hy as ((T1 & T2 & T3 & T4 & T5 & T6 & T7) & _). unfold dsettings_ok. cbn. repeat split; auto; lra. }
  rewrite kfirst_0 by exact Hz. assert (Hl : length (dval z) = Z.to_nat (qmaxSteps (dc y))) by apply Hcur. rewrite Hl.
  assert (Hm : (qmaxSteps (dc y) < qmaxSteps (dc z))%Z).
  { apply qmaxSteps_lt'; [exact Hz|]. change (k_qstep (dc z)) with (k_qstep (dc y)). change (k_qmax (dc z)) with 50.
    destruct Hy as (Hyc & _). rewrite (qmaxSteps_eq _ Hyc), Hq. unfold rmaxSteps. destruct (Rceil_spec (25 / k_qstep (dc y))) as [Hlo _].
    assert (Hqp : 0 < k_qstep (dc y)) by lra. apply (proj1 (lt_div_iff _ _ _ Hqp)) in Hlo. lra. }
  destruct (Z.ltb_spec (Z.of_nat (Z.to_nat (qmaxSteps (dc y)))) (qmaxSteps (dc z))); [reflexivity|lia].
Qed.
