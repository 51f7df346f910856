(** Concrete DebyePDFCalculator histories. *)
From Coq Require Import String.
From Verif Require Import RBase AList Trig Sums PdfGrid PdfProofs PdfMain PdfFft PdfResult Debye DebyeSpec DebyeProofs DebyeSum DebyeMain DebyePdf DebyeFast.
Open Scope R_scope.

Definition one_type (n : nat) (occ : nat -> R) : dstru := {| d_n := n; d_type := fun _ => "C"%string; d_occ := occ; d_mult := fun _ => 1%nat |}.
(** wide peaks for structures of two sites *)
Definition mw2 (s : dstru) (_ _ : R) : R := if (d_n s =? 2)%nat then 10 else 0.
Definition wide : dstru := one_type 2 (fun _ => 1).
Definition narrow : dstru := one_type 1 (fun _ => 1).
Definition sf1 (_ : string) (_ : R) : R := 1.

Lemma PI_34 : 3 < PI <= 4.
Proof. pose proof PI2_3_2. pose proof PI_4. lra. Qed.
Lemma halfboundrel_ge : 1 <= halfboundrel.
Proof.
  unfold halfboundrel. rewrite <- sqrt_1. apply sqrt_le_1_alt. pose proof ln2_pos as H2. apply le_div_iff; [lra|].
  assert (H : ln (333 / 100000000) < ln (/ 2 ^ 4)) by (apply ln_increasing; lra). rewrite ln_Rinv in H by lra. rewrite ln_pow' in H by lra. cbn [INR] in H. lra.
Qed.
Lemma ext_wide c : k_mw c = mw2 -> k_maxext c = 10 -> ext_total c wide = 10.
Proof.
  intros H1 H2. unfold ext_total, ext_tails. rewrite H1, H2. pose proof (ripples_nonneg' c). unfold mw2. cbn [wide one_type d_n Nat.eqb]. unfold gauss_hi.
  replace (Rleb 10 0) with false by (symmetry; apply Rleb_false; lra). pose proof halfboundrel_ge. apply Rmin_left. lra.
Qed.
Lemma ext_narrow c : k_mw c = mw2 -> k_maxext c = 10 -> k_qmax c = 25 -> 36 / 25 < ext_total c narrow <= 48 / 25.
Proof.
  intros H1 H2 H3. unfold ext_total, ext_tails, ext_ripples. rewrite H1, H2, H3. unfold mw2. cbn [narrow one_type d_n Nat.eqb]. unfold gauss_hi.
  replace (Rleb 0 0) with true by (symmetry; apply Rleb_true; lra). replace (Rltb 0 25) with true by (symmetry; apply Rltb_true; lra).
  pose proof PI_34. rewrite Rmin_right; lra.
Qed.
Lemma Rceil_is x z : IZR z - 1 < x <= IZR z -> Rceil x = z.
Proof. intros [H1 H2]. apply Z.le_antisymm; [now apply Rceil_le|]. apply Zlt_succ_le. assert (z - 1 < Rceil x)%Z by (apply Rceil_gt; rewrite minus_IZR; lra). lia. Qed.

(** updateQstep with the optimum step *)
Lemma update_opt x : k_opt (dc x) = true -> SQRT_DOUBLE_EPS < oq x -> updateQstep x = Ok (setq (cached x) (oq x) true).
Proof.
  intros Ho Hq. destruct (updateQstep_cases x) as (q & o & [(E & _ & Ht & Hf)|(E & H)]); [|lra]. destruct o; [|destruct (Hf eq_refl); congruence].
  destruct (Ht eq_refl) as [-> _]. exact E.
Qed.
Definition with_ds (x : deb) (s : dstru) : deb :=
  {| dc := dc x; ds := s; dsc := dsc x; closteps := closteps x; chisteps := chisteps x; rcached := rcached x; dval := dval x; dtick := dtick x |}.
(** a structure is set in a state with the optimum step *)
Lemma set_opt_ok s x h : dinv x -> k_opt (dc x) = true -> 1 <= k_qmax (dc x) -> chisteps (cacheRlimits (with_ds x s)) = h -> IZR h * k_rstep (dc x) <= 100 ->
  exists y, setStructure s x = Ok y /\ dinv y /\ current y /\ ds y = s /\ chisteps y = h /\ k_opt (dc y) = true /\ closteps y = closteps (cacheRlimits (with_ds x s)) /\
    k_qstep (dc y) = oqstep (k_qmax (dc x)) (IZR h * k_rstep (dc x)) /\
    dc y = upd_dconf (dc x) (k_rmin (dc x)) (k_rmax (dc x)) (k_rstep (dc x)) (k_qmin (dc x)) (k_qmax (dc x)) (k_qstep (dc y)) true (k_maxext (dc x)) /\
    dtick y = (if Reqb (k_qstep (dc x)) (k_qstep (dc y)) then dtick x else S (dtick x)).
Proof.
  intros Hx Ho Hq Hh Hb. unfold setStructure, resetValue. fold (with_ds x s). set (x0 := cacheRlimits (with_ds x s)) in *.
  assert (Er : rcalchi x0 = IZR h * k_rstep (dc x)) by (unfold rcalchi; change (cached x0) with x0; rewrite Hh; reflexivity).
  assert (Hoq : SQRT_DOUBLE_EPS < oq x0) by (apply oq_big; [exact (proj1 Hx)|exact Hq|rewrite Er; exact Hb]).
  assert (Ho0 : k_opt (dc x0) = true) by exact Ho. assert (E := update_opt x0 Ho0 Hoq). rewrite E. cbn [andthen].
  assert (Es : setStructure s x = Ok {| dc := dc (setq (cached x0) (oq x0) true); ds := ds (setq (cached x0) (oq x0) true); dsc := cacheStructureData (dc (setq (cached x0) (oq x0) true)) (ds (setq (cached x0) (oq x0) true));
     closteps := closteps (setq (cached x0) (oq x0) true); chisteps := chisteps (setq (cached x0) (oq x0) true); rcached := rcached (setq (cached x0) (oq x0) true);
     dval := repeat 0 (Z.to_nat (qmaxSteps (dc (setq (cached x0) (oq x0) true)))); dtick := dtick (setq (cached x0) (oq x0) true) |}).
  { unfold setStructure, resetValue. fold (with_ds x s). fold x0. rewrite E. reflexivity. }
  eexists. split; [reflexivity|]. destruct (set_current s x _ Hx Es) as (H1 & H2 & H3 & _). split; [exact H1|]. split; [exact H2|]. split; [exact H3|].
  change (cached x0) with x0. cbn [chisteps setq with_conf dc upd_dconf k_opt closteps k_qstep dtick]. split; [exact Hh|]. split; [reflexivity|]. split; [reflexivity|].
  split; [unfold oq; now rewrite Er|]. split; [reflexivity|]. change (dc x0) with (dc x). change (dtick x0) with (dtick x). now destruct (Reqb (k_qstep (dc x)) (oq x0)).
Qed.
Lemma eval_nil s x y : setStructure s x = Ok y -> dstep (DEval s []) x = Ok y.
Proof. intros H. cbn [dstep]. unfold eval. rewrite H. reflexivity. Qed.
Lemma drun_app ops o r : drun (ops ++ [o]) r = drun_from (drun ops r) o.
Proof. unfold drun. now rewrite fold_left_app. Qed.
Lemma cache_lims x : chisteps (cacheRlimits x) = (if ((nhi (dc x) (ds x) <=? chisteps x - 50) || (chisteps x <? nhi (dc x) (ds x)))%Z then nhi (dc x) (ds x) else chisteps x).
Proof. reflexivity. Qed.

(** the calculator after construction and a step in r of 1 *)
Lemma new_rstep1 : exists x, drun [DRstep 1] (newDebye sf1 mw2 []) = Ok x /\ dinv x /\ k_opt (dc x) = true /\ (1000 <= chisteps x)%Z /\
  k_rmin (dc x) = 0 /\ k_rmax (dc x) = 10 /\ k_rstep (dc x) = 1 /\ k_qmax (dc x) = 25 /\ k_maxext (dc x) = 10 /\ k_mw (dc x) = mw2 /\ k_qmin (dc x) = 0.
Proof.
  destruct (new_ok sf1 mw2 []) as (x & E & Hx & _ & _ & Hr & _ & q & Hd). assert (Hg : eps_gt 1 0 SQRT_DOUBLE_EPS = true) by (apply Rltb_true; unfold SQRT_DOUBLE_EPS; lra).
  assert (Hh : (1000 <= chisteps x)%Z). { destruct Hx as (_ & Hc & _). specialize (Hc Hr). rewrite Hd in Hc. cbn [k_rmax k_rstep] in Hc. unfold rmaxSteps in Hc. rewrite (Rceil_is _ 1000) in Hc by lra. exact Hc. }
  destruct (dstep_good (DRstep 1) x Hx) as (y & Hy & Hi). cbn [dstep] in Hy. unfold setRstep in Hy. rewrite Hg in Hy. cbn [negb] in Hy. destruct Hy as [Hy|[e Hy]]; [|discriminate].
  exists y. unfold drun. cbn [fold_left]. rewrite E. unfold drun_from. cbn [dstep]. unfold setRstep. rewrite Hg. cbn [negb]. split; [exact Hy|]. split; [exact Hi|].
  injection Hy as <-. rewrite Hd. cbn [with_conf dc upd_dconf k_opt k_rmin k_rmax k_rstep k_qmax k_maxext k_mw k_qmin chisteps].
  destruct (uncache_fields (negb (Reqb (1 / 100) 1)) x) as (_ & _ & -> & _). auto 20.
Qed.
Lemma nhi_wide c : k_rmax c = 10 -> k_rstep c = 1 -> k_maxext c = 10 -> k_mw c = mw2 -> nhi c wide = 20%Z.
Proof. intros H1 H2 H3 H4. unfold nhi, rmaxSteps. rewrite ext_wide, H1, H2 by auto. apply Rceil_is. lra. Qed.
Lemma nhi_narrow c : k_rmax c = 10 -> k_rstep c = 1 -> k_maxext c = 10 -> k_mw c = mw2 -> k_qmax c = 25 -> nhi c narrow = 12%Z.
Proof. intros H1 H2 H3 H4 H5. pose proof (ext_narrow c H4 H3 H5). unfold nhi, rmaxSteps. rewrite H1, H2. apply Rceil_is. lra. Qed.
(** *** The range depends on earlier evaluations *)
Lemma history_matters : exists y1 y2,
  drun [DRstep 1; DEval narrow []] (newDebye sf1 mw2 []) = Ok y1 /\ drun [DRstep 1; DEval wide []; DEval narrow []] (newDebye sf1 mw2 []) = Ok y2 /\
  chisteps y1 = 12%Z /\ chisteps y2 = 20%Z /\ k_rstep (dc y1) = 1 /\ k_rstep (dc y2) = 1 /\ rcached y1 = true /\ rcached y2 = true /\ k_qstep (dc y1) = PI / 12 /\ k_qstep (dc y2) = PI / 20.
Proof.
  destruct new_rstep1 as (x & E & Hx & Ho & Hh & A1 & A2 & A3 & A4 & A5 & A6 & A7). pose proof PI_34 as Hpi.
  assert (Hoq : forall n, 12 <= n -> oqstep 25 (n * 1) = PI / n). { intros n Hn. unfold oqstep. replace (Rltb 4 (25 * (n * 1) / PI)) with true; [now rewrite Rmult_1_r|]. symmetry. apply Rltb_true. apply lt_div_iff; lra. }
  assert (H1 : exists y1, drun [DRstep 1; DEval narrow []] (newDebye sf1 mw2 []) = Ok y1 /\ chisteps y1 = 12%Z /\ k_rstep (dc y1) = 1 /\ rcached y1 = true /\ k_qstep (dc y1) = PI / 12).
  { destruct (set_opt_ok narrow x 12%Z Hx Ho) as (y & Es & _ & Hcur & _ & Hc & _ & _ & Hq & Hd & _); [lra| |rewrite A3; lra|].
    - rewrite cache_lims. cbn [with_ds dc ds chisteps]. rewrite nhi_narrow by auto. destruct (Z.leb_spec 12 (chisteps x - 50)); [reflexivity|lia].
    - exists y. change [DRstep 1; DEval narrow []] with ([DRstep 1] ++ [DEval narrow []]). rewrite drun_app, E. unfold drun_from. rewrite (eval_nil narrow x y Es).
      split; [reflexivity|]. split; [exact Hc|]. split; [rewrite Hd; exact A3|]. split; [apply Hcur|]. rewrite Hq, A3, A4. apply Hoq. lra. }
  assert (H2 : exists y2, drun [DRstep 1; DEval wide []; DEval narrow []] (newDebye sf1 mw2 []) = Ok y2 /\ chisteps y2 = 20%Z /\ k_rstep (dc y2) = 1 /\ rcached y2 = true /\ k_qstep (dc y2) = PI / 20).
  { destruct (set_opt_ok wide x 20%Z Hx Ho) as (y & Es & Hy & Hcur & _ & Hc & Hoy & _ & Hq & Hd & _); [lra| |rewrite A3; lra|].
    - rewrite cache_lims. cbn [with_ds dc ds chisteps]. rewrite nhi_wide by auto. destruct (Z.leb_spec 20 (chisteps x - 50)); [reflexivity|lia].
    - assert (B : k_rmax (dc y) = 10 /\ k_rstep (dc y) = 1 /\ k_maxext (dc y) = 10 /\ k_mw (dc y) = mw2 /\ k_qmax (dc y) = 25) by (rewrite Hd; cbn; auto).
      destruct B as (B1 & B2 & B3 & B4 & B5).
      destruct (set_opt_ok narrow y 20%Z Hy Hoy) as (z & Es2 & _ & Hcz & _ & Hcz' & _ & _ & Hqz & Hdz & _); [lra| |rewrite B2; lra|].
      + rewrite cache_lims. cbn [with_ds dc ds chisteps]. rewrite nhi_narrow by auto. rewrite Hc. reflexivity.
      + exists z. change [DRstep 1; DEval wide []; DEval narrow []] with (([DRstep 1] ++ [DEval wide []]) ++ [DEval narrow []]). rewrite !drun_app, E. unfold drun_from. rewrite (eval_nil wide x y Es), (eval_nil narrow y z Es2).
        split; [reflexivity|]. split; [exact Hcz'|]. split; [rewrite Hdz; exact B2|]. split; [apply Hcz|]. rewrite Hqz, B2, B5. apply Hoq. lra. }
  destruct H1 as (y1 & ? & ? & ? & ? & ?), H2 as (y2 & ? & ? & ? & ? & ?). exists y1, y2. auto 20.
Qed.
(** *** A fast update with another lower limit *)
Lemma fast_limits : exists x y, drun [DRstep 1; DRmin 5; DEval wide []] (newDebye sf1 mw2 []) = Ok x /\ setStructure narrow x = Ok y /\ dtick y = dtick x /\
  bondLimits x = (0, 20) /\ bondLimits y = (4, 20).
Proof.
  destruct new_rstep1 as (x0 & E & Hx0 & Ho0 & Hh0 & A1 & A2 & A3 & A4 & A5 & A6 & A7). pose proof PI_34 as Hpi.
  assert (Hr : Rltb 5 0 = false) by (apply Rltb_false; lra).
  destruct (dstep_good (DRmin 5) x0 Hx0) as (x1 & Hx1 & Hi1). cbn [dstep] in Hx1. unfold setRmin in Hx1. rewrite Hr in Hx1. destruct Hx1 as [Hx1|[e Hx1]]; [|discriminate].
  assert (E1 : drun [DRstep 1; DRmin 5] (newDebye sf1 mw2 []) = Ok x1). { change [DRstep 1; DRmin 5] with ([DRstep 1] ++ [DRmin 5]). rewrite drun_app, E. unfold drun_from. cbn [dstep]. unfold setRmin. now rewrite Hr, Hx1. }
  assert (Hh1 : (1000 <= chisteps x1)%Z). { injection Hx1 as <-. cbn [with_conf chisteps]. now destruct (uncache_fields (negb (Reqb (k_rmin (dc x0)) 5)) x0) as (_ & _ & -> & _). }
  assert (D1 : dc x1 = upd_dconf (dc x0) 5 10 1 0 25 (k_qstep (dc x0)) true 10). { injection Hx1 as <-. cbn [with_conf dc]. now rewrite A2, A3, A4, A5, A7, Ho0. }
  assert (B : k_rmin (dc x1) = 5 /\ k_rmax (dc x1) = 10 /\ k_rstep (dc x1) = 1 /\ k_maxext (dc x1) = 10 /\ k_mw (dc x1) = mw2 /\ k_qmax (dc x1) = 25 /\ k_opt (dc x1) = true) by (rewrite D1; cbn; auto 10).
  destruct B as (B0 & B1 & B2 & B3 & B4 & B5 & B6).
  destruct (set_opt_ok wide x1 20%Z Hi1 B6) as (y & Es & Hy & Hcur & _ & Hc & Hoy & Hly & Hq & Hd & _); [lra| |rewrite B2; lra|].
  { rewrite cache_lims. cbn [with_ds dc ds chisteps]. rewrite nhi_wide by auto. destruct (Z.leb_spec 20 (chisteps x1 - 50)); [reflexivity|lia]. }
  assert (C : k_rmin (dc y) = 5 /\ k_rmax (dc y) = 10 /\ k_rstep (dc y) = 1 /\ k_maxext (dc y) = 10 /\ k_mw (dc y) = mw2 /\ k_qmax (dc y) = 25) by (rewrite Hd; cbn; auto 10).
  destruct C as (C0 & C1 & C2 & C3 & C4 & C5).
  destruct (set_opt_ok narrow y 20%Z Hy Hoy) as (z & Es2 & Hz & Hcz & _ & Hcz' & _ & Hlz & Hqz & Hdz & Htz); [lra| |rewrite C2; lra|].
  { rewrite cache_lims. cbn [with_ds dc ds chisteps]. rewrite nhi_narrow by auto. rewrite Hc. reflexivity. }
  exists y, z. split; [change [DRstep 1; DRmin 5; DEval wide []] with ([DRstep 1; DRmin 5] ++ [DEval wide []]); rewrite drun_app, E1; unfold drun_from; now rewrite (eval_nil wide x1 y Es)|].
  split; [exact Es2|]. split.
  { rewrite Htz, Hqz, C2, C5, Hq, B2, B5. unfold Reqb. destruct (Req_EM_T _ _); [reflexivity|congruence]. }
  assert (Heps := eps_pos'). assert (Heps1 : SQRT_DOUBLE_EPS < 1 / 100) by (unfold SQRT_DOUBLE_EPS; lra).
  unfold bondLimits, rcalclo, rcalchi, cached. destruct Hcur as (-> & _). destruct Hcz as (-> & _). rewrite C2, Hc, Hcz', Hly, Hlz. replace (k_rstep (dc z)) with 1 by (rewrite Hdz; cbn; now symmetry).
  destruct (cache_hi (with_ds x1 wide)) as [_ ->]. destruct (cache_hi (with_ds y narrow)) as [_ ->]. cbn [with_ds dc ds]. rewrite ext_wide, B0, B2, C0, C2 by auto. pose proof (ext_narrow (dc y) C4 C3 C5) as He.
  assert (R1 : (rminSteps (5 - 10) 1 <= 0)%Z) by (apply rminSteps_le; lra).
  assert (R2 : rminSteps (5 - ext_total (dc y) narrow) 1 = 4%Z). { apply Z.le_antisymm; [apply rminSteps_le; lra|]. assert (~ (rminSteps (5 - ext_total (dc y) narrow) 1 <= 3)%Z); [|lia]. intros H. apply rminSteps_le in H; lra. }
  rewrite R2. replace (Z.max 0 (rminSteps (5 - 10) 1)) with 0%Z by lia. change (Z.max 0 4) with 4%Z. split; f_equal; lra.
Qed.
