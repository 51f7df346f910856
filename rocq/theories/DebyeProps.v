(** C34, C68-C72: theorems about DebyePDFCalculator. *)
From Coq Require Import String Permutation.
From Verif Require Import RBase AList Trig Sums PdfGrid PdfProofs PdfMain PdfFft PdfResult Debye DebyeSpec DebyeProofs DebyeSum DebyeMain DebyePdf DebyeFast DebyeExample DebyeExample2 DebyeExample3.
Open Scope R_scope.

Lemma reach_dinv ops sf mw env x : drun ops (newDebye sf mw env) = Ok x -> dinv x.
Proof. intros H. destruct (reach_inv ops sf mw env) as (x' & E & Hx). rewrite H in E. now injection E as ->. Qed.
Lemma qgrid_spec y : dsettings_ok (dc y) -> forall k, (0 <= k)%Z -> (k < qmaxSteps (dc y))%Z <-> IZR k * k_qstep (dc y) < k_qmax (dc y).
Proof. intros H k _. now apply qmaxSteps_lt'. Qed.
Lemma lo_bounds y : dinv y -> current y -> let e := ext_total (dc y) (ds y) in
  Rmax 0 (k_rmin (dc y) - e) - SQRT_DOUBLE_EPS <= fst (bondLimits y) < Rmax 0 (k_rmin (dc y) - e) + k_rstep (dc y) /\
  k_rmax (dc y) + e <= snd (bondLimits y) < k_rmax (dc y) + e + 50 * k_rstep (dc y).
Proof.
  intros Hy Hcur e. destruct (settings_pos _ (proj1 Hy)) as [H1 H2]. pose proof Hcur as (Hr & _ & _ & Hh & Hl & _). pose proof eps_pos' as Hep.
  assert (S3 : SQRT_DOUBLE_EPS < k_rstep (dc y)) by (destruct (proj1 Hy) as (_ & _ & H & _); exact H).
  cbn [bondLimits fst snd]. unfold rcalclo, rcalchi, cached. rewrite Hr, Hl. fold e. set (dr := k_rstep (dc y)) in *. set (n := rminSteps (k_rmin (dc y) - e) dr).
  assert (N1 : k_rmin (dc y) - e - SQRT_DOUBLE_EPS <= IZR n * dr) by (apply (rminSteps_le _ dr n S3); lia).
  assert (N2 : IZR n * dr < k_rmin (dc y) - e + dr).
  { assert (~ (n <= n - 1)%Z) by lia. apply Rnot_le_lt. intros Hc. apply H. apply (rminSteps_le _ dr (n - 1) S3). rewrite minus_IZR. lra. }
  split.
  - destruct (Z.max_spec 0 n) as [[Hn ->]|[Hn ->]].
    + apply (IZR_lt 0) in Hn. split; [unfold Rmax; destruct (Rle_dec 0 (k_rmin (dc y) - e)); [lra|]; assert (0 < IZR n * dr) by (now apply Rmult_lt_0_compat); lra|].
      pose proof (Rmax_r 0 (k_rmin (dc y) - e)). lra.
    + apply (IZR_le n 0) in Hn. rewrite Rmult_0_l. assert (IZR n * dr <= 0) by nra. split; [unfold Rmax; destruct (Rle_dec 0 (k_rmin (dc y) - e)); lra|]. pose proof (Rmax_l 0 (k_rmin (dc y) - e)). lra.
  - unfold nhi in Hh. fold e dr in Hh. set (m := rmaxSteps (k_rmax (dc y) + e) dr) in *. destruct Hh as [Ha Hb]. destruct (Rceil_spec ((k_rmax (dc y) + e) / dr)) as [M1 M2]. fold (rmaxSteps (k_rmax (dc y) + e) dr) in M1, M2. fold m in M1, M2.
    apply (proj1 (lt_div_iff _ _ _ H1)) in M1. apply (proj1 (div_le_iff _ _ _ H1)) in M2. apply IZR_le in Ha. assert (Hb' : IZR (chisteps y) <= IZR (m + 49)) by (apply IZR_le; lia). rewrite plus_IZR in Hb'. split; nra.
Qed.

(** *** C34 *)
(** After an evaluation the value holds, at each Q = k dQ below Qmax, the Debye sum over the pairs visited; the scattering
    factor of a site is that of the first site of the same atom type. *)
Theorem C34_sum_general : forall ops sf mw env o s t x y,
  drun ops (newDebye sf mw env) = Ok x -> evaluates o s t -> pairs_ok s t -> dstep o x = Ok y ->
  length (dval y) = length (getQgrid y) /\
  (forall k, (0 <= k)%Z -> (k < Z.of_nat (length (dval y)))%Z <-> IZR k * k_qstep (dc y) < k_qmax (dc y)) /\
  forall k, (0 <= k < Z.of_nat (length (dval y)))%Z ->
    nth (Z.to_nat k) (getQgrid y) 0 = IZR k * k_qstep (dc y) /\
    nth (Z.to_nat k) (dval y) 0 = debye_cut (fun i q => own_sf (dc y) s (first_site s i) q) (k_prec (dc y)) (k_qstep (dc y)) t k.
Proof.
  intros ops sf mw env o s t x y Hx Ho Ht Hy. destruct (y_inv ops sf mw env o s t x y Hx Ho Hy) as (Hi & Hcur & Hs & _). pose proof (current_fits y Hi Hcur) as Hf. pose proof (fits_len y Hf) as Hl.
  split; [unfold getQgrid, grid; rewrite map_length, zrange_length, Z.sub_0_r; exact (y_length ops sf mw env o s t x y Hx Ho Hy)|].
  rewrite Hl. split; [intros k Hk; now apply qmaxSteps_lt'; destruct Hi|]. intros k Hk. split; [unfold getQgrid, grid; rewrite nth_map_zrange by exact Hk; ring|].
  now apply (y_value ops sf mw env o s t x y Hx Ho Hy Ht).
Qed.
Print Assumptions C34_sum_general.
(** With one occupancy per atom type each site counts with its own scattering factor times its occupancy. *)
Theorem C34_sum_partial : forall ops sf mw env o s t x y,
  drun ops (newDebye sf mw env) = Ok x -> evaluates o s t -> pairs_ok s t -> occ_by_type s -> dstep o x = Ok y ->
  forall k, (0 <= k < Z.of_nat (length (dval y)))%Z ->
    nth (Z.to_nat k) (dval y) 0 = debye_cut (own_sf (dc y) s) (k_prec (dc y)) (k_qstep (dc y)) t k /\
    (0 <= k_prec (dc y) -> decreasing_sf (own_sf (dc y) s) ->
     Rabs (nth (Z.to_nat k) (dval y) 0 - debye (own_sf (dc y) s) t (IZR k * k_qstep (dc y))) <= INR (length t) * k_prec (dc y)).
Proof.
  intros ops sf mw env o s t x y Hx Ho Ht Hocc Hy k Hk. destruct (y_inv ops sf mw env o s t x y Hx Ho Hy) as (Hi & Hcur & Hs & _). pose proof (current_fits y Hi Hcur) as Hf. pose proof (fits_len y Hf) as Hl.
  rewrite Hl in Hk. assert (Hv := y_value ops sf mw env o s t x y Hx Ho Hy Ht k Hk). rewrite (debye_cut_ext (used_sf (dc y) s) (own_sf (dc y) s) _ _ s t k) in Hv by (auto; intros; now apply used_own).
  rewrite Hv. split; [reflexivity|]. intros Hp Hd. apply cut_error; [exact Hd|exact Hp| |lia]. destruct (settings_pos _ (proj1 Hi)). lra.
Qed.
Print Assumptions C34_sum_partial.
(** Sites of one type with occupancies 1 and 0: a pair with the empty site contributes. *)
Theorem C34_occupancy_refuted : exists sf mw env ops s t x y,
  drun ops (newDebye sf mw env) = Ok x /\ pairs_ok s t /\ dstep (DEval s t) x = Ok y /\ k_prec (dc y) = 0 /\ (1 < Z.of_nat (length (dval y)))%Z /\
  (forall q, debye (own_sf (dc y) s) t q = 0) /\ nth 1 (dval y) 0 <> 0.
Proof.
  destruct occupancy_shared as (x & y & E & Ey & Hp & Hq & Hp0 & Hd & Hv & Hs). exists sf1, mw2, [], [DObjects 0 sf1 mw2 []], half_empty, [(bond01, 2%Z)], x, y.
  split; [exact E|]. split; [exact Hp|]. split; [exact Ey|]. split; [exact Hp0|]. split; [|split; [exact Hd|lra]].
  rewrite (y_length _ _ _ _ (DEval half_empty [(bond01, 2%Z)]) half_empty [(bond01, 2%Z)] x y E (or_intror eq_refl) Ey). lia.
Qed.
Print Assumptions C34_occupancy_refuted.
(** F(Q) is the sum divided by the number of atoms and the square of the mean scattering factor. *)
Theorem C34_F : forall ops sf mw env o s t x y,
  drun ops (newDebye sf mw env) = Ok x -> evaluates o s t -> dstep o x = Ok y -> occ_by_type s -> atoms s = 0 \/ SQRT_DOUBLE_EPS < atoms s ->
  getF y = Ok (map (fun k => normalised (own_sf (dc y) s) s (IZR k * k_qstep (dc y)) (nth (Z.to_nat k) (dval y) 0)) (zrange 0 (Z.of_nat (length (dval y))))).
Proof.
  intros ops sf mw env o s t x y Hx Ho Hy Hocc Ha. destruct (y_inv ops sf mw env o s t x y Hx Ho Hy) as (Hi & Hcur & Hs & _). pose proof (current_fits y Hi Hcur) as Hf.
  rewrite (fits_len y Hf). rewrite (getF_value y Hf) by (now rewrite Hs). f_equal. apply map_ext. intros k. rewrite Hs. unfold normalised, mean_of.
  rewrite (sumf_ext (fun i => used_sf (dc y) s i (IZR k * k_qstep (dc y)) * INR (d_mult s i)) (fun i => own_sf (dc y) s i (IZR k * k_qstep (dc y)) * INR (d_mult s i))); [reflexivity|].
  intros i Hin. apply in_seq in Hin. now rewrite used_own by (auto; lia).
Qed.
Print Assumptions C34_F.
Example C34_nonvacuous : exists x y, drun [] (newDebye sf1 mw2 []) = Ok x /\ dstep (DEval wide [(bond01, 2%Z)]) x = Ok y /\
  evaluates (DEval wide [(bond01, 2%Z)]) wide [(bond01, 2%Z)] /\ pairs_ok wide [(bond01, 2%Z)] /\ occ_by_type wide /\ SQRT_DOUBLE_EPS < atoms wide /\
  (1 < Z.of_nat (length (dval y)))%Z /\ decreasing_sf (own_sf (dc y) wide) /\ 0 <= k_prec (dc y).
Proof.
  destruct (new_ok sf1 mw2 []) as (x0 & E0 & Hx0 & Hs0 & Hq0 & _ & _ & q0 & Hd0).
  destruct (eval_small [] wide [(bond01, 2%Z)] sf1 mw2 []) as (x & y & E & Ey & Hy & Hcur & Hs & Hq & Hp & Hsf & _); [exists x0; auto|].
  exists x, y. split; [exact E|]. split; [exact Ey|]. split; [now right|]. split; [intros b z [H|[]]; injection H as <- <-; cbn; lia|]. split; [intros i j _ _ _; reflexivity|].
  split; [unfold atoms, SQRT_DOUBLE_EPS; cbn; lra|]. split; [destruct (qstep_small y Hy Hcur Hs Hq) as (_ & H & _); destruct Hcur as (_ & _ & -> & _); lia|].
  cbn in E. rewrite E0 in E. injection E as <-. rewrite Hd0 in Hp, Hsf. cbn in Hp, Hsf. split; [|lra]. intros i p q _. unfold own_sf. rewrite Hsf. unfold sf1. lra.
Qed.

(** *** C68 *)
(** After an evaluation the pairs looked at cover the r-range extended by at most the extension, and Qstep is not above the
    optimum for the upper limit. *)
Theorem C68_range : forall ops sf mw env o s t x y,
  drun ops (newDebye sf mw env) = Ok x -> evaluates o s t -> dstep o x = Ok y ->
  let c := dc y in let e := Rmin (k_maxext c) (ext_ripples c + ext_tails c s) in
  Rmax 0 (k_rmin c - e) - SQRT_DOUBLE_EPS <= fst (bondLimits y) < Rmax 0 (k_rmin c - e) + k_rstep c /\
  k_rmax c + e <= snd (bondLimits y) < k_rmax c + e + 50 * k_rstep c /\
  k_qstep c <= oqstep (k_qmax c) (snd (bondLimits y)) /\ (k_opt c = true -> k_qstep c = oqstep (k_qmax c) (snd (bondLimits y))) /\
  (k_opt c = false -> k_qstep c = k_qstep (dc x)).
Proof.
  intros ops sf mw env o s t x y Hx Ho Hy c e. destruct (y_inv ops sf mw env o s t x y Hx Ho Hy) as (Hi & Hcur & Hs & q & o' & Hd & Hf). pose proof (lo_bounds y Hi Hcur) as H. rewrite Hs in H.
  destruct H as [H1 H2]. split; [exact H1|]. split; [exact H2|]. destruct Hcur as (_ & _ & _ & _ & _ & H3 & H4). split; [exact H3|]. split; [exact H4|].
  intros Hopt. unfold c in *. rewrite Hd in *. cbn in *. now apply Hf.
Qed.
Print Assumptions C68_range.
(** The limits and the Q-grid are not determined by the settings and the structure. *)
Theorem C68_history_refuted : exists sf mw env ops1 ops2 s y1 y2,
  drun (ops1 ++ [DEval s []]) (newDebye sf mw env) = Ok y1 /\ drun (ops2 ++ [DEval s []]) (newDebye sf mw env) = Ok y2 /\
  (forall o, In o ops2 -> In o ops1 \/ exists s', o = DEval s' []) /\ (forall o, In o ops1 -> In o ops2) /\
  bondLimits y1 <> bondLimits y2 /\ k_qstep (dc y1) <> k_qstep (dc y2).
Proof.
  destruct history_matters as (y1 & y2 & E1 & E2 & C1 & C2 & R1 & R2 & K1 & K2 & Q1 & Q2). exists sf1, mw2, [], [DRstep 1], [DRstep 1; DEval wide []], narrow, y1, y2.
  split; [exact E1|]. split; [exact E2|]. split; [intros o [<-|[<-|[]]]; [left; now left|right; eauto]|]. split; [intros o [<-|[]]; now left|]. split.
  - unfold bondLimits, rcalchi, cached. rewrite K1, K2, C1, C2, R1, R2. intros H. injection H as _ H. lra.
  - rewrite Q1, Q2. pose proof PI_34. lra.
Qed.
Print Assumptions C68_history_refuted.
Example C68_nonvacuous : exists x y, drun [DRstep 1; DRmin 5; DEval wide []] (newDebye sf1 mw2 []) = Ok x /\ dstep (DSetStructure narrow) x = Ok y /\ bondLimits y = (4, 20).
Proof. destruct fast_limits as (x & y & E & Ey & _ & _ & H). exists x, y. auto. Qed.

(** *** C69 *)
(** Every sequence of calls leaves the settings inside of their documented ranges. *)
Theorem C69_settings : forall ops sf mw env, exists x, drun ops (newDebye sf mw env) = Ok x /\ dsettings_ok (dc x).
Proof. intros. destruct (reach_inv ops sf mw env) as (x & E & Hx). exists x. split; [exact E|apply Hx]. Qed.
Print Assumptions C69_settings.
(** An argument outside of its range is rejected and leaves the calculator as it was. *)
Theorem C69_rejected_partial : forall x r,
  (r < 0 -> dstep (DRmin r) x = Throw InvalidArgument x /\ dstep (DRmax r) x = Throw InvalidArgument x /\ dstep (DQmin r) x = Throw InvalidArgument x /\
            dstep (DQmax r) x = Throw InvalidArgument x /\ dstep (DMaxExt r) x = Throw InvalidArgument x) /\
  (r <= SQRT_DOUBLE_EPS -> dstep (DRstep r) x = Throw InvalidArgument x /\ dstep (DQstep r) x = Throw InvalidArgument x).
Proof.
  intros x r. split; intros H.
  - assert (E : Rltb r 0 = true) by (now apply Rltb_true). cbn [dstep]. unfold setRmin, setRmax, setQmin, setQmax, setMaxExtension. now rewrite E.
  - assert (E : eps_gt r 0 SQRT_DOUBLE_EPS = false) by (apply Rltb_false; lra). cbn [dstep]. unfold setRstep, setQstep, base_setQstep. rewrite E. now split.
Qed.
Print Assumptions C69_rejected_partial.
(** Accepted arguments: the setting has the new value and the others keep theirs, except for Qstep, which is lowered to the
    optimum; a call fails for a good argument only when the optimum Qstep for the new settings is (nearly) zero. *)
Theorem C69_accepted : forall x y r,
  (dstep (DRmin r) x = Ok y -> dc y = upd_dconf (dc x) r (k_rmax (dc x)) (k_rstep (dc x)) (k_qmin (dc x)) (k_qmax (dc x)) (k_qstep (dc x)) (k_opt (dc x)) (k_maxext (dc x))) /\
  (dstep (DRstep r) x = Ok y -> dc y = upd_dconf (dc x) (k_rmin (dc x)) (k_rmax (dc x)) r (k_qmin (dc x)) (k_qmax (dc x)) (k_qstep (dc x)) (k_opt (dc x)) (k_maxext (dc x))) /\
  (dstep (DQmin r) x = Ok y -> dc y = upd_dconf (dc x) (k_rmin (dc x)) (k_rmax (dc x)) (k_rstep (dc x)) r (k_qmax (dc x)) (k_qstep (dc x)) (k_opt (dc x)) (k_maxext (dc x))) /\
  (dstep (DRmax r) x = Ok y -> exists q o, dc y = upd_dconf (dc x) (k_rmin (dc x)) r (k_rstep (dc x)) (k_qmin (dc x)) (k_qmax (dc x)) q o (k_maxext (dc x))) /\
  (dstep (DQmax r) x = Ok y -> exists q o, dc y = upd_dconf (dc x) (k_rmin (dc x)) (k_rmax (dc x)) (k_rstep (dc x)) (k_qmin (dc x)) r q o (k_maxext (dc x))) /\
  (dstep (DMaxExt r) x = Ok y -> exists q o, dc y = upd_dconf (dc x) (k_rmin (dc x)) (k_rmax (dc x)) (k_rstep (dc x)) (k_qmin (dc x)) (k_qmax (dc x)) q o r).
Proof. exact set_conf_all. Qed.
Print Assumptions C69_accepted.
Theorem C69_qstep : forall x y q,
  (dstep (DQstep q) x = Ok y -> k_qstep (dc y) = Rmin q (oqstep (k_qmax (dc x)) (snd (bondLimits x)))) /\
  (dstep DOptimum x = Ok y -> k_qstep (dc y) = oqstep (k_qmax (dc x)) (snd (bondLimits x)) /\ k_opt (dc y) = true).
Proof.
  intros x y q. split; intros H; [apply setQstep_conf in H; rewrite H; reflexivity|apply setOptimum_conf in H; rewrite H; now split].
Qed.
Print Assumptions C69_qstep.
Theorem C69_failure : forall ops sf mw env x o e z, drun ops (newDebye sf mw env) = Ok x -> dstep o x = Throw e z ->
  z = x \/ oqstep (k_qmax (dc z)) (snd (bondLimits z)) <= SQRT_DOUBLE_EPS.
Proof. intros ops sf mw env x o e z Hx H. exact (throw_cause x o e z (reach_dinv _ _ _ _ _ Hx) H). Qed.
Print Assumptions C69_failure.
(** setQmax(0) throws but keeps Qmax = 0: afterwards no structure can be evaluated. *)
Theorem C69_unchanged_refuted : forall sf mw env, exists x z, newDebye sf mw env = Ok x /\ dstep (DQmax 0) x = Throw InvalidArgument z /\
  k_qmax (dc x) = 25 /\ k_qmax (dc z) = 0 /\ forall s t, exists w, dstep (DEval s t) z = Throw InvalidArgument w.
Proof. intros. destruct (qmax_zero sf mw env) as (x & z & H1 & H2 & H3 & H4 & H5). exists x, z. auto. Qed.
Print Assumptions C69_unchanged_refuted.
Example C69_nonvacuous : exists x y, newDebye sf1 mw2 [] = Ok x /\ dstep (DQmin 1) x = Ok y /\ k_qmin (dc y) = 1.
Proof.
  destruct (new_ok sf1 mw2 []) as (x & E & _). exists x. cbn [dstep]. unfold setQmin. replace (Rltb 1 0) with false by (symmetry; apply Rltb_false; lra). eexists. split; [exact E|]. split; reflexivity.
Qed.

(** *** C70 *)
(** After an evaluation F has one value for each Q of the grid, and G one value for each r of the grid, when the range is extended
    by a step or more. *)
Theorem C70_defined_partial : forall ops sf mw env o s t x y,
  drun ops (newDebye sf mw env) = Ok x -> evaluates o s t -> dstep o x = Ok y ->
  (exists F, getF y = Ok F /\ length F = length (getQgrid y)) /\
  (k_rstep (dc y) <= Rmin (k_maxext (dc y)) (ext_ripples (dc y) + ext_tails (dc y) s) ->
   exists G D, getPDF y = Ok G /\ getRDFperR y = Ok D /\ length G = length (getRgrid y) /\ length D = length (getRgrid y)).
Proof.
  intros ops sf mw env o s t x y Hx Ho Hy. destruct (y_inv ops sf mw env o s t x y Hx Ho Hy) as (Hi & Hcur & Hs & _). destruct (F_defined y (current_fits y Hi Hcur)) as (F & HF & Hl).
  split; [exists F; split; [exact HF|]; rewrite Hl; unfold getQgrid, grid; now rewrite map_length, zrange_length, Z.sub_0_r|]. intros He.
  assert (Hroom := room y Hi Hcur). rewrite Hs in Hroom. specialize (Hroom He). pose proof (proj1 Hi) as (_ & _ & _ & Hq & _). unfold getPDF, getRDFperR.
  rewrite (pdf_at y F _ Hi Hcur Hroom Hq HF), (pdf_at y F 0 Hi Hcur Hroom (Rle_refl 0) HF). cbn [bind]. rewrite env_ok. eexists. eexists. split; [reflexivity|]. split; [reflexivity|]. now rewrite !map_length.
Qed.
Print Assumptions C70_defined_partial.
(** Without an extension the last point can be read past the end of the array. *)
Theorem C70_pdf_refuted : exists sf mw env ops s y, drun (ops ++ [DEval s []]) (newDebye sf mw env) = Ok y /\ getPDF y = UB.
Proof. destruct tight_outside as (y & E & H). exists sf1, mw2, [], [DRstep 1; DMaxExt 0; DRmax 32; DQmax 1], narrow, y. split; [exact E|exact H]. Qed.
Print Assumptions C70_pdf_refuted.
(** Qmax raised after an evaluation: getF reads and writes past the end of the array. *)
Theorem C70_stale_refuted : forall sf mw env s t, exists y z, drun [DEval s t] (newDebye sf mw env) = Ok y /\ dstep (DQmax 50) y = Ok z /\ getF z = UB.
Proof. exact stale_F. Qed.
Print Assumptions C70_stale_refuted.
Example C70_nonvacuous : exists x y, drun [DRstep 1] (newDebye sf1 mw2 []) = Ok x /\ dstep (DEval wide []) x = Ok y /\
  k_rstep (dc y) <= Rmin (k_maxext (dc y)) (ext_ripples (dc y) + ext_tails (dc y) wide).
Proof.
  destruct new_rstep1 as (x & E & Hx & Ho & Hh & A1 & A2 & A3 & A4 & A5 & A6 & A7).
  destruct (set_opt_ok wide x 20%Z Hx Ho) as (y & Es & Hy & Hcur & _ & Hc & Hoy & _ & Hq & Hd & _); [lra| |rewrite A3; lra|].
  - rewrite cache_lims. cbn [with_ds dc ds chisteps]. rewrite nhi_wide by auto. destruct (Z.leb_spec 20 (chisteps x - 50)); [reflexivity|lia].
  - exists x, y. split; [exact E|]. split; [now apply eval_nil|]. fold (ext_total (dc y) wide). rewrite ext_wide by (rewrite Hd; auto). rewrite Hd. cbn. lra.
Qed.

(** *** C71 *)
(** G(r) is the sine transform of F from Qmin on, interpolated linearly between points not further apart than the step in r,
    times the envelopes; the RDF per r is the same without Qmin and envelopes. *)
Theorem C71_pdf : forall ops sf mw env o s t x y,
  drun ops (newDebye sf mw env) = Ok x -> evaluates o s t -> dstep o x = Ok y ->
  k_rstep (dc y) <= Rmin (k_maxext (dc y)) (ext_ripples (dc y) + ext_tails (dc y) s) ->
  exists F d, getF y = Ok F /\ 0 < d <= k_rstep (dc y) /\
    let G first := interpolated d (sine_transform (k_qstep (dc y)) F first) in
    getPDF y = Ok (map (fun r => G (qminSteps (k_qmin (dc y)) (k_qstep (dc y))) r * envelope (dc y) r) (getRgrid y)) /\
    getRDFperR y = Ok (map (G 0%Z) (getRgrid y)) /\
    getRDF y = Ok (map (fun r => r * G 0%Z r) (getRgrid y)).
Proof.
  intros ops sf mw env o s t x y Hx Ho Hy He. destruct (y_inv ops sf mw env o s t x y Hx Ho Hy) as (Hi & Hcur & Hs & _). destruct (F_defined y (current_fits y Hi Hcur)) as (F & HF & Hl).
  assert (Hroom := room y Hi Hcur). rewrite Hs in Hroom. specialize (Hroom He). pose proof (proj1 Hi) as (_ & _ & _ & Hq & _). exists F, (delta y F). split; [exact HF|]. split; [now apply delta_ok; apply Hi|].
  cbv zeta. assert (E0 : getRDFperR y = Ok (map (interpolated (delta y F) (sine_transform (k_qstep (dc y)) F 0)) (getRgrid y))).
  { unfold getRDFperR. rewrite (pdf_at y F 0 Hi Hcur Hroom (Rle_refl 0) HF). unfold first_q. fold (kfirst (dc y)). now rewrite kfirst_0 by apply Hi. }
  split; [unfold getPDF; rewrite (pdf_at y F _ Hi Hcur Hroom Hq HF); cbn [bind]; now rewrite env_ok|]. split; [exact E0|].
  unfold getRDF. rewrite E0. cbn [bind]. generalize (getRgrid y). intros l. set (g := interpolated _ _). clearbody g. induction l as [|r l IH]; cbn [map map2]; [reflexivity|]. now rewrite IH.
Qed.
Print Assumptions C71_pdf.
(** the first Q kept is the first grid point not below Qmin *)
Theorem C71_qmin : forall qmin dq k, 0 <= qmin -> SQRT_DOUBLE_EPS < dq -> (qminSteps qmin dq <= k)%Z <-> qmin - SQRT_DOUBLE_EPS <= IZR k * dq.
Proof. intros qmin dq k Hq Hd. pose proof eps_pos'. rewrite qminSteps_rmin by lra. now apply rminSteps_le. Qed.
Print Assumptions C71_qmin.
Example C71_nonvacuous : exists x y, drun [DRstep 1] (newDebye sf1 mw2 []) = Ok x /\ dstep (DEval wide []) x = Ok y /\
  k_rstep (dc y) <= Rmin (k_maxext (dc y)) (ext_ripples (dc y) + ext_tails (dc y) wide).
Proof. exact C70_nonvacuous. Qed.

(** *** C72 *)
(** A fast update never runs outside of the arrays; it gives the sum over all pairs t of the new structure when the pairs kept, C,
    and the pairs added, t1, make up t, and the sites of C have kept their scattering factors. *)
Theorem C72_fast_is_full : forall ops sf mw env o s0 T0 C x y s t1 t z,
  drun ops (newDebye sf mw env) = Ok x -> evaluates o s0 (T0 ++ C) -> pairs_ok s0 (T0 ++ C) -> dstep o x = Ok y ->
  pairs_ok s t -> Permutation t (C ++ t1) -> same_sites (dc y) s0 s C ->
  fastUpdate (taken_back T0) s t1 t y = Ok z ->
  forall k, (0 <= k < Z.of_nat (length (dval z)))%Z ->
    nth (Z.to_nat k) (dval z) 0 = debye_cut (fun i q => own_sf (dc z) s (first_site s i) q) (k_prec (dc z)) (k_qstep (dc z)) t k.
Proof.
  intros ops sf mw env o s0 T0 C x y s t1 t z Hx Ho P0 Hy P Hp Hs Hz k Hk. destruct (y_inv ops sf mw env o s0 (T0 ++ C) x y Hx Ho Hy) as (Hi & Hcur & Hds & _). pose proof (current_fits y Hi Hcur) as Hf.
  assert (P1 : pairs_ok s t1). { intros b z' Hb. apply (P b z'). apply (Permutation_in _ (Permutation_sym Hp)). apply in_or_app. now right. }
  assert (P0' : pairs_ok s0 T0). { intros b z' Hb. apply (P0 b z'). apply in_or_app. now left. }
  assert (P0'' : pairs_ok (ds y) (taken_back T0)). { rewrite Hds. intros b z' Hb. unfold taken_back in Hb. apply in_map_iff in Hb. destruct Hb as ([b' z''] & E & Hb). injection E as <- _. exact (P0' _ _ Hb). }
  destruct (fast_ok (taken_back T0) s t1 t y Hi Hf P0'' P1 P) as [(z' & E & Hfz & _)|(z' & E)]; rewrite Hz in E; [|discriminate]. assert (z' = z) by congruence. subst z'.
  rewrite (fits_len z Hfz) in Hk. apply (fast_is_full y s0 T0 C t1 t s z Hi Hf Hds); auto. intros k' Hk'. now apply (y_value ops sf mw env o s0 (T0 ++ C) x y Hx Ho Hy).
Qed.
Print Assumptions C72_fast_is_full.
Theorem C72_fast_defined : forall ops sf mw env o s0 T x y s t0 t1 t,
  drun ops (newDebye sf mw env) = Ok x -> evaluates o s0 T -> dstep o x = Ok y -> pairs_ok s0 t0 -> pairs_ok s t1 -> pairs_ok s t ->
  (exists z, fastUpdate t0 s t1 t y = Ok z /\ length (dval z) = length (getQgrid z)) \/ (exists z, fastUpdate t0 s t1 t y = Throw InvalidArgument z).
Proof.
  intros ops sf mw env o s0 T x y s t0 t1 t Hx Ho Hy P0 P1 P. destruct (y_inv ops sf mw env o s0 T x y Hx Ho Hy) as (Hi & Hcur & Hds & _). rewrite <- Hds in P0.
  destruct (fast_ok t0 s t1 t y Hi (current_fits y Hi Hcur) P0 P1 P) as [(z & E & (_ & _ & Hl) & _)|H]; [left|now right]. exists z. split; [exact E|]. rewrite Hl. unfold getQgrid, grid. now rewrite map_length, zrange_length, Z.sub_0_r.
Qed.
Print Assumptions C72_fast_defined.
(** The pair limits may change while the update stays a fast one: the pairs kept are then those of the old limits. *)
Theorem C72_limits_refuted : exists sf mw env ops s0 s x y,
  drun (ops ++ [DEval s0 []]) (newDebye sf mw env) = Ok x /\ setStructure s x = Ok y /\ dtick y = dtick x /\ bondLimits x = (0, 20) /\ bondLimits y = (4, 20).
Proof. destruct fast_limits as (x & y & E & H). exists sf1, mw2, [], [DRstep 1; DRmin 5], wide, narrow, x, y. split; [exact E|exact H]. Qed.
Print Assumptions C72_limits_refuted.
Example C72_nonvacuous : exists x y z, drun [DRstep 1] (newDebye sf1 mw2 []) = Ok x /\ dstep (DEval wide ([(bond01, 2%Z)] ++ [])) x = Ok y /\ pairs_ok wide ([(bond01, 2%Z)] ++ []) /\
  same_sites (dc y) wide narrow [] /\ fastUpdate (taken_back [(bond01, 2%Z)]) narrow [] [] y = Ok z.
Proof.
  destruct new_rstep1 as (x & E & Hx & Ho & Hh & A1 & A2 & A3 & A4 & A5 & A6 & A7).
  assert (P : pairs_ok wide ([(bond01, 2%Z)] ++ [])) by (intros b z [H|[]]; injection H as <- <-; cbn; lia).
  destruct (eval_cases (DEval wide ([(bond01, 2%Z)] ++ [])) wide _ x Hx (or_intror eq_refl)) as [(y & z & v & Ey & Ez & -> & _ & El & Hz & Hcur & Hds)|(y & Ey & _ & Hoq)].
  2:{ exfalso. destruct (set_opt_ok wide x 20%Z Hx Ho) as (y' & Es & Hy' & Hc' & _); [lra| |rewrite A3; lra|].
      - rewrite cache_lims. cbn [with_ds dc ds chisteps]. rewrite nhi_wide by auto. destruct (Z.leb_spec 20 (chisteps x - 50)); [reflexivity|lia].
      - cbn [dstep] in Ey. unfold eval in Ey. rewrite Es in Ey. cbn [andthen] in Ey. destruct (addPairs_any ([(bond01, 2%Z)] ++ []) y' (current_fits _ Hy' Hc')) as (w & Ew & _). rewrite Ew in Ey. discriminate. }
  destruct (set_opt_ok wide x 20%Z Hx Ho) as (y' & Es & Hy' & Hc' & Hd' & Hh' & Ho' & _ & Hq' & Hcf & _); [lra| |rewrite A3; lra|].
  { rewrite cache_lims. cbn [with_ds dc ds chisteps]. rewrite nhi_wide by auto. destruct (Z.leb_spec 20 (chisteps x - 50)); [reflexivity|lia]. }
  rewrite Ez in Es. assert (y' = z) by congruence. subst y'. set (y := with_dval z v) in *.
  assert (B : k_rmax (dc y) = 10 /\ k_rstep (dc y) = 1 /\ k_maxext (dc y) = 10 /\ k_mw (dc y) = mw2 /\ k_qmax (dc y) = 25) by (change (dc y) with (dc z); rewrite Hcf; cbn; auto).
  destruct B as (B1 & B2 & B3 & B4 & B5). assert (Hcy : current y) by (now apply current_val). assert (Hiy : dinv y) by exact Hz.
  assert (P0 : pairs_ok (ds y) (taken_back [(bond01, 2%Z)])) by (change (ds y) with (ds z); rewrite Hds; intros b w [H|[]]; injection H as <- <-; cbn; lia).
  assert (Pn : pairs_ok narrow []) by (intros b w []).
  destruct (fast_ok (taken_back [(bond01, 2%Z)]) narrow [] [] y Hiy (current_fits _ Hiy Hcy) P0 Pn Pn) as [(w & Ew & _)|(w & Ew)].
  - exists x, y, w. split; [exact E|]. split; [exact Ey|]. split; [exact P|]. split; [intros b z' i q []|exact Ew].
  - exfalso. unfold fastUpdate in Ew. destruct (addPairs_any (taken_back [(bond01, 2%Z)]) y (current_fits _ Hiy Hcy)) as (u & Eu & _). rewrite Eu in Ew. cbn [andthen] in Ew.
    assert (Hu : dinv (with_dval y u)) by exact Hz. assert (Hou : k_opt (dc (with_dval y u)) = true) by exact Ho'.
    destruct (set_opt_ok narrow (with_dval y u) 20%Z Hu Hou) as (z2 & Es2 & Hz2 & Hcz2 & _ & _ & _ & _ & Hqz & Hdz & Htz); [change (dc (with_dval y u)) with (dc y); lra| |change (dc (with_dval y u)) with (dc y); rewrite B2; lra|].
    + rewrite cache_lims. cbn [with_ds dc ds chisteps with_dval]. change (dc y) with (dc (with_dval y u)) in *. rewrite nhi_narrow by auto. change (chisteps y) with (chisteps z). rewrite Hh'. reflexivity.
    + rewrite Es2 in Ew. cbn [andthen] in Ew. rewrite Htz, Hqz in Ew. change (dc (with_dval y u)) with (dc z) in Ew. rewrite Hq' in Ew.
      assert (Bz : k_rstep (dc z) = 1 /\ k_qmax (dc z) = 25) by (split; [exact B2|exact B5]). destruct Bz as [-> ->] in Ew. rewrite A3, A4 in Ew. unfold Reqb in Ew. destruct (Req_EM_T _ _) in Ew; [|congruence]. rewrite Nat.eqb_refl in Ew. discriminate.
Qed.
