(** C45: envelopes. *)
From Coq Require Import String OrderedTypeEx.
From Verif Require Import Base RBase PdfGrid Envelopes EnvelopesSpec EnvelopesProofs.
Open Scope R_scope.
Open Scope list_scope.

(** Spherical shape of diameter d, at distances r >= 0. *)
Theorem C45_spherical d r r' : 0 <= r -> let f := eval (ESpherical d) in
  0 <= f r <= 1 /\ (r <= r' -> f r' <= f r) /\ f 0 = 1 /\ (0 < d -> d <= r -> f r = 0) /\ (d <= 0 -> f r = 1) /\
  (0 < d -> r < d -> 0 < f r) /\ (0 < d -> 0 < r -> f r < 1).
Proof.
  cbv zeta. intros Hr. cbn [eval]. destruct (Rleb d 0) eqn:E; [apply Rleb_true in E|apply Rleb_false in E].
  - split; [lra|]. split; [lra|]. split; [auto|]. split; [lra|]. split; [auto|]. split; lra.
  - set (g := fun x => 1 - 3 / 2 * x + 1 / 2 * (x * x * x)). pose proof (Rinv_0_lt_compat d E) as Hi.
    assert (Hd : forall r, r <= d <-> r / d <= 1). { intros z. unfold Rdiv. split; intros; apply (Rmult_le_reg_r d); auto; rewrite ?Rmult_assoc, ?Rinv_l in *; try lra.
      apply (Rmult_le_compat_r d) in H; [|lra]. rewrite Rmult_assoc, Rinv_l in H by lra. nra. }
    assert (Hx0 : forall r, 0 <= r -> 0 <= r / d) by (intros; unfold Rdiv; nra).
    assert (Hg : forall x y, 0 <= x <= y -> y <= 1 -> g y <= g x). { intros x y Hxy H1. unfold g.
      assert (0 <= (y - x) * (3 - (x * x + x * y + y * y))) by (apply Rmult_le_pos; nra). nra. }
    assert (G0 : g 0 = 1) by (unfold g; ring). assert (G1 : g 1 = 0) by (unfold g; lra).
    assert (Hf : forall r, 0 <= r -> (if Rltb d r then 0 else g (r / d)) = g (Rmin (r / d) 1)).
    { intros z Hz. destruct (Rltb d z) eqn:E1; [apply Rltb_true in E1|apply Rltb_false in E1].
      - rewrite Rmin_right; [now rewrite G1|]. destruct (Rle_dec 1 (z / d)); auto. assert (z <= d) by (apply Hd; lra). lra.
      - rewrite Rmin_left; auto. now apply Hd. }
    change (1 - 3 / 2 * (r / d) + 1 / 2 * (r / d * (r / d) * (r / d))) with (g (r / d)).
    change (1 - 3 / 2 * (r' / d) + 1 / 2 * (r' / d * (r' / d) * (r' / d))) with (g (r' / d)).
    change (1 - 3 / 2 * (0 / d) + 1 / 2 * (0 / d * (0 / d) * (0 / d))) with (g (0 / d)).
    assert (Hm : forall z, 0 <= z -> 0 <= Rmin (z / d) 1 <= 1). { intros z Hz. specialize (Hx0 z Hz). split; [apply Rmin_glb; lra|apply Rmin_r]. }
    rewrite (Hf r Hr), (Hf 0) by lra. specialize (Hm r Hr) as M.
    split; [|split; [|split; [|split; [|split; [|split]]]]].
    + split; [apply Rle_trans with (g 1); [lra|apply Hg; lra]|apply Rle_trans with (g 0); [apply Hg; lra|lra]].
    + intros H. rewrite (Hf r') by lra. apply Hg; [|apply Rmin_r]. split; [lra|]. apply Rmin_glb; [|apply Rmin_r].
      apply Rle_trans with (r / d); [apply Rmin_l|]. unfold Rdiv. apply Rmult_le_compat_r; lra.
    + replace (0 / d) with 0 by (unfold Rdiv; ring). now rewrite Rmin_left by lra.
    + intros _ H. rewrite Rmin_right; [exact G1|]. destruct (Rle_dec 1 (r / d)); auto. assert (r / d <= 1) as A by lra. apply Hd in A. assert (r = d) by lra. subst. unfold Rdiv in *. rewrite Rinv_r in * by lra. lra.
    + lra.
    + intros _ H. assert (r / d < 1). { apply (Rmult_lt_reg_r d); auto. unfold Rdiv. rewrite Rmult_assoc, Rinv_l by lra. lra. }
      rewrite Rmin_left by lra. set (x := r / d) in *. specialize (Hx0 r Hr). fold x in Hx0. unfold g.
      assert (0 < (1 - x) * (1 - x) * (2 + x)) by (repeat apply Rmult_lt_0_compat; lra). nra.
    + intros _ H. assert (0 < Rmin (r / d) 1). { apply Rmin_glb_lt; [unfold Rdiv; nra|lra]. }
      set (x := Rmin (r / d) 1) in *. unfold g. assert (0 < x * (3 - x * x)) by (apply Rmult_lt_0_compat; nra). nra.
Qed.
Print Assumptions C45_spherical.

(** The step cut is one up to the cut and zero beyond; without a positive cut it is one. *)
Theorem C45_stepcut c r : let f := eval (EStepCut c) in
  (f r = 0 \/ f r = 1) /\ (0 < c -> r <= c -> f r = 1) /\ (0 < c -> c < r -> f r = 0) /\ (c <= 0 -> f r = 1).
Proof.
  cbv zeta. cbn [eval]. destruct (Rltb 0 c) eqn:E1, (Rltb c r) eqn:E2; cbn [andb];
    rewrite ?Rltb_true, ?Rltb_false in *; (split; [auto|]; split; [|split]); intros; lra.
Qed.
Print Assumptions C45_stepcut.

(** Q-resolution is in (0,1], one at zero and decreasing with the distance; without a positive qdamp it is one. *)
Theorem C45_qresolution q r r' : let f := eval (EQResolution q) in
  0 < f r <= 1 /\ f 0 = 1 /\ (Rabs r <= Rabs r' -> f r' <= f r) /\ (0 < q -> Rabs r < Rabs r' -> f r' < f r) /\ (q <= 0 -> f r = 1) /\
  (0 < q -> ln (f r) = - (r ^ 2 * q ^ 2) / 2).
Proof.
  cbv zeta. cbn [eval]. destruct (Rltb 0 q) eqn:E; [apply Rltb_true in E|apply Rltb_false in E].
  - assert (Hs : forall z, z * q * (z * q) = Rabs z * Rabs z * (q * q)). { intros z. rewrite <- Rabs_mult, (Rabs_right (z * z)) by nra. ring. }
    split; [split; [apply exp_pos|]|split; [|split; [|split; [|split]]]].
    + rewrite <- exp_0. destruct (Req_dec (r * q * (r * q)) 0) as [Z|N]; [rewrite Z; right; f_equal; lra|left; apply exp_increasing; nra].
    + rewrite <- exp_0. f_equal. field.
    + intros H. rewrite !Hs. pose proof (Rabs_pos r). destruct (Req_dec (Rabs r) (Rabs r')) as [->|N]; [lra|]. left. apply exp_increasing.
      assert (Rabs r * Rabs r < Rabs r' * Rabs r') by nra. assert (0 < q * q) by nra.
      assert (Rabs r * Rabs r * (q * q) < Rabs r' * Rabs r' * (q * q)) by (apply Rmult_lt_compat_r; auto). lra.
    + intros _ H. rewrite !Hs. pose proof (Rabs_pos r). apply exp_increasing. assert (Rabs r * Rabs r < Rabs r' * Rabs r') by nra. assert (0 < q * q) by nra.
      assert (Rabs r * Rabs r * (q * q) < Rabs r' * Rabs r' * (q * q)) by (apply Rmult_lt_compat_r; auto). lra.
    + lra.
    + intros _. rewrite ln_exp. field.
  - split; [lra|]. split; [auto|]. split; [lra|]. split; [lra|]. split; [auto|lra].
Qed.
Print Assumptions C45_qresolution.

(** The scale envelope is its scale; envelopes made by type name have that type and change nothing before a parameter is set. *)
Theorem C45_scale_and_defaults s r tp e : eval (EScale s) r = s /\ (builtin tp = Some e -> etype e = tp /\ eval e r = 1).
Proof.
  split; [reflexivity|]. unfold builtin. 
  destruct (string_dec tp "sphericalshape") as [->|]; [intros [= <-]; split; [reflexivity|]; cbn [eval]; destruct (Rleb 0 0) eqn:E; auto; apply Rleb_false in E; lra|].
  destruct (string_dec tp "stepcut") as [->|]; [intros [= <-]; split; [reflexivity|]; cbn [eval]; destruct (Rltb 0 0) eqn:E; auto; apply Rltb_true in E; lra|].
  destruct (string_dec tp "qresolution") as [->|]; [intros [= <-]; split; [reflexivity|]; cbn [eval]; destruct (Rltb 0 0) eqn:E; auto; apply Rltb_true in E; lra|].
  destruct (string_dec tp "scale") as [->|]; [intros [= <-]; split; reflexivity|]. discriminate.
Qed.
Print Assumptions C45_scale_and_defaults.

(** After any calls the owner holds what the specification says: lookups, the listed types, and the applied
    product of the envelopes, with the parameters they have now. *)
Theorem C45_owner cr l s : held_run cr l nothing_held = Some s ->
  exists o, erun cr l empty_owner = Some o /\ heap o = objs s /\
    (forall t, getEnvelopeByType t o = match holds s t with Some a => Ok (Some a) | None => Throw InvalidArgument None end) /\
    NoDup (usedEnvelopeTypes o) /\ (forall t, In t (usedEnvelopeTypes o) <-> holds s t <> None) /\
    (forall xs ys, List.length xs = List.length ys ->
       applyEnvelopes o xs ys = Ok (map (fun p => snd p * factor s (usedEnvelopeTypes o) (fst p)) (combine xs ys))).
Proof.
  intros H. pose proof (run_inv cr l _ _ inv_empty) as R. rewrite H in R. destruct R as (o & Ho & Hi). exists o. split; [auto|].
  destruct Hi as (H1 & H2 & H3 & H4). pose proof (conj H1 (conj H2 (conj H3 H4))) as Hi. split; [auto|]. split; [|split; [|split]].
  - intros t. unfold getEnvelopeByType. rewrite H3. destruct (holds s t); auto.
  - now apply ksorted_NoDup.
  - intros t. now apply used_In.
  - intros xs ys Hl. unfold applyEnvelopes. rewrite apply_fold; auto.
    + f_equal. apply map_ext. intros [r z]. cbn. f_equal. unfold usedEnvelopeTypes. now apply prod_factor.
    + intros k a Hk. apply H4 in Hk. unfold type_at in Hk. destruct (nth_error (heap o) a); discriminate.
Qed.
Print Assumptions C45_owner.

(** The product does not depend on the order in which the listed types are multiplied. *)
Theorem C45_factor_order s ts ts' r : Permutation ts ts' -> factor s ts r = factor s ts' r.
Proof.
  unfold factor. induction 1 as [|t l l' _ IH|t t' l|]; cbn [fold_right]; auto; [now rewrite IH| |congruence].
  destruct (holds s t) as [a|]; [destruct (nth_error (objs s) a)|]; (destruct (holds s t') as [a'|]; [destruct (nth_error (objs s) a')|]); ring.
Qed.
Print Assumptions C45_factor_order.

(** Adding envelopes of different types in another order gives the very same owner, so also the same
    sequence of floating point multiplications. *)
Theorem C45_add_order cr h s o (l l' : list nat) : held_run cr h nothing_held = Some s -> erun cr h empty_owner = Some o ->
  Permutation l l' -> NoDup (map (type_at (objs s)) l) -> (forall a, In a l -> type_at (objs s) a <> None) ->
  erun cr (map (fun a => OAdd (Some a)) l) o = erun cr (map (fun a => OAdd (Some a)) l') o.
Proof.
  intros H Ho Hp Hn Ht. pose proof (run_inv cr h _ _ inv_empty) as R. rewrite H in R. destruct R as (o' & Ho' & (H1 & H2 & _ & _)).
  assert (o' = o) as -> by congruence. rewrite <- H1 in *. clear H Ho Ho' H1 s h.
  revert o H2 Hn Ht. induction Hp as [|a l l' _ IH|a b l|l1 l2 l3 P1 IH1 P2 IH2]; intros o H2 Hn Ht.
  - auto.
  - cbn [map erun estep addEnvelope]. destruct (nth_error (heap o) a) as [e|] eqn:E; auto. apply IH; cbn [heap menv]; [now apply ksorted_mset| |].
    + now inversion Hn.
    + intros; apply Ht; cbn; auto.
  - cbn [map erun estep addEnvelope]. 
    destruct (nth_error (heap o) a) as [e|] eqn:E, (nth_error (heap o) b) as [e'|] eqn:E'; cbn [heap menv]; rewrite ?E, ?E'; auto.
    f_equal. f_equal. apply ksorted_ext; try (now repeat apply ksorted_mset).
    intros t. rewrite !mfind_mset by (try apply ksorted_mset; auto). 
    destruct (string_dec t (etype e)) as [->|]; auto. destruct (string_dec (etype e) (etype e')) as [X|]; auto.
    exfalso. inversion Hn as [|? ? Hni _]. apply Hni. cbn. left. unfold type_at. rewrite E, E'. cbn. congruence.
  - rewrite IH1 by auto. apply IH2; auto.
    + eapply Permutation_NoDup; [|exact Hn]. now apply Permutation_map.
    + intros a Ha. apply Ht. now apply (Permutation_in a (Permutation_sym P1)).
Qed.
Print Assumptions C45_add_order.

(** Adding replaces the envelope of its type only; popping an envelope removes it and only it, and nothing when it is not held. *)
Theorem C45_replace_and_pop cr h o a tp : erun cr h empty_owner = Some o -> type_at (heap o) a = Some tp ->
  (exists o', addEnvelope (Some a) o = Ok o' /\ forall t, getEnvelopeByType t o' = if string_dec t tp then Ok (Some a) else getEnvelopeByType t o) /\
  (exists o', popEnvelope (Some a) o = Ok o' /\
     (getEnvelopeByType tp o = Ok (Some a) -> getEnvelopeByType tp o' = Throw InvalidArgument None /\ forall t, t <> tp -> getEnvelopeByType t o' = getEnvelopeByType t o) /\
     (getEnvelopeByType tp o <> Ok (Some a) -> o' = o)) /\
  (exists o', popEnvelopeByType tp o = Ok o' /\ forall t, getEnvelopeByType t o' = if string_dec t tp then Throw InvalidArgument None else getEnvelopeByType t o).
Proof.
  intros Hr Ht. pose proof (run_inv cr h _ _ inv_empty) as R. destruct (held_run cr h nothing_held) as [s|]; [|congruence].
  destruct R as (o0 & Ho & (H1 & H2 & H3 & H4)). assert (o0 = o) as -> by congruence.
  assert (Hu : forall k k', In (k, a) (menv o) -> In (k', a) (menv o) -> k = k') by (intros k k' I1 I2; apply H4 in I1, I2; congruence).
  split; [|split].
  - cbn [addEnvelope]. unfold type_at in Ht. destruct (nth_error (heap o) a) as [e|]; [|discriminate]. injection Ht as <-.
    eexists. split; [reflexivity|]. intros t. unfold getEnvelopeByType. cbn [menv]. rewrite mfind_mset by auto. destruct (string_dec t (etype e)); auto.
  - eexists. split; [reflexivity|]. unfold getEnvelopeByType. cbn [menv]. split.
    + intros Hg. destruct (mfind tp (menv o)) as [b|] eqn:E; [|discriminate]. injection Hg as ->. rewrite mfind_pop by auto. rewrite E.
      destruct (Nat.eq_dec a a); [|congruence]. split; auto. intros t Nt. rewrite mfind_pop by auto. destruct (mfind t (menv o)) as [b|] eqn:E'; auto.
      destruct (Nat.eq_dec b a) as [->|]; auto. exfalso. apply Nt. apply Hu; now apply mfind_In.
    + intros Hg. replace (pop_loop a (menv o)) with (menv o); [destruct o; auto|].
      assert (Hno : forall k, ~ In (k, a) (menv o)). { intros k Hk. assert (k = tp) as -> by (apply H4 in Hk; congruence). apply (In_mfind _ _ _ H2) in Hk. rewrite Hk in Hg. congruence. }
      clear -Hno. induction (menv o) as [|[k b] m IH]; cbn; auto. destruct (Nat.eqb_spec b a) as [->|]; [exfalso; apply (Hno k); cbn; auto|].
      f_equal. apply IH. intros k' Hk. apply (Hno k'). cbn; auto.
  - eexists. split; [reflexivity|]. intros t. unfold getEnvelopeByType. cbn [menv]. rewrite mfind_merase by auto. destruct (string_dec t tp); auto.
Qed.
Print Assumptions C45_replace_and_pop.

(** A null pointer and an unknown type are refused and change nothing. *)
Theorem C45_errors cr tp o : addEnvelope None o = Throw InvalidArgument o /\ (cr tp = None -> addEnvelopeByType cr tp o = Throw InvalidArgument o) /\ popEnvelope None o = Ok o.
Proof. split; [reflexivity|]. split; [|reflexivity]. intros H. unfold addEnvelopeByType. now rewrite H. Qed.
Print Assumptions C45_errors.

(** A history: two envelopes by type, a replaced one with changed parameter, one popped. *)
Definition ex_hist : list eop :=
  [OAddByType "scale"; ONew (EQResolution 1); OAddByType "qresolution"; OAdd (Some 1%nat); OParam 0 (EScale 3); OAddByType "nonsense"; OAddByType "stepcut"; OPop (Some 3%nat)].
Example C45_nonvacuous : exists s, held_run builtin ex_hist nothing_held = Some s /\ holds s "scale" = Some 0%nat /\ holds s "qresolution" = Some 1%nat /\ holds s "stepcut" = None /\
  factor s ["qresolution"; "scale"]%string 0 = 3.
Proof.
  eexists. split; [lazy -[Rltb IZR Rmult Rdiv exp]; reflexivity|]. split; [reflexivity|]. split; [reflexivity|]. split; [reflexivity|].
  unfold factor. lazy -[Rltb IZR Rmult Rdiv exp Ropp eval]. destruct (C45_qresolution 1 0 0) as (_ & H & _). cbv zeta in H.
  match goal with |- ?x * (?y * _) = _ => change x with (eval (EQResolution 1) 0); change y with 3 end. rewrite H. lra.
Qed.
