(** Proofs: pair quantities on structures are calculators in the sense of EvaluatorSpec.calc_ok. *)
From Coq Require Import String.
From Verif Require Import RBase R3 Trig TrigProofs Sphere SphereSpec SphereProofs SphereGeom SphereMain Lattice LatticeSpec LatticeProofs Crystal CrystalSpec CrystalCell
  StructDiff StructDiffSpec StructDiffProofs Evaluator EvaluatorSpec EvaluatorProofs EvaluatorRun EvaluatorMore BondGen BondGenSpec BondGenProofs BondGenMain OverlapGen World WorldSpec WorldAtoms WorldProofs.
Import ListNotations.
Open Scope R_scope.
Notation length := List.length.

(** ** several sites are several single sites *)
Definition reslot (f : nat -> nat) (y : image) : image := let '(k, s, T) := y in (f k, s, T).
Lemma bond_reslot cls M i sel sel' f y : nth (f (fst (fst y))) sel' O = nth (fst (fst y)) sel O -> bond_at cls M i sel' (reslot f y) = bond_at cls M i sel y.
Proof. destruct y as [[k s] T]. cbn [reslot fst snd]. intros E. unfold bond_at. now rewrite E. Qed.
Lemma dist_reslot cls M i sel sel' f y : nth (f (fst (fst y))) sel' O = nth (fst (fst y)) sel O -> image_distance cls M i sel' (reslot f y) = image_distance cls M i sel y.
Proof. destruct y as [[k s] T]. cbn [reslot fst snd]. intros E. unfold image_distance. now rewrite E. Qed.
Lemma ok_reslot cls M sel sel' f y : nth (f (fst (fst y))) sel' O = nth (fst (fst y)) sel O -> (f (fst (fst y)) < length sel')%nat ->
  image_ok cls M sel y -> image_ok cls M sel' (reslot f y).
Proof. destruct y as [[k s] T]. cbn [reslot fst snd]. intros E Hf [Hk H]. unfold image_ok. split; auto. now rewrite E. Qed.
Lemma images_cons cls M lo hi i j sel v v1 v2 : exact_images cls M lo hi i (j :: sel) v -> exact_images cls M lo hi i [j] v1 -> exact_images cls M lo hi i sel v2 ->
  Permutation v (v1 ++ map (reslot Datatypes.S) v2).
Proof.
  intros [N H] [N1 H1] [N2 H2]. apply NoDup_Permutation; auto.
  - apply NoDup_app_intro; auto.
    + apply FinFun.Injective_map_NoDup; auto. intros [[k s] T] [[k' s'] T'] [= -> -> ->]. reflexivity.
    + intros y Hy Hy'. apply H1 in Hy as [HI _]. apply in_map_iff in Hy' as ([[k s] T] & <- & _). destruct HI as [HI _]. cbn in HI. lia.
  - intros y. rewrite in_app_iff, H, H1, in_map_iff. split.
    + intros [HI HR]. destruct y as [[[|k] s] T].
      * left. split; [|exact HR]. destruct HI as [_ HI]. split; [cbn; lia|exact HI].
      * right. exists (k, s, T). split; [reflexivity|]. apply H2. split; [|exact HR]. destruct HI as [HI HI']. split; [cbn in HI; lia|exact HI'].
    + intros [[HI HR]|(y' & <- & Hy)].
      * destruct y as [[k s] T]. destruct HI as [HK HI]. cbn in HK. assert (k = O) as -> by lia. split; [|exact HR]. split; [cbn; lia|exact HI].
      * apply H2 in Hy as [HI HR]. destruct y' as [[k s] T]. split; [|exact HR]. destruct HI as [HI HI']. split; [cbn; lia|exact HI'].
Qed.
Lemma shown_cons cls M lo hi i : stru_ok cls M -> (i < length (spos M))%nat -> forall sel, (forall j, In j sel -> (j < length (spos M))%nat) ->
  Permutation (shown_ cls M lo hi i sel) (flat_map (fun j => shown_ cls M lo hi i [j]) sel).
Proof.
  intros OK Hi. induction sel as [|j sel IH]; intros Hs.
  - destruct (shown_spec cls M lo hi i [] OK Hi) as (v & [_ HV] & ->); [contradiction|]. destruct v as [|[[k s] T] v]; auto. exfalso.
    destruct (proj1 (HV (k, s, T)) (or_introl eq_refl)) as [[HK _] _]. cbn in HK. lia.
  - cbn [flat_map]. destruct (shown_spec cls M lo hi i (j :: sel) OK Hi Hs) as (v & HV & ->).
    destruct (shown_spec cls M lo hi i [j] OK Hi) as (v1 & HV1 & E1); [intros ? [<-|[]]; apply Hs; now left|].
    destruct (shown_spec cls M lo hi i sel OK Hi) as (v2 & HV2 & E2); [intros; apply Hs; now right|].
    rewrite (Permutation_map _ (images_cons _ _ _ _ _ _ _ _ _ _ HV HV1 HV2)), map_app, map_map, E1, <- IH by (intros; apply Hs; now right). rewrite E2.
    apply Permutation_app; apply Permutation_refl'; apply map_ext_in; intros y Hy.
    + apply HV1 in Hy as [HI _]. destruct y as [[k s] T]. destruct HI as [HK _]. cbn in HK. assert (k = O) as -> by lia. reflexivity.
    + apply bond_reslot. destruct y as [[k s] T]. reflexivity.
Qed.

(** ** geometry of a pair depends on the two atoms and their surroundings only *)
Section View.
  Context (e : envt) (l l' : list catom) (i i' : nat) (a : catom) (Ha : nth_error l i = Some a) (Ha' : nth_error l' i' = Some a).
  Lemma nth_map_some {X Y} (f : X -> Y) (m : list X) k x d : nth_error m k = Some x -> nth k (map f m) d = f x.
  Proof. intros H. apply nth_error_nth. now apply map_nth_error. Qed.
  Lemma equiv_view : equivalents (snd (gview e l)) i = equivalents (snd (gview e l')) i'.
  Proof.
    unfold equivalents. destruct e as [|L|L p ops]; cbn [gview snd plain ssym stru_of updateSymmetryPositions x_sym x_atoms x_lat x_ops x_prec].
    1, 2: now destruct i, i'.
    rewrite !map_map. now rewrite (nth_map_some _ l i a), (nth_map_some _ l' i' a).
  Qed.
  Lemma home_view s : home (fst (gview e l)) (snd (gview e l)) i s = home (fst (gview e l')) (snd (gview e l')) i' s.
  Proof.
    unfold home. pose proof equiv_view as EQ. destruct e as [|L|L p ops]; cbn [gview fst snd] in *; unfold site_pos; cbn [plain spos slat].
    1, 2: now rewrite (nth_map_some _ l i a), (nth_map_some _ l' i' a). now rewrite EQ.
  Qed.
  Lemma u_view s : image_u (fst (gview e l)) (snd (gview e l)) i s = image_u (fst (gview e l')) (snd (gview e l')) i' s.
  Proof.
    unfold image_u. pose proof equiv_view as EQ. destruct e as [|L|L p ops]; cbn [gview fst snd] in *; cbn [plain suij].
    1, 2: now rewrite (nth_map_some _ l i a), (nth_map_some _ l' i' a). now rewrite EQ.
  Qed.
  Lemma pos_view s T : image_pos (fst (gview e l)) (snd (gview e l)) i s T = image_pos (fst (gview e l')) (snd (gview e l')) i' s T.
  Proof.
    unfold image_pos. rewrite <- home_view. destruct e as [|L|L p ops]; reflexivity.
  Qed.
End View.
Section Pair.
  Context (e : envt) (l l' : list catom) (i j i' j' : nat) (a b : catom).
  Context (Ha : nth_error l i = Some a) (Ha' : nth_error l' i' = Some a) (Hb : nth_error l j = Some b) (Hb' : nth_error l' j' = Some b).
  Notation C := (fst (gview e l)). Notation M := (snd (gview e l)). Notation C' := (fst (gview e l')). Notation M' := (snd (gview e l')).
  Lemma pair_dist y : image_ok C M [j] y -> image_distance C M i [j] y = image_distance C' M' i' [j'] y.
  Proof.
    destruct y as [[k s] T]. intros [HK _]. cbn in HK. assert (k = O) as -> by lia. unfold image_distance. cbn [nth].
    now rewrite (home_view e l l' i i' a Ha Ha'), (pos_view e l l' j j' b Hb Hb').
  Qed.
  Lemma pair_ok y : image_ok C M [j] y -> image_ok C' M' [j'] y.
  Proof.
    destruct y as [[k s] T]. intros [HK HI]. cbn in HK. assert (k = O) as -> by lia. split; [cbn; lia|]. cbn [nth] in *.
    rewrite <- (equiv_view e l l' j j' b Hb Hb'). destruct e; exact HI.
  Qed.
  Lemma pair_bond y : image_ok C M [j] y -> let p := bond_at C M i [j] y in let q := bond_at C' M' i' [j'] y in
    b_r01 p = b_r01 q /\ b_distance p = b_distance q /\ b_u1 p = b_u1 q /\ b_site0 p = i /\ b_site1 p = j.
  Proof.
    destruct y as [[k s] T]. intros [HK _]. cbn in HK. assert (k = O) as -> by lia. cbv zeta. unfold bond_at. cbn [nth b_r01 b_distance b_u1 b_site0 b_site1].
    rewrite (home_view e l l' i i' a Ha Ha'), (pos_view e l l' j j' b Hb Hb'), (u_view e l l' j j' b Hb Hb'). auto.
  Qed.
End Pair.
Lemma pair_images e l l' i j i' j' a b lo hi v v' :
  nth_error l i = Some a -> nth_error l' i' = Some a -> nth_error l j = Some b -> nth_error l' j' = Some b ->
  exact_images (fst (gview e l)) (snd (gview e l)) lo hi i [j] v -> exact_images (fst (gview e l')) (snd (gview e l')) lo hi i' [j'] v' -> Permutation v v'.
Proof.
  intros Ha Ha' Hb Hb' [N H] [N' H']. apply NoDup_Permutation; auto. intros y. rewrite H, H'. split; intros [HI HR].
  - split; [eapply pair_ok; [exact Hb|exact Hb'|exact HI]|]. now rewrite <- (pair_dist e l l' i j i' j' a b Ha Ha' Hb Hb' y HI).
  - split; [eapply pair_ok; [exact Hb'|exact Hb|exact HI]|]. now rewrite <- (pair_dist e l' l i' j' i j a b Ha' Ha Hb' Hb y HI).
Qed.

Definition adapter_of (e : envt) (l : list catom) : adp :=
  Adp 0 (match e with Isolated => Atomic l | Lattice_only L => Periodic L l | Symmetric L p ops => StructDiff.Crystal L p ops l end).
Lemma adapter_env e l : env_of (adapter_of e l) = e. Proof. now destruct e. Qed.
Lemma adapter_atoms e l : atoms_of (adapter_of e l) = l. Proof. now destruct e. Qed.
Lemma shown_view x lo hi i sel : shown x lo hi i sel = shown_ (fst (gview (env_of x) (atoms_of x))) (snd (gview (env_of x) (atoms_of x))) lo hi i sel.
Proof. unfold shown, shown_. rewrite create_view. now destruct (gview _ _). Qed.

Section World.
  Context (objs : adp -> Prop) (sortf : list (catom * Z) -> list (catom * Z)) (HO : program objs) (HSort : sorts sortf).
  Context {cfg V : Type} (Q : quantity cfg V) (opp : V -> V) (HQ : quantity_ok Q opp).
  Notation K := (pair_calc objs sortf Q).
  Definition wpairs (c : cfg) (s : wstru objs) (i j : nat) : list bond := shown (wadp objs s) (q_rmin Q c) (q_rmax Q c) i [j].
  Definition wenv (s : wstru objs) : envt := env_of (wadp objs s).
  (** the contribution of a pair, from a structure of these two atoms *)
  Definition ww (c : cfg) (e : envt) (z : Z) (i : nat) (a : catom) (j : nat) (b : catom) : V :=
    if q_mask Q c i a j b then qsum Q (map (fun p => q_contrib Q c e z a b (b_r01 p) (b_distance p) (b_u1 p)) (shown (adapter_of e [a; b]) (q_rmin Q c) (q_rmax Q c) 0 [1%nat]))
    else q_zero Q.

  Lemma qsum_perm l m : Permutation l m -> qsum Q l = qsum Q m.
  Proof.
    unfold qsum. destruct HQ as [q1 q2 _ _ _ _]. induction 1; cbn; auto; try congruence.
  Qed.
  Lemma wgood s : good_env (wenv s). Proof. destruct s as [x Hx]. now apply (p_good _ HO). Qed.
  Lemma wview_ok s : stru_ok (fst (gview (wenv s) (watoms objs s))) (snd (gview (wenv s) (watoms objs s))).
  Proof. apply view_ok, wgood. Qed.
  Lemma wshown s lo hi i sel : shown (wadp objs s) lo hi i sel = shown_ (fst (gview (wenv s) (watoms objs s))) (snd (gview (wenv s) (watoms objs s))) lo hi i sel.
  Proof. apply shown_view. Qed.

  Lemma gen_ok_w c s i sel : (i < countSites (wadp objs s))%nat -> (forall j, In j sel -> (j < countSites (wadp objs s))%nat) ->
    Permutation (shown (wadp objs s) (q_rmin Q c) (q_rmax Q c) i sel) (flat_map (wpairs c s i) sel).
  Proof.
    intros Hi Hs. rewrite wshown. unfold wpairs. rewrite (flat_map_ext _ _ (fun j => wshown s _ _ i [j])).
    apply shown_cons; [apply wview_ok| |]; rewrite view_sites; auto.
  Qed.
  Lemma wpairs_spec c s i j : (i < countSites (wadp objs s))%nat -> (j < countSites (wadp objs s))%nat ->
    exists v, exact_images (fst (gview (wenv s) (watoms objs s))) (snd (gview (wenv s) (watoms objs s))) (q_rmin Q c) (q_rmax Q c) i [j] v /\
      wpairs c s i j = map (bond_at (fst (gview (wenv s) (watoms objs s))) (snd (gview (wenv s) (watoms objs s))) i [j]) v.
  Proof.
    intros Hi Hj. unfold wpairs. rewrite wshown. apply shown_spec; [apply wview_ok| |]; rewrite view_sites; auto. intros ? [<-|[]]. exact Hj.
  Qed.
  Lemma out_of_range lo hi cls M i sel : (length (spos M) <= i)%nat \/ (exists j, In j sel /\ (length (spos M) <= j)%nat) -> shown_ cls M lo hi i sel = [].
  Proof.
    intros H. unfold shown_. destruct (grun _ _ _ _ _ _) as [g| |] eqn:E; auto. exfalso.
    cbn -[Nat.ltb forallb] in E. unfold nsites in E. destruct (Nat.ltb_spec i (length (spos M))) as [Hi|Hi]; [|discriminate].
    destruct H as [H|(j & Hj & H)]; [lia|]. cbn -[Nat.ltb forallb] in E.
    destruct (forallb _ sel) eqn:F; [|discriminate]. rewrite forallb_forall in F. specialize (F j Hj). unfold nsites in F. apply Nat.ltb_lt in F. lia.
  Qed.
  Lemma site1_ok_w c s i j b : In b (wpairs c s i j) -> b_site1 b = j.
  Proof.
    intros H. destruct (Nat.ltb_spec i (countSites (wadp objs s))) as [Hi|Hi]; [destruct (Nat.ltb_spec j (countSites (wadp objs s))) as [Hj|Hj]|].
    - destruct (wpairs_spec c s i j Hi Hj) as (v & [_ HV] & E). rewrite E in H. apply in_map_iff in H as ([[k t] T] & <- & Hy).
      apply HV in Hy as [[HK _] _]. cbn in HK. assert (k = O) as -> by lia. reflexivity.
    - exfalso. unfold wpairs in H. rewrite wshown, out_of_range in H; [contradiction|]. right. exists j. rewrite view_sites. split; [now left|exact Hj].
    - exfalso. unfold wpairs in H. rewrite wshown, out_of_range in H; [contradiction|]. left. rewrite view_sites. exact Hi.
  Qed.
  Lemma nth_some i s a : nth_error (watoms objs s) i = Some a -> watom objs s i = a.
  Proof. apply nth_error_nth. Qed.
  Lemma pair_shown e i j (a b : catom) l lo hi : good_env e -> nth_error l i = Some a -> nth_error l j = Some b ->
    exists v v', Permutation v v' /\
      shown_ (fst (gview e l)) (snd (gview e l)) lo hi i [j] = map (bond_at (fst (gview e l)) (snd (gview e l)) i [j]) v /\
      shown (adapter_of e [a; b]) lo hi 0 [1%nat] = map (bond_at (fst (gview e [a; b])) (snd (gview e [a; b])) 0 [1%nat]) v' /\
      (forall y, In y v -> image_ok (fst (gview e l)) (snd (gview e l)) [j] y).
  Proof.
    intros G Ha Hb. assert (Hi : (i < length l)%nat) by (apply nth_error_Some; congruence). assert (Hj : (j < length l)%nat) by (apply nth_error_Some; congruence).
    destruct (shown_spec (fst (gview e l)) (snd (gview e l)) lo hi i [j] (view_ok e l G)) as (v & HV & E).
    { now rewrite view_sites. } { intros ? [<-|[]]. now rewrite view_sites. }
    destruct (shown_spec (fst (gview e [a; b])) (snd (gview e [a; b])) lo hi 0 [1%nat] (view_ok e [a; b] G)) as (v' & HV' & E').
    { rewrite view_sites. cbn. lia. } { intros ? [<-|[]]. rewrite view_sites. cbn. lia. }
    exists v, v'. split; [|split; [exact E|split]].
    - exact (pair_images e l [a; b] i j 0 1 a b lo hi v v' Ha eq_refl Hb eq_refl HV HV').
    - rewrite shown_view, adapter_env, adapter_atoms. exact E'.
    - intros y Hy. apply HV in Hy. apply Hy.
  Qed.
  Lemma weight_ok_w c s z i j a b : nth_error (watoms objs s) i = Some a -> nth_error (watoms objs s) j = Some b ->
    pair_value K wpairs c s z i j = ww c (wenv s) z i a j b.
  Proof.
    intros Ha Hb. unfold pair_value, ww. cbn [mask pair_calc zero]. rewrite (nth_some _ _ _ Ha), (nth_some _ _ _ Hb). destruct (q_mask Q c i a j b); auto.
    change (sum K) with (qsum Q). unfold wpairs. rewrite wshown.
    destruct (pair_shown (wenv s) i j a b (watoms objs s) (q_rmin Q c) (q_rmax Q c) (wgood s) Ha Hb) as (v & v' & P & -> & -> & HI).
    rewrite !map_map. rewrite <- (qsum_perm _ _ (Permutation_map _ P)). unfold qsum. f_equal. apply map_ext_in. intros y Hy. cbn [contrib pair_calc].
    destruct (pair_bond (wenv s) (watoms objs s) [a; b] i j 0 1 a b Ha eq_refl Hb eq_refl y (HI y Hy)) as (-> & -> & -> & -> & ->).
    now rewrite (nth_some _ _ _ Ha), (nth_some _ _ _ Hb).
  Qed.

  (** ** differences *)
  Fixpoint diff_env_w (x : adp) {struct x} : forall y s0 s1, heap_ok x y -> same_kind x y -> good_env (env_of x) -> good_env (env_of y) ->
    diffmethod (StructDiff.diff catom_eqb catom_ltb lat_eqb Reqb ops_eqb x y s0 s1) <> NONE -> env_of x = env_of y.
  Proof.
    destruct x as [a b]; intros y s0 s1 Hh Hk.
    destruct (Nat.eqb_spec a (addr_of y)) as [E|E].
    - assert (Adp a b = y) as <- by (destruct b; destruct Hh as [Hh _]; apply Hh; exact E). auto.
    - apply Nat.eqb_neq in E. destruct y as [c d]. cbn [addr_of] in E.
      destruct b as [|l|q l|q pr ops l|src|src]; cbn [StructDiff.diff addr_of body_of]; rewrite E;
        destruct d as [|l'|q' l'|q' pr' ops' l'|src'|src'];
        try (intros _ _ HN; apply (none_method _ _ _ HN)); try (destruct Hk; fail); try reflexivity;
        cbn [as_atomic as_periodic as_crystal env_of].
      + intros G G'. destruct (lat_eqb q q') eqn:EL; cbn [negb]; [|intros HN; apply (none_method _ _ _ HN)].
        apply lat_eqb_spec in EL; [now subst|exact G|exact G'].
      + intros G G'. destruct (Reqb pr pr') eqn:EP; cbn [negb]; [|intros HN; apply (none_method _ _ _ HN)].
        destruct (ops_eqb ops ops') eqn:EY; cbn [negb]; [|intros HN; apply (none_method _ _ _ HN)].
        destruct (lat_eqb q q') eqn:EL; cbn [negb]; [|intros HN; apply (none_method _ _ _ HN)].
        apply lat_eqb_spec in EL; [|apply G|apply G']. apply Reqb_spec in EP. apply ops_eqb_spec in EY. now subst.
      + intros G G' HN. apply (diff_env_w src src' s0 s1 (proj2 Hh) Hk G G' HN).
  Qed.

  Theorem world_calc_ok : calc_ok K opp wpairs (watoms objs) wenv ww.
  Proof.
    pose proof HQ as [q1 q2 q3 q4 q5 q6].
    split; cbn [zero add Evaluator.nsites Evaluator.gen Evaluator.site1 hasmask haspairmask mask contrib custom sdif restash finish pair_calc]; auto.
    - intros c s i sel Hi _ Hs. now apply gen_ok_w.
    - intros c s i j b H. eapply site1_ok_w; eauto.
    - intros c s z i j a b. apply weight_ok_w.
    - intros [x Hx] [y Hy]. cbn [wadp watoms proj1_sig]. apply (diff_is_exact catom_eqb catom_ltb catom_eqb_spec catom_total); [now apply (p_heap _ HO)|apply HSort|apply HSort].
    - intros [x Hx] [y Hy]. unfold wenv. cbn [wadp watoms proj1_sig]. apply diff_env_w; [now apply (p_heap _ HO)|now apply (p_kind _ HO)|now apply (p_good _ HO)|now apply (p_good _ HO)].
  Qed.

  Lemma index_free_w : mask_by_type Q -> index_free K ww.
  Proof. intros H c e z i a j b i' j' HP. unfold ww. now rewrite (H c i a j b i' j' HP). Qed.
  Lemma doubling_w : reversible Q -> doubling K.
  Proof. intros [H _ _] c s b. cbn [contrib add pair_calc]. apply H. Qed.
End World.
