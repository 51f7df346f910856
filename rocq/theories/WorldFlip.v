(** Proofs: without symmetry operations the bonds of two atoms are the same from both ends, so half sums are full sums. *)
From Coq Require Import String.
From Verif Require Import RBase R3 Trig TrigProofs Sphere SphereSpec SphereProofs SphereGeom SphereMain Lattice LatticeSpec LatticeProofs Crystal CrystalSpec CrystalCell
  StructDiff StructDiffSpec StructDiffProofs Evaluator EvaluatorSpec EvaluatorProofs EvaluatorRun EvaluatorMore BondGen BondGenSpec BondGenProofs BondGenMain OverlapGen World WorldSpec WorldAtoms WorldProofs WorldMain.
Import ListNotations.
Open Scope R_scope.
Notation length := List.length.

Section Flip.
  Context (e : envt) (HE : ~ has_symmetry e) (l : list catom) (i j : nat) (a b : catom).
  Context (Ha : nth_error l i = Some a) (Hb : nth_error l j = Some b).
  Notation C := (fst (gview e l)). Notation M := (snd (gview e l)).
  Definition turn (y : image) : image := let '(k, s, T) := y in (k, s, neg3 T).
  Lemma turn_turn y : turn (turn y) = y.
  Proof. destruct y as [[k s] T]. cbn. now rewrite neg3_inv. Qed.
  Lemma turn_bond y : image_ok C M [j] y -> image_ok C M [i] (turn y) /\
    let p := bond_at C M i [j] y in let q := bond_at C M j [i] (turn y) in
    b_r01 q = vscale (-1) (b_r01 p) /\ b_distance q = b_distance p /\ b_u1 p = c_uij b /\ b_u1 q = c_uij a.
  Proof.
    destruct y as [[k s] T]. intros HI. destruct HI as [HK HI]. cbn in HK. assert (k = O) as -> by lia. cbv zeta. unfold image_ok, bond_at, turn. cbn [nth b_r01 b_distance b_u1].
    assert (D : vsub (image_pos C M i s (neg3 T)) (home C M j 0) = vscale (-1) (vsub (image_pos C M j s T) (home C M i 0))).
    { rewrite vsub_neg. unfold image_pos. destruct e as [|L|L p ops]; [| |exfalso; now apply HE]; cbn [gview fst snd] in *.
      - reflexivity.
      - rewrite translation_neg. apply add_cancel. }
    split; [|split; [exact D|split]].
    - split; [cbn; lia|]. destruct e as [|L|L p ops]; [| |exfalso; now apply HE]; cbn [gview fst snd] in *; auto. destruct HI as [-> ->]. auto.
    - unfold vdist. rewrite D, vsub_neg. fold (vdist (home C M i 0) (image_pos C M j s T)). apply vdist_sym.
    - unfold image_u. destruct e as [|L|L p ops]; [| |exfalso; now apply HE]; cbn [gview fst snd plain suij]; now rewrite (nth_map_some _ l i a), (nth_map_some _ l j b).
  Qed.
End Flip.
Lemma turn_perm e l i j a b lo hi v v' : ~ has_symmetry e -> nth_error l i = Some a -> nth_error l j = Some b ->
  exact_images (fst (gview e l)) (snd (gview e l)) lo hi i [j] v -> exact_images (fst (gview e l)) (snd (gview e l)) lo hi j [i] v' -> Permutation v' (map turn v).
Proof.
  intros HE Ha Hb [N H] [N' H']. apply NoDup_Permutation; auto.
  - apply FinFun.Injective_map_NoDup; auto. intros x y E. rewrite <- (turn_turn x), E. apply turn_turn.
  - assert (DD : forall p q y, image_distance (fst (gview e l)) (snd (gview e l)) p [q] y = b_distance (bond_at (fst (gview e l)) (snd (gview e l)) p [q] y)) by (intros p q [[k s] T]; reflexivity).
    intros y. rewrite H', in_map_iff. split.
    + intros [HI HR]. exists (turn y). split; [apply turn_turn|]. apply H.
      destruct (turn_bond e HE l j i b a Hb Ha y HI) as (I' & _ & D & _). split; [exact I'|]. rewrite DD in *. now rewrite D.
    + intros (x & <- & Hx). apply H in Hx as [HI HR]. destruct (turn_bond e HE l i j a b Ha Hb x HI) as (I' & _ & D & _). split; [exact I'|]. rewrite DD in *. now rewrite D.
Qed.

Section World.
  Context (objs : adp -> Prop) (sortf : list (catom * Z) -> list (catom * Z)) (HO : program objs) (HSort : sorts sortf).
  Context {cfg V : Type} (Q : quantity cfg V) (opp : V -> V) (HQ : quantity_ok Q opp) (HR : reversible Q).
  Notation K := (pair_calc objs sortf Q).
  Lemma ww_flip c e z i a j b : good_env e -> ~ has_symmetry e -> ww Q c e z i a j b = ww Q c e z j b i a.
  Proof.
    intros G NS. unfold ww. rewrite <- (qr_mask Q HR c i a j b). destruct (q_mask Q c i a j b); auto.
    assert (SH : forall p q r t, shown (adapter_of e [p; q]) (q_rmin Q c) (q_rmax Q c) r [t] = shown_ (fst (gview e [p; q])) (snd (gview e [p; q])) (q_rmin Q c) (q_rmax Q c) r [t]).
    { intros. now rewrite shown_view, adapter_env, adapter_atoms. }
    rewrite !SH.
    destruct (shown_spec (fst (gview e [a; b])) (snd (gview e [a; b])) (q_rmin Q c) (q_rmax Q c) 0 [1%nat] (view_ok e [a; b] G)) as (v & HV & ->).
    { rewrite view_sites. cbn. lia. } { intros ? [<-|[]]. rewrite view_sites. cbn. lia. }
    destruct (shown_spec (fst (gview e [b; a])) (snd (gview e [b; a])) (q_rmin Q c) (q_rmax Q c) 0 [1%nat] (view_ok e [b; a] G)) as (v1 & HV1 & ->).
    { rewrite view_sites. cbn. lia. } { intros ? [<-|[]]. rewrite view_sites. cbn. lia. }
    destruct (shown_spec (fst (gview e [a; b])) (snd (gview e [a; b])) (q_rmin Q c) (q_rmax Q c) 1 [0%nat] (view_ok e [a; b] G)) as (v2 & HV2 & _).
    { rewrite view_sites. cbn. lia. } { intros ? [<-|[]]. rewrite view_sites. cbn. lia. }
    pose proof (pair_images e [a; b] [b; a] 1 0 0 1 b a _ _ v2 v1 eq_refl eq_refl eq_refl eq_refl HV2 HV1) as P1.
    pose proof (turn_perm e [a; b] 0 1 a b _ _ v v2 NS eq_refl eq_refl HV HV2) as P2.
    rewrite !map_map. rewrite <- (qsum_perm Q opp HQ _ _ (Permutation_map _ P1)), (qsum_perm Q opp HQ _ _ (Permutation_map _ P2)), map_map.
    unfold qsum. f_equal. apply map_ext_in. intros y Hy. apply HV in Hy as [HI _].
    destruct (turn_bond e NS [a; b] 0 1 a b eq_refl eq_refl y HI) as (I' & D1 & D2 & D3 & D4).
    destruct (pair_bond e [a; b] [b; a] 1 0 0 1 b a eq_refl eq_refl eq_refl eq_refl _ I') as (E1 & E2 & E3 & _ & _).
    rewrite <- E1, <- E2, <- E3, D1, D2, D3, D4. apply (qr_flip Q HR).
  Qed.
  (** the same, made symmetric where it need not be *)
  Definition ww2 (c : cfg) (e : envt) (z : Z) (i : nat) (a : catom) (j : nat) (b : catom) : V :=
    if catom_ltb b a then ww Q c e z j b i a else ww Q c e z i a j b.
  Lemma two_way_w : two_way ww2.
  Proof.
    intros c e z i a j b. unfold ww2. pose proof catom_total as [HI HT HC].
    destruct (catom_ltb b a) eqn:E1, (catom_ltb a b) eqn:E2; auto.
    - pose proof (HT _ _ _ E1 E2) as H. now rewrite HI in H.
    - assert (a = b) as -> by (apply HC; assumption). unfold ww. now rewrite (qr_mask Q HR c i b j b).
  Qed.
  Lemma index_free_w2 : mask_by_type Q -> index_free K ww2.
  Proof.
    intros H c e z i a j b i' j' HP. unfold ww2. pose proof (index_free_w objs sortf Q H) as F. destruct (catom_ltb b a); apply F; exact HP.
  Qed.
  Theorem world_calc_ok2 : (forall x, objs x -> ~ has_symmetry (env_of x)) -> calc_ok K opp (wpairs objs Q) (watoms objs) (wenv objs) ww2.
  Proof.
    intros NS. pose proof (world_calc_ok objs sortf HO HSort Q opp HQ) as OK.
    destruct OK as [o1 o2 o3 o4 o5 o6 o7 o8 o9 o10 o11 o12 o13 o14 o15]. split; auto.
    intros c s z i j a b Ha Hb. rewrite (o10 c s z i j a b Ha Hb). unfold ww2. destruct (catom_ltb b a); auto.
    apply ww_flip; [apply (wgood objs HO)|]. destruct s as [x Hx]. now apply NS.
  Qed.
End World.
