(** Proofs: the calculators on structures meet the assumptions of the theorems about evaluators. *)
From Coq Require Import String.
From Verif Require Import RBase R3 Trig TrigProofs Sphere SphereSpec SphereProofs SphereGeom SphereMain Lattice LatticeSpec LatticeProofs Crystal CrystalSpec CrystalCell
  StructDiff StructDiffSpec StructDiffProofs Evaluator EvaluatorSpec EvaluatorProofs EvaluatorRun EvaluatorMore BondGen BondGenSpec BondGenProofs BondGenMain World WorldSpec WorldAtoms.
Import ListNotations.
Open Scope R_scope.
Notation length := List.length.

(** ** what generators read, in terms of surroundings and atoms *)
Definition gview (e : envt) (l : list catom) : gclass * stru :=
  match e with
  | Isolated => (GAtomic, plain l)
  | Lattice_only L => (GPeriodic, {| spos := map c_xyz l; suij := map c_uij l; slat := L; ssym := [] |})
  | Symmetric L p ops => (GCrystal, stru_of (mkCr l L ops p [] false))
  end.
Fixpoint create_view (x : adp) : createBondGenerator x = gview (env_of x) (atoms_of x).
Proof. destruct x as [n b]. destruct b; cbn [createBondGenerator env_of atoms_of gview]; auto. Qed.
Lemma view_ok e l : good_env e -> stru_ok (fst (gview e l)) (snd (gview e l)).
Proof. destruct e as [|L|L p ops]; cbn [gview fst snd good_env]; intros H; [exact I|exact H|]. apply crystal_stru_ok; apply H. Qed.
Lemma view_sites e l : length (spos (snd (gview e l))) = length l.
Proof. destruct e; cbn [gview fst snd plain spos stru_of updateSymmetryPositions x_atoms]; now rewrite map_length. Qed.
Lemma sphere_points_ok L : sphere_of L (sphere_points L).
Proof. intros a b. destruct (points_all a b (latpar_of L)) as [f H]. exists f. now apply H. Qed.

(** ** the loop *)
Lemma settings4 cls M lo hi i sel : (i < length (spos M))%nat -> (forall j, In j sel -> (j < length (spos M))%nat) ->
  exists g, forall f, grun cls M (sphere_points (slat M)) f (gen0 M) [SetRmin lo; SetRmax hi; SelAnchor i; SelSites sel] = BDone g.
Proof.
  intros Hi Hs. eexists. intros f. cbn -[Nat.ltb forallb]. unfold nsites. replace (i <? length (spos M))%nat with true by (symmetry; now apply Nat.ltb_lt).
  cbn -[Nat.ltb forallb]. unfold nsites. replace (forallb _ sel) with true; [reflexivity|]. symmetry. apply forallb_forall. intros j Hj. now apply Nat.ltb_lt, Hs.
Qed.
Definition exact_images cls M lo hi i sel (v : list image) : Prop :=
  NoDup v /\ forall y, In y v <-> image_ok cls M sel y /\ in_range lo hi (image_distance cls M i sel y).
Definition shown_ cls M lo hi i sel : list bond :=
  let sph := sphere_points (slat M) in
  match grun cls M sph 0 (gen0 M) [SetRmin lo; SetRmax hi; SelAnchor i; SelSites sel] with
  | BDone g => match bonds cls M sph (Datatypes.S (length (all_images cls M sph (sphered cls M g)))) g with Some l => l | None => [] end
  | _ => []
  end.
Lemma bonds_fuel cls M sph ops g : stru_ok cls M -> forall f, grun cls M sph f (gen0 M) ops = BDone g ->
  forall f1, (length (all_images cls M sph (sphered cls M g)) < f1)%nat ->
  bonds cls M sph f1 g = Some (map (bnd cls M (sphered cls M g)) (filter (valid_i cls M (sphered cls M g)) (all_images cls M sph (sphered cls M g)))).
Proof.
  intros OK f H f1 H1. pose proof (grun_any cls M sph (ok_weak _ _ OK) _ _ _ _ _ (gen0_inv cls M sph) H) as I.
  exact (bonds_spec cls M sph (ok_weak _ _ OK) g _ I f1 H1).
Qed.
Lemma shown_spec cls M lo hi i sel : stru_ok cls M -> (i < length (spos M))%nat -> (forall j, In j sel -> (j < length (spos M))%nat) ->
  exists v, exact_images cls M lo hi i sel v /\ shown_ cls M lo hi i sel = map (bond_at cls M i sel) v.
Proof.
  intros OK Hi Hs. set (sph := sphere_points (slat M)). destruct (settings4 cls M lo hi i sel Hi Hs) as [g Hg].
  destruct (bonds_main cls M sph OK (sphere_points_ok _) 0 g [SetRmin lo; SetRmax hi; SelAnchor i; SelSites sel] i (Hg O) eq_refl) as (v & ND & HV & f0 & HB).
  exists v. split; [split; [exact ND|exact HV]|]. unfold shown_. fold sph. unfold sph. rewrite Hg. fold sph.
  pose proof (bonds_fuel cls M sph _ g OK _ (Hg O)) as HF. set (n := length (all_images cls M sph (sphered cls M g))) in *.
  rewrite (HF (Datatypes.S n)) by lia. specialize (HB (f0 + Datatypes.S n)%nat ltac:(lia)). rewrite (HF (f0 + Datatypes.S n)%nat) in HB by lia. now injection HB.
Qed.
(** earlier calls make no difference *)
Lemma shown_history cls M lo hi i sel f g ops : stru_ok cls M -> (i < length (spos M))%nat -> (forall j, In j sel -> (j < length (spos M))%nat) ->
  grun cls M (sphere_points (slat M)) f (gen0 M) ops = BDone g ->
  settings_of M ops = {| s_anchor := Some i; s_sites := sel; s_rmin := lo; s_rmax := hi |} ->
  exists f0, forall f1, (f0 <= f1)%nat -> bonds cls M (sphere_points (slat M)) f1 g = Some (shown_ cls M lo hi i sel).
Proof.
  intros OK Hi Hs H HX. set (sph := sphere_points (slat M)) in *. destruct (settings4 cls M lo hi i sel Hi Hs) as [g' Hg]. fold sph in Hg.
  unfold shown_. fold sph. rewrite Hg.
  pose proof (grun_any cls M sph (ok_weak _ _ OK) _ _ _ _ _ (gen0_inv cls M sph) H) as I. fold (settings_of M ops) in I. rewrite HX in I.
  pose proof (grun_any cls M sph (ok_weak _ _ OK) _ _ _ _ _ (gen0_inv cls M sph) (Hg O)) as I'. cbn [fold_left set_step s_sites s_rmin s_rmax settings0] in I'.
  pose proof (bonds_fuel cls M sph _ g OK _ H) as HF. pose proof (bonds_fuel cls M sph _ g' OK _ (Hg O)) as HF'.
  assert (C : forall h, inv cls M sph h {| s_anchor := Some i; s_sites := sel; s_rmin := lo; s_rmax := hi |} ->
    (cls <> GAtomic -> msphere (sphered cls M h) = Some (lo - ucMaxDiagonalLength (slat M), hi + ucMaxDiagonalLength (slat M))) /\ BondGen.sel (sphered cls M h) = sel /\
    BondGen.rmin (sphered cls M h) = lo /\ BondGen.rmax (sphered cls M h) = hi /\ BondGen.anchor (sphered cls M h) = i /\ BondGen.r0 (sphered cls M h) = home cls M i 0).
  { intros h Ih. destruct (sphered_cfg cls M sph h _ Ih) as [HM HE]. injection HE as E1 E2 E3 E4 E5.
    pose proof (i_anchor _ _ _ _ _ Ih) as HA. cbn [s_anchor] in HA. destruct HA as (Ha & A1 & A2).
    pose proof (i_sel _ _ _ _ _ Ih). pose proof (i_rmin _ _ _ _ _ Ih). pose proof (i_rmax _ _ _ _ _ Ih). cbn [s_sites s_rmin s_rmax] in *.
    repeat split; try congruence. intros Hc. rewrite (HM Hc). congruence. }
  destruct (C _ I) as (c1 & c2 & c3 & c4 & c5 & c6). destruct (C _ I') as (d1 & d2 & d3 & d4 & d5 & d6). clear C.
  assert (EA : all_images cls M sph (sphered cls M g) = all_images cls M sph (sphered cls M g')).
  { unfold all_images, Ts. clear HF HF' H Hg I I'. destruct cls; rewrite c2, d2; auto; rewrite c1, d1 by discriminate; auto.
    }
  exists (Datatypes.S (length (all_images cls M sph (sphered cls M g)))). intros f1 Hf1. rewrite HF, HF' by lia. f_equal. rewrite EA.
  rewrite (filter_ext _ (valid_i cls M (sphered cls M g'))).
  - apply map_ext. intros [[k s] T]. unfold bnd. congruence.
  - intros [[k s] T]. unfold valid_i. congruence.
Qed.
