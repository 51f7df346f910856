(** Proofs for C92. *)
From Coq Require Import String Sorting.Sorted.
From Verif Require Import RBase R3 Trig Lattice Crystal StructDiff StructDiffSpec StructDiffProofs Evaluator EvaluatorSpec BondGen BondGenSpec BondGenMain OrbitWorld World WorldSpec WorldAtoms WorldProofs WorldMain
  BondCalc BondCalcSpec BondCalcSim BondCalcMain BondWorld BondWorldSpec.
Import ListNotations.
Open Scope R_scope.
Notation length := List.length.

Section World.
  Context (objs : adp -> Prop) (sortf : list (catom * Z) -> list (catom * Z)) (HO : program objs) (HSort : sorts sortf) (outer : nat -> nat -> bool).
  Notation Q := (bond_quantity outer).
  Notation W := (pair_calc objs sortf Q).
  Notation prs := (wpairs objs Q).
  Definition row_of (i j : nat) (p : bond) : bentry :=
    {| e_dist := b_distance p; e_s0 := i; e_s1 := j; e_d0 := vx (b_r01 p); e_d1 := vy (b_r01 p); e_d2 := vz (b_r01 p) |}.
  Definition we (c : bsettings) (e : envt) (i : nat) (a : catom) (j : nat) (b : catom) : list bentry :=
    if q_mask Q c i a j b then map (row_of i j) (filter (passes (bond_cones c)) (shown (adapter_of e [a; b]) (b_rmin c) (b_rmax c) 0 [1%nat])) else [].
  Lemma filter_map {A B} (f : B -> bool) (g : A -> B) l : filter f (map g l) = map g (filter (fun x => f (g x)) l).
  Proof. induction l; cbn; auto. rewrite IHl. now destruct (f (g a)). Qed.
  Lemma filter_perm {A} (f : A -> bool) l m : Permutation l m -> Permutation (filter f l) (filter f m).
  Proof.
    induction 1; cbn; auto.
    - destruct (f x); auto.
    - destruct (f x), (f y); auto. apply perm_swap.
    - now transitivity (filter f l').
  Qed.
  Lemma pair_ok_w c s i j a b : nth_error (watoms objs s) i = Some a -> nth_error (watoms objs s) j = Some b ->
    Permutation (pair_entries W bond_cones prs c s i j) (we c (wenv objs s) i a j b).
  Proof using HO.
    intros Ha Hb. unfold pair_entries, we. change line_of with entryFrom. cbn [mask pair_calc]. rewrite (nth_some _ _ _ _ Ha), (nth_some _ _ _ _ Hb). destruct (q_mask Q c i a j b); auto.
    unfold wpairs. rewrite wshown. cbn [q_rmin q_rmax bond_quantity].
    destruct (pair_shown (wenv objs s) i j a b (watoms objs s) (b_rmin c) (b_rmax c) (wgood objs HO s) Ha Hb) as (v & v' & P & -> & -> & HI).
    rewrite !filter_map, !map_map.
    assert (HB : forall y, In y v -> _) by (intros y Hy; exact (pair_bond (wenv objs s) (watoms objs s) [a; b] i j 0 1 a b Ha eq_refl Hb eq_refl y (HI y Hy))). cbv zeta in HB.
    rewrite <- (filter_perm _ _ _ P).
    set (f := fun x => passes _ (bond_at _ _ 0 _ x)).
    enough (E : map (fun x => entryFrom (bond_at (fst (gview (wenv objs s) (watoms objs s))) (snd (gview (wenv objs s) (watoms objs s))) i [j] x))
      (filter (fun x => passes (bond_cones c) (bond_at (fst (gview (wenv objs s) (watoms objs s))) (snd (gview (wenv objs s) (watoms objs s))) i [j] x)) v) =
      map (fun x => row_of i j (bond_at (fst (gview (wenv objs s) [a; b])) (snd (gview (wenv objs s) [a; b])) 0 [1%nat] x)) (filter f v)) by (rewrite E; reflexivity).
    clear P HI. subst f. induction v as [|y v IH]; auto. cbn [filter]. destruct (HB y (or_introl eq_refl)) as (E1 & E2 & E3 & E4 & E5).
    specialize (IH (fun y Hy => HB y (or_intror Hy))).
    set (p := bond_at (fst (gview (wenv objs s) (watoms objs s))) (snd (gview (wenv objs s) (watoms objs s))) i [j] y) in *.
    set (q := bond_at (fst (gview (wenv objs s) [a; b])) (snd (gview (wenv objs s) [a; b])) 0 [1%nat] y) in *.
    assert (EP : passes (bond_cones c) p = passes (bond_cones c) q) by (unfold passes; now rewrite E1, E2). rewrite EP.
    destruct (passes (bond_cones c) q); [|exact IH]. cbn [map]. rewrite IH. f_equal. fold p q. unfold entryFrom, row_of. now rewrite E1, E2, E4, E5.
  Qed.
  Lemma bond_world_ok : world_ok W bond_cones prs (watoms objs) (wenv objs) we.
  Proof using HO HSort.
    split; cbn [Evaluator.nsites Evaluator.gen Evaluator.site1 hasmask mask custom sdif pair_calc]; auto.
    - intros c s i sel Hi _ Hs. now apply (gen_ok_w objs HO Q).
    - intros c s i j b H. eapply (site1_ok_w objs HO Q); eauto.
    - intros c s i j E. cbn [q_hasmask q_mask bond_quantity] in *. now rewrite E.
    - intros c s i j a b. apply pair_ok_w.
    - intros [x Hx] [y Hy]. cbn [wadp watoms proj1_sig]. apply (diff_is_exact catom_eqb catom_ltb catom_eqb_spec catom_total); [now apply (p_heap _ HO)|apply HSort|apply HSort].
    - intros [x Hx] [y Hy]. unfold wenv. cbn [wadp watoms proj1_sig]. apply diff_env_w; [now apply (p_heap _ HO)|now apply (p_kind _ HO)|now apply (p_good _ HO)|now apply (p_good _ HO)].
  Qed.

  (** the images that pass *)
  Lemma vector_bond x i j y : image_ok (fst (createBondGenerator x)) (snd (createBondGenerator x)) [j] y ->
    let p := bond_at (fst (createBondGenerator x)) (snd (createBondGenerator x)) i [j] y in
    b_r01 p = bond_vector x (i, j, y) /\ b_distance p = vnorm (bond_vector x (i, j, y)) /\ b_site0 p = i /\ b_site1 p = j.
  Proof.
    unfold bond_vector. destruct (createBondGenerator x) as [cls M]. cbn [fst snd]. destruct y as [[k s] T]. intros [HK _]. cbn in HK. assert (k = O) as -> by lia. cbv zeta.
    repeat split.
  Qed.
  Definition shows (c : bsettings) (s : wstru objs) (i j : nat) (v : list image) : Prop :=
    NoDup v /\ (forall y, In y v <-> listed c (wadp objs s) (i, j, y)) /\ pair_entries W bond_cones prs c s i j = map (fun y => bond_row (wadp objs s) (i, j, y)) v.
  Lemma pair_listed c s i j : (i < countSites (wadp objs s))%nat -> (j < countSites (wadp objs s))%nat -> exists v, shows c s i j v.
  Proof using HO.
    intros Hi Hj. destruct (wpairs_spec objs HO Q c s i j Hi Hj) as (v & [ND HV] & E). cbn [q_rmin q_rmax bond_quantity] in HV.
    unfold wenv, watoms in HV, E. set (x := wadp objs s) in *. rewrite <- (create_view x) in HV, E.
    set (f := fun y => passes (bond_cones c) (bond_at (fst (createBondGenerator x)) (snd (createBondGenerator x)) i [j] y)).
    exists (if q_mask Q c i (watom objs s i) j (watom objs s j) then filter f v else []). split; [|split].
    - destruct (q_mask _ _ _ _ _ _); [|constructor]. now apply NoDup_filter.
    - intros y. assert (M : q_mask Q c i (watom objs s i) j (watom objs s j) = true <-> (b_masked c = true -> b_mask c i (atom_at x i) j (atom_at x j) = true)).
      { cbn [q_mask bond_quantity]. change (watom objs s) with (atom_at x). destruct (b_masked c); cbn [negb orb]; intuition. }
      assert (R : In y (filter f v) <-> image_ok (fst (createBondGenerator x)) (snd (createBondGenerator x)) [j] y /\
        (b_rmin c <= vnorm (bond_vector x (i, j, y)) <= b_rmax c /\ / 67108864 < vnorm (bond_vector x (i, j, y))) /\ accepted (active (b_cones c)) (bond_vector x (i, j, y))).
      { assert (G : image_ok (fst (createBondGenerator x)) (snd (createBondGenerator x)) [j] y ->
          in_range (b_rmin c) (b_rmax c) (image_distance (fst (createBondGenerator x)) (snd (createBondGenerator x)) i [j] y) = (b_rmin c <= vnorm (bond_vector x (i, j, y)) <= b_rmax c /\ / 67108864 < vnorm (bond_vector x (i, j, y))) /\
          (in_range (b_rmin c) (b_rmax c) (image_distance (fst (createBondGenerator x)) (snd (createBondGenerator x)) i [j] y) -> (f y = true <-> accepted (active (b_cones c)) (bond_vector x (i, j, y))))).
        { intros IK. destruct (vector_bond x i j y IK) as (E1 & E2 & _ & _).
          assert (D : image_distance (fst (createBondGenerator x)) (snd (createBondGenerator x)) i [j] y = b_distance (bond_at (fst (createBondGenerator x)) (snd (createBondGenerator x)) i [j] y)) by (destruct y as [[k t] T]; reflexivity).
          rewrite D. split; [now rewrite E2|]. intros [_ HD]. unfold f, bond_cones. rewrite (cone_filters (b_cones c)).
          - now rewrite E1. - apply bond_norm. - lra. }
        rewrite filter_In, HV. split.
        - intros [[IK IR] F]. destruct (G IK) as [G1 G2]. apply (G2 IR) in F. rewrite G1 in IR. auto.
        - intros (IK & IR & F). destruct (G IK) as [G1 G2]. rewrite <- G1 in IR. split; [split; assumption|]. now apply G2. }
      unfold listed. change (length (atoms_of x)) with (countSites x). destruct (q_mask Q c i (watom objs s i) j (watom objs s j)) eqn:EM.
      + rewrite R. pose proof (proj1 M eq_refl) as HM. tauto.
      + split; [intros []|]. intros (_ & _ & _ & _ & _ & HM & _). apply M in HM. discriminate.
    - unfold pair_entries. change line_of with entryFrom. cbn [mask pair_calc]. destruct (q_mask _ _ _ _ _ _) eqn:EM; auto. rewrite E, filter_map, map_map. fold f. apply map_ext_in. intros y Hy. apply filter_In in Hy as [Hy _].
      apply HV in Hy as [IK _]. destruct (vector_bond x i j y IK) as (E1 & E2 & E3 & E4). unfold entryFrom, bond_row. now rewrite E1, E2, E3, E4.
  Qed.
  (** tables of lists *)
  Lemma choose {A} (n : nat) (R : nat -> A -> Prop) (d : A) : (forall i, (i < n)%nat -> exists a, R i a) -> exists f : nat -> A, forall i, (i < n)%nat -> R i (f i).
  Proof.
    induction n as [|n IH]; intros H; [exists (fun _ => d); lia|].
    destruct IH as [f F]; [intros; apply H; lia|]. destruct (H n) as [a Ha]; [lia|].
    exists (fun i => if (i =? n)%nat then a else f i). intros i Hi. destruct (Nat.eqb_spec i n) as [->|N]; auto. apply F. lia.
  Qed.
  Lemma all_listed c s : exists bs, NoDup bs /\ (forall b, In b bs <-> listed c (wadp objs s) b) /\ all_bonds W bond_cones prs c s = map (bond_row (wadp objs s)) bs.
  Proof using HO.
    set (n := countSites (wadp objs s)).
    assert (EX : exists F : nat -> nat -> list image, forall i, (i < n)%nat -> forall j, (j < n)%nat -> shows c s i j (F i j)).
    { apply (choose n (fun i G => forall j, (j < n)%nat -> shows c s i j (G j)) (fun _ => [])). intros i Hi.
      apply (choose n (fun j v => shows c s i j v) []). intros j Hj. now apply pair_listed. }
    destruct EX as [F HF]. exists (flat_map (fun i => flat_map (fun j => map (fun y => (i, j, y)) (F i j)) (seq 0 n)) (seq 0 n)). split; [|split].
    - assert (ND : forall {X Y} (tag : Y -> X) (g : X -> list Y) l, NoDup l -> (forall a, In a l -> NoDup (g a)) -> (forall a y, In a l -> In y (g a) -> tag y = a) -> NoDup (flat_map g l)).
      { intros X Y tag g l. induction l as [|a l IH]; intros N HG HT; [constructor|]. inversion N; subst. cbn. apply NoDup_app_intro.
        - apply HG. now left.
        - apply IH; auto; intros; [apply HG|apply HT]; auto; now right.
        - intros y H1' H2'. apply in_flat_map in H2' as (b & Hb & Hy). apply (HT a y (or_introl eq_refl)) in H1'. apply (HT b y (or_intror Hb)) in Hy. subst. contradiction. }
      apply (ND _ _ (fun b : bond_to => fst (fst b))); [apply seq_NoDup| |].
      + intros i Hi. apply in_seq in Hi. apply (ND _ _ (fun b : bond_to => snd (fst b))); [apply seq_NoDup| |].
        * intros j Hj. apply in_seq in Hj. apply FinFun.Injective_map_NoDup; [intros a b [=]; assumption|]. apply (HF i ltac:(lia) j ltac:(lia)).
        * intros j b _ Hb. apply in_map_iff in Hb as (y & <- & _). reflexivity.
      + intros i b _ Hb. apply in_flat_map in Hb as (j & _ & Hb). apply in_map_iff in Hb as (y & <- & _). reflexivity.
    - intros [[i j] y]. rewrite in_flat_map. split.
      + intros (i' & Hi & H). apply in_flat_map in H as (j' & Hj & H). apply in_map_iff in H as (y' & [= -> -> ->] & Hy). apply in_seq in Hi, Hj.
        apply (HF i ltac:(lia) j ltac:(lia)). exact Hy.
      + intros H. pose proof H as H0. destruct H0 as (Hi & Hj & _). exists i. split; [apply in_seq; unfold n; cbn; unfold countSites; lia|]. apply in_flat_map. exists j. split; [apply in_seq; unfold n; cbn; unfold countSites; lia|].
        apply in_map. apply (HF i Hi j Hj). exact H.
    - unfold all_bonds. cbn [Evaluator.nsites pair_calc]. fold n.
      assert (MF : forall {X Y Z} (h : Y -> Z) (g : X -> list Y) l, map h (flat_map g l) = flat_map (fun a => map h (g a)) l).
      { intros X Y Z h g l. induction l; cbn; auto. now rewrite map_app, IHl. }
      assert (FE : forall {X Y} (g h : X -> list Y) l, (forall a, In a l -> g a = h a) -> flat_map g l = flat_map h l).
      { intros X Y g h l. induction l; cbn; auto. intros H. rewrite H, IHl; auto. }
      rewrite MF. apply FE. intros i Hi. rewrite MF. apply FE. intros j Hj. apply in_seq in Hi, Hj. rewrite map_map. apply (HF i ltac:(lia) j ltac:(lia)).
  Qed.
  Lemma table_of c s l : in_order l -> Permutation l (all_bonds W bond_cones prs c s) -> bond_table c (wadp objs s) l.
  Proof using HO.
    intros HS P. split; [exact HS|]. destruct (all_listed c s) as (bs & N & HI & E). rewrite E in P. symmetry in P. apply Permutation_sym, Permutation_map_inv in P as (bs' & E' & P).
    exists bs'. split; [now apply (Permutation_NoDup P)|]. split; [|exact E']. intros b. rewrite <- HI. split; apply Permutation_in; [now symmetry|exact P].
  Qed.
End World.
