(** A crystal of a cation on a fourfold axis and an anion in a general position: one cation and four anions in the cell. *)
From Coq Require Import String.
From Verif Require Import RBase R3 Trig Sums Lattice LatticeSpec LatticeProofs Crystal CrystalSpec CrystalProofs CrystalExample StructDiff StructDiffSpec Evaluator EvaluatorSpec BondGen BondGenSpec
  World WorldSpec WorldProofs WorldMain WorldTotal OrbitSpec OrbitGroup OrbitSum OrbitWorld OrbitExample Visited VisitedSpec VisitedProofs VisitedMain Shares SiteSums Bvs BvsSpec BvsTable BvsMain BvsExample BvsWorld BvsWorldSpec BvsWorldProofs.
Import ListNotations.
Open Scope R_scope.
Notation length := List.length.

Definition cation : catom := mkCA vzero (M3 0 0 0 0 0 0 0 0 0) "Na+"%string 1 false.
Definition anion : catom := mkCA (V3 (1 / 4) 0 0) (M3 0 0 0 0 0 0 0 0 0) "Cl-"%string 1 false.
Definition salt : adp := Adp 0 (StructDiff.Crystal lattice0 prec0 quad [cation; anion]).
Lemma cation_quarter : quarter (c_xyz cation). Proof. exact nickel_quarter. Qed.
Lemma anion_quarter : quarter (c_xyz anion). Proof. exact iron_quarter. Qed.
Lemma salt_good : good_env (env_of salt).
Proof. cbn [env_of good_env salt]. split; [now left|split; [apply fine0; unfold prec0; lra|discriminate]]. Qed.
Lemma salt_orderly : orderly false salt.
Proof.
  unfold orderly. cbn [env_of atoms_of salt]. split; [exact quad_group|]. intros a [<-|[<-|[]]]; (split; [|discriminate]); apply quarter_exact; [apply cation_quarter|apply anion_quarter].
Qed.
Lemma salt_ordered : ordered_pairs (ex_c 0) salt.
Proof.
  intros i j Hi Hj. cbn in Hi, Hj. destruct i as [|[|i]], j as [|[|j]]; try lia; [now right|left|left|now right]; discriminate.
Qed.
Lemma salt_enum : enumerates (ex_c 0) (bvs_view salt) ex_ord.
Proof.
  intros e. split.
  - intros [<-|[<-|[]]]; [exists 0%nat|exists 1%nat]; (split; [cbn; lia|reflexivity]).
  - intros (i & Hi & ->). cbn in Hi. destruct i as [|[|i]]; [now left|right; now left|lia].
Qed.
Notation fp := (fpos lattice0 prec0 quad).
Lemma salt_orbit a : quarter (c_xyz a) -> orbit quad (c_xyz a) (fp a).
Proof. intros H. rewrite <- (frac0 (c_xyz a)) at 1. exact (crystal_orbit lattice0 prec0 quad salt_good a (quarter_exact a H)). Qed.
Lemma cation_image o : In o quad -> op_image o vzero = vzero.
Proof. intros H. ops4 H; calc; f_equal; ring. Qed.
Lemma cation_one : site_mult salt 0 = 1%nat.
Proof.
  unfold site_mult. change (multiplicity (Symmetric lattice0 prec0 quad) cation = 1%nat). rewrite (mult_fpos lattice0 prec0 quad cation).
  pose proof (first_pos lattice0 prec0 quad salt_good cation) as H0. destruct (salt_orbit cation cation_quarter) as (O1 & _ & O3). change (c_xyz cation) with vzero in *.
  destruct (fp cation) as [|p [|q r]] eqn:E; [cbn in H0; lia|reflexivity|]. exfalso.
  destruct (O1 p (or_introl eq_refl)) as (o & Ho & S1). destruct (O1 q (or_intror (or_introl eq_refl))) as (o' & Ho' & S2). rewrite cation_image in S1, S2 by assumption.
  pose proof (O3 0%nat 1%nat p q eq_refl eq_refl (same_trans _ _ _ S1 (same_sym _ _ S2))). discriminate.
Qed.
Lemma anion_more : (2 <= site_mult salt 1)%nat.
Proof.
  unfold site_mult. change (2 <= multiplicity (Symmetric lattice0 prec0 quad) anion)%nat. rewrite (mult_fpos lattice0 prec0 quad anion).
  pose proof (first_pos lattice0 prec0 quad salt_good anion) as H0. destruct (salt_orbit anion anion_quarter) as (_ & O2 & _). change (c_xyz anion) with (V3 (1 / 4) 0 0) in *.
  destruct (fp anion) as [|p [|q r]] eqn:E; [cbn in H0; lia| |cbn [length]; lia]. exfalso.
  destruct (O2 (mkOp mid vzero)) as (p1 & [<-|[]] & S1); [now left|]. destruct (O2 (mkOp r1 vzero)) as (p2 & [<-|[]] & S2); [right; now left|].
  pose proof (same_trans _ _ _ (same_sym _ _ S1) S2) as (a & b & c & S3). calc. unfold vadd, iv in S3. cbn [vx vy vz] in S3. injection S3 as X _ _.
  assert (X' : 1 / 4 = IZR a) by lra. apply (half_int a (1 / 4)); auto.
Qed.
Lemma salt_image lo hi P : lo <= 1 / 4 <= hi -> neighbours_in lo hi salt P ->
  exists y, In y (P 0%nat 1%nat) /\ image_distance (fst (createBondGenerator salt)) (snd (createBondGenerator salt)) 0 [1%nat] y = 1 / 4.
Proof.
  intros HL HN.
  unfold neighbours_in in HN. rewrite create_view in HN |- *. change (env_of salt) with (Symmetric lattice0 prec0 quad : envt) in HN |- *. change (atoms_of salt) with [cation; anion] in HN |- *.
  destruct (gview (Symmetric lattice0 prec0 quad) [cation; anion]) as [cls M] eqn:EG.
  pose proof (first_pos lattice0 prec0 quad salt_good cation) as H0.
  destruct (salt_orbit cation cation_quarter) as (O1 & _ & _). destruct (salt_orbit anion anion_quarter) as (_ & O2 & _).
  assert (HQ : same_site (OrbitSum.pos (fp cation) 0) vzero).
  { destruct (O1 (OrbitSum.pos (fp cation) 0)) as (o & Ho & S1); [now apply nth_In|]. change (c_xyz cation) with vzero in S1. now rewrite cation_image in S1. }
  destruct (O2 (mkOp mid vzero) (or_introl eq_refl)) as (p & Hp & S2). apply In_nth_error in Hp as [s Hs].
  assert (Ls : (s < length (fp anion))%nat) by (apply nth_error_Some; congruence). assert (Es : OrbitSum.pos (fp anion) s = p) by (now apply nth_error_nth).
  destruct HQ as (a & b & c & EQ). destruct S2 as (a' & b' & c' & EP). change (c_xyz anion) with (V3 (1 / 4) 0 0) in EP.
  set (T := (a - a', b - b', c - c')%Z). exists (O, s, T).
  pose proof (bond_pos lattice0 prec0 quad salt_good [cation; anion] 0 1 cation anion s T eq_refl eq_refl Ls) as [E1 _]. rewrite EG in E1. cbn [fst snd] in E1.
  assert (ES : step3 (fp anion) (OrbitSum.pos (fp cation) 0) (s, T) = V3 (1 / 4) 0 0).
  { unfold step3. cbn [fst snd]. rewrite Es, EP, EQ. unfold T, ivec3, iv, vadd, vsub, op_image, mv, mid, vzero, vadd. cbn [vx vy vz op_R op_t x00 x01 x02 x10 x11 x12 x20 x21 x22]. rewrite !minus_IZR. f_equal; ring. }
  rewrite ES, cart0 in E1.
  assert (ED : image_distance cls M 0 [1%nat] (O, s, T) = 1 / 4).
  { transitivity (vnorm (BondGen.b_r01 (bond_at cls M 0 [1%nat] (O, s, T)))); [rewrite <- bond_norm; reflexivity|]. rewrite E1. unfold vnorm, vdot. cbn [vx vy vz]. rewrite Rmult_0_l, !Rplus_0_r. apply sqrt_square. lra. }
  split; [|exact ED]. apply (HN 0%nat 1%nat); [cbn; lia|cbn; lia|]. split.
  - split; [cbn; lia|]. cbn [nth]. pose proof (eqv lattice0 prec0 quad [cation; anion] 1 anion eq_refl) as EQV. rewrite EG in EQV. cbn [snd] in EQV. rewrite EQV.
    injection EG as <- <-. unfold fpos in Ls. rewrite map_length in *. exact Ls.
  - rewrite ED. unfold in_range. lra.
Qed.
Lemma salt_neighbour P : neighbours_in 0 (Bvs.getRmaxUsed (ex_c 0) ex_ord) salt P -> P 0%nat 1%nat <> [].
Proof.
  intros HN E. pose proof (ex_rmax 0). destruct (salt_image 0 (Bvs.getRmaxUsed (ex_c 0) ex_ord) P ltac:(lra) HN) as (y & Hy & _). rewrite E in Hy. destruct Hy.
Qed.
Lemma salt_bond d : BvsSpec.bond (ex_c 0) (bvs_view salt) 0 1 d = exp (1 - d).
Proof. exact (proj1 (ex_bond 0 [] [] 1 d)). Qed.
Lemma salt_valence P : neighbours_in 0 (Bvs.getRmaxUsed (ex_c 0) ex_ord) salt P -> 0 < valence_to (ex_c 0) salt P 0 1.
Proof.
  intros HN. pose proof (salt_neighbour P HN) as HP. unfold valence_to. destruct (createBondGenerator salt) as [cls M]. destruct (P 0%nat 1%nat) as [|y l]; [congruence|].
  rewrite sumf_cons, salt_bond. pose proof (exp_pos (1 - image_distance cls M 0 [1%nat] y)).
  assert (0 <= sumf (fun y => BvsSpec.bond (ex_c 0) (bvs_view salt) 0 1 (image_distance cls M 0 [1%nat] y)) l) by (apply sumf_nonneg; intros; rewrite salt_bond; left; apply exp_pos). lra.
Qed.
Lemma salt_self P : valence_to (ex_c 0) salt P 0 0 = 0.
Proof.
  unfold valence_to. destruct (createBondGenerator salt) as [cls M]. apply sumf_zero. intros y _. unfold BvsSpec.bond.
  replace (lookup _ _ _ _ _) with (@None bvparam) by reflexivity. reflexivity.
Qed.
(** the value at the cation is 5/8 or less of its bond valence sum *)
Lemma salt_bad P full outer N order : neighbours_in 0 (Bvs.getRmaxUsed (ex_c 0) ex_ord) salt P -> (1 <= N)%nat -> Permutation order (seq 0 N) ->
  nth 0 (bvs_merged outer (ex_c 0) ex_ord false (fun _ _ => true) full salt N order) 0 < valence_sum (ex_c 0) salt (fun _ _ => true) P 0.
Proof.
  intros HN H1 HO. rewrite (value_crystal salt salt_good (ex_c 0) ex_ord false (fun _ _ => true) ltac:(reflexivity) P HN outer salt_orderly salt_ordered ltac:(reflexivity) full N order 0 H1 HO ltac:(cbn; lia)).
  unfold weighted_sum, valence_sum. change (length (atoms_of salt)) with 2%nat. cbn [seq]. rewrite !sumf_cons, !sumf_nil, salt_self. cbn [Nat.leb]. change (c_occ (atom_at salt 0)) with 1. change (c_occ (atom_at salt 1)) with 1.
  change (sgn (valence (ex_c 0) (bvs_view salt) 0)) with 1. rewrite cation_one. change (INR 1) with 1. pose proof (salt_valence P HN) as HV. pose proof (le_INR _ _ anion_more) as HM. change (INR 2) with (1 + 1) in HM.
  set (m := INR (site_mult salt 1)) in *. assert (HI : 0 < / m <= / 2) by (split; [apply Rinv_0_lt_compat; lra|apply Rinv_le_contravar; lra]).
  unfold Rdiv. rewrite !Rmult_1_l. destruct full; nra.
Qed.
