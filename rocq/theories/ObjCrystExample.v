(** An example for C89: a body-centred tetragonal crystal with inversion (I4/m), given as four operations, two translations
    and a centre; an isotropic and an anisotropic atom and a dummy. *)
From Coq Require Import String.
From Verif Require Import RBase R3 Trig Sphere SphereProofs Lattice LatticeSpec LatticeProofs BondGen BondGenSpec Crystal CrystalSpec CrystalProofs CrystalMain CrystalSep CrystalCell CrystalTensor CrystalExample
  StructDiff StructDiffSpec World WorldSpec OrbitSpec OrbitGroup OrbitTensor OrbitExample ObjCryst ObjCrystSpec ObjCrystProofs ObjCrystGroup.
Import ListNotations.
Open Scope R_scope.
Notation length := List.length.

Definition middle : vec := V3 (1 / 2) (1 / 2) (1 / 2).
Definition i4m : spacegroup := mkSG quad [vzero; middle] 2 16 vzero.
Definition fe : component := mkSC (Some (mkSP true 2 (fun _ _ => 0) "Fe"%string)) 1 (V3 (1 / 4) 0 0).
Definition ni : component := mkSC (Some (mkSP false 0 (fun i j => if (i =? j)%nat then (if (i =? 3)%nat then 3 else 1) else 0) "Ni"%string)) (1 / 2) vzero.
Definition ocr : ocrystal := mkOC 1 1 1 (PI / 2) (PI / 2) (PI / 2) [fe; mkSC None 1 middle; ni] i4m.

Lemma i4m_centro : centrosymmetric_group i4m.
Proof. split; [reflexivity|]. split; [now exists [middle]|reflexivity]. Qed.
Lemma deg90 : 180 / PI * (PI / 2) = 90. Proof. pose proof PI_RGT_0. field. lra. Qed.
Lemma ocr_cell : good_cell ocr.
Proof. unfold good_cell, ocr. cbn [oc_a oc_b oc_c oc_al oc_be oc_ga]. rewrite deg90. exact good_default. Qed.
Lemma ocr_lat : olat ocr = lattice0.
Proof. unfold olat, ocr. cbn [oc_a oc_b oc_c oc_al oc_be oc_ga]. rewrite deg90. reflexivity. Qed.
Lemma i4m_complete : complete_group lattice0 i4m.
Proof.
  assert (Z : In vzero (sg_trans i4m)) by now left. assert (HM : In middle (sg_trans i4m)) by (right; now left).
  split.
  - exact (sg_length _ _ quad_group).
  - exact (sg_lattice _ _ quad_group).
  - intros t t' [<-|[<-|[]]] [<-|[<-|[]]]; [exists vzero|exists middle|exists middle|exists vzero]; (split; [assumption|]).
    1,2,3: apply eq_same; clear; unfold middle; vring; lra.
    exists 1%Z, 1%Z, 1%Z. unfold vadd, middle, vzero, iv. cbn [vx vy vz]. f_equal; lra.
  - intros t [<-|[<-|[]]]; [exists vzero|exists middle]; (split; [assumption|]).
    + exists 0%Z, 0%Z, 0%Z. unfold vadd, vzero, iv. cbn [vx vy vz]. f_equal; lra.
    + exists 1%Z, 1%Z, 1%Z. unfold vadd, middle, vzero, iv. cbn [vx vy vz]. f_equal; lra.
  - intros o t Ho [<-|[<-|[]]].
    + exists vzero. split; [assumption|]. apply eq_same. generalize (op_R o). clear. intros M. vring.
    + exists middle. split; [assumption|]. ops4 Ho; unfold middle; calc.
      * exists 0%Z, 0%Z, 0%Z. unfold iv, vadd. cbn [vx vy vz]. f_equal; lra.
      * exists (-1)%Z, 0%Z, 0%Z. unfold iv, vadd. cbn [vx vy vz]. f_equal; lra.
      * exists (-1)%Z, (-1)%Z, 0%Z. unfold iv, vadd. cbn [vx vy vz]. f_equal; lra.
      * exists 0%Z, (-1)%Z, 0%Z. unfold iv, vadd. cbn [vx vy vz]. f_equal; lra.
  - intros o o' Ho Ho'. destruct (sg_mult _ _ quad_group o o' Ho Ho') as (q & Hq & E). exists q, vzero. split; [exact Hq|]. split; [assumption|]. intros u. rewrite vadd_0. apply E.
  - intros o Ho. destruct (sg_inverse _ _ quad_group o Ho) as (q & Hq & E & _). exists q, vzero. split; [exact Hq|]. split; [assumption|]. intros u. rewrite vadd_0. apply E.
Qed.
Lemma i4m_inversion : inversion_fits i4m.
Proof.
  intros o Ho. exists o, vzero. split; [exact Ho|]. split; [now left|]. intros u. apply eq_same. cbn [sg_center i4m]. change (sg_symops i4m) with quad in Ho.
  unfold through. destruct u as [a b c]. ops4 Ho; unfold vsub; calc; f_equal; ring.
Qed.
Definition the16 : list symop := centred i4m ++ map (flip vzero) (centred i4m).
Lemma the16_form o : In o the16 -> exists p t, In p quad /\ (t = vzero \/ t = middle) /\ (o = translated t p \/ o = flip vzero (translated t p)).
Proof.
  unfold the16. rewrite in_app_iff, in_map_iff. intros [H|(q & <- & H)]; apply in_centred in H; destruct H as (t & p & Ht & Hp & ->); exists p, t;
    (split; [exact Hp|]); (split; [destruct Ht as [<-|[<-|[]]]; auto|]); auto.
Qed.
Lemma quarter_add u v : quarter u -> quarter v -> quarter (vadd u v).
Proof. intros (i & j & k & ->) (i' & j' & k' & ->). exists (i + i')%Z, (j + j')%Z, (k + k')%Z. rewrite !plus_IZR. unfold vadd. cbn [vx vy vz]. f_equal; field. Qed.
Lemma quarter_neg u : quarter u -> quarter (through vzero u).
Proof. intros (i & j & k & ->). exists (- i)%Z, (- j)%Z, (- k)%Z. rewrite !opp_IZR. unfold through, vsub, vzero. cbn [vx vy vz]. f_equal; field. Qed.
Lemma q_zero0 : quarter vzero. Proof. exists 0%Z, 0%Z, 0%Z. unfold vzero. f_equal; field. Qed.
Lemma q_mid : quarter middle. Proof. exists 2%Z, 2%Z, 2%Z. unfold middle. f_equal; field. Qed.
Lemma quarter16 u o : quarter u -> In o the16 -> quarter (op_image o u).
Proof.
  intros HQ Ho. destruct (the16_form o Ho) as (p & t & Hp & Ht & HE).
  assert (X : quarter (op_image (translated t p) u)).
  { rewrite translated_image. apply quarter_add; [now apply quarter_image|]. destruct Ht as [-> | ->]; [apply q_zero0|apply q_mid]. }
  destruct HE as [-> | ->]; [exact X|]. rewrite (flip_inverted vzero (translated t p) u). now apply quarter_neg.
Qed.
Lemma exact16 a : quarter (c_xyz a) -> exact_site lattice0 prec0 the16 a.
Proof.
  intros HQ. unfold exact_site. rewrite frac0.
  assert (X : forall u, In u (images the16 (c_xyz a)) -> quarter u) by (intros u Hu; unfold images in Hu; apply in_map_iff in Hu as (o & <- & Ho); now apply quarter16).
  split; [intros u v Hu Hv; apply quarter_near; auto|]. intros u Hu. destruct (X u Hu) as (i & j & k & ->). cbn [vx vy vz]. repeat split; apply quarter_snap.
Qed.
Lemma sym16 a p q : c_uij a = M3 p 0 0 0 p 0 0 0 q -> site_symmetric lattice0 the16 a.
Proof.
  intros E o N Ho HN _. apply part0 in HN. subst N. rewrite E. destruct (the16_form o Ho) as (s & t & Hs & _ & HE).
  destruct HE as [-> | ->]; cbn [translated flip op_R]; ops4 Hs; calc; unfold mm, tr, mscale; cbn [x00 x01 x02 x10 x11 x12 x20 x21 x22]; f_equal; ring.
Qed.
Lemma cart_id U : cartesianMatrix lattice0 U = U.
Proof.
  rewrite <- ocr_lat. unfold cartesianMatrix. rewrite (olat_nb ocr ocr_cell). rewrite ocr_lat. unfold recip_scaled. destruct recip0 as (-> & -> & ->).
  destruct (k_va _ lattice0_consistent), (k_vb _ lattice0_consistent), (k_vc _ lattice0_consistent). rewrite !cart0.
  replace (rows (vscale 1 (V3 1 0 0)) (vscale 1 (V3 0 1 0)) (vscale 1 (V3 0 0 1))) with mid by (unfold rows, vscale, mid; cbn [vx vy vz]; f_equal; ring). apply form_id.
Qed.
Lemma ocr_adapted junk : exists x, adaptCrystal junk ocr = Some x /\ x_lat x = lattice0 /\ x_prec x = prec0 /\ x_ops x = the16 /\ length (x_ops x) = 16%nat /\ length (x_atoms x) = 2%nat /\
  forall a, In a (x_atoms x) -> quarter (c_xyz a) /\ exists p q, c_uij a = M3 p 0 0 0 p 0 0 0 q.
Proof.
  pose proof (fetch_centro junk i4m i4m_centro) as E.
  destruct (adaptCrystal junk ocr) as [x|] eqn:EX; [|unfold adaptCrystal in EX; change (oc_sg ocr) with i4m in EX; rewrite E in EX; discriminate].
  exists x. split; [reflexivity|]. destruct (adapted ocr junk x EX) as (l & E' & ->). change (oc_sg ocr) with i4m in E'. rewrite E in E'. injection E' as <-.
  cbn [updateSymmetryPositions x_lat x_prec x_ops x_atoms]. split; [apply ocr_lat|]. split; [unfold prec0; lra|]. split; [reflexivity|]. split; [reflexivity|].
  rewrite ocr_lat. split; [reflexivity|]. cbn [ocr oc_comps flat_map crystal_atom fe ni sc_pow app]. intros a [<-|[<-|[]]]; cbn [c_xyz c_uij sp_iso negb]; rewrite cart0; (split; [cbn [sc_xyz]|]).
  - apply iron_quarter.
  - eexists; eexists; reflexivity.
  - apply q_zero0.
  - rewrite cart_id. unfold getUij. cbn [sp_iso sp_bij Nat.eqb]. rewrite Rmult_0_l. eexists; eexists; reflexivity.
Qed.
