(** Theorems for C89: structure adapters for ObjCryst crystals and molecules. Terms are defined in ObjCrystSpec.v. *)
From Coq Require Import String.
From Verif Require Import RBase R3 Trig Sphere Lattice LatticeSpec LatticeProofs BondGen BondGenSpec BondGenProofs Crystal CrystalSpec CrystalProofs StructDiff StructDiffSpec World WorldSpec PeakWidth PeakWidthSpec
  OrbitSpec OrbitTensor Visited VisitedSpec ObjCryst ObjCrystSpec ObjCrystProofs ObjCrystGroup OrbitExample ObjCrystExample CrystalExample CrystalMain.
Import ListNotations.
Open Scope R_scope.
Notation length := List.length.

(** The operations are those of the space group, each once in the order: listed operations, then these with each further
    centring translation, then all of them with the inversion. Nothing uninitialized is left, no index is out of bounds. *)
Theorem C89_operations junk g : plain_group g \/ centrosymmetric_group g ->
  exists l, fetchSymmetryOperations junk g = Some l /\ operations_of g l /\ length l = sg_nbsym g.
Proof. exact (operations junk g). Qed.
Print Assumptions C89_operations.

(** The adapter has the cell, an atom for each component that is not a dummy, in order, with its position, occupancy,
    symbol and mean square displacements B / (8 pi^2), the operations of the space group, and equivalent atoms expanded for these. *)
Theorem C89_crystal junk c : good_cell c -> plain_group (oc_sg c) \/ centrosymmetric_group (oc_sg c) ->
  exists x, adaptCrystal junk c = Some x /\ crystal_cell c (x_lat x) /\ lattice_made (x_lat x) /\ x_prec x = 5 / 100000 /\
  operations_of (oc_sg c) (x_ops x) /\
  Forall2 (fun ps a => atom_for (x_lat x) (fst ps) (sc_occ (snd ps)) (sc_xyz (snd ps)) a) (real_components c) (x_atoms x) /\
  answers x.
Proof.
  intros GC HG. destruct (operations junk (oc_sg c) HG) as (l & E & HO & _).
  destruct (adaptCrystal junk c) as [x|] eqn:EX; [|unfold adaptCrystal in EX; rewrite E in EX; discriminate].
  exists x. split; [reflexivity|]. destruct (adapted c junk x EX) as (l' & E' & ->). rewrite E in E'. injection E' as <-.
  cbn [updateSymmetryPositions x_lat x_prec x_ops x_atoms]. split; [now apply olat_cell|]. split.
  - right. exists [], (SetPar (oc_a c) (oc_b c) (oc_c c) (180 / PI * oc_al c) (180 / PI * oc_be c) (180 / PI * oc_ga c)). split; [constructor|]. split; [exact GC|reflexivity].
  - split; [reflexivity|]. split; [exact HO|]. split; [now apply atoms_ok|].
    intros i. cbn [xstep snd]. unfold ensureSymmetry. cbn [updateSymmetryPositions x_cached x_sym x_atoms]. rewrite map_length, Nat.eqb_refl. cbn [andb].
    unfold current. cbn [x_lat x_ops x_prec x_atoms x_sym]. split; reflexivity.
Qed.
Print Assumptions C89_crystal.
(** The operations of the adapter form a group, if the listed operations, the centring and the inversion generate one. *)
Theorem C89_group junk c x : good_cell c -> plain_group (oc_sg c) \/ centrosymmetric_group (oc_sg c) -> adaptCrystal junk c = Some x ->
  complete_group (x_lat x) (oc_sg c) -> (centrosymmetric_group (oc_sg c) -> inversion_fits (oc_sg c)) -> space_group (x_lat x) (x_ops x).
Proof.
  intros GC HG EX K I. destruct (operations junk (oc_sg c) HG) as (l & E & HO & _). destruct (adapted c junk x EX) as (l' & E' & ->). rewrite E in E'. injection E' as <-.
  cbn [updateSymmetryPositions x_lat x_ops] in *. now apply (operations_group (olat c) (oc_sg c)).
Qed.
Print Assumptions C89_group.
(** Displacement tensors are symmetric, those of isotropic atoms multiples of the identity. *)
Theorem C89_tensors junk c x : good_cell c -> adaptCrystal junk c = Some x -> forall a, In a (x_atoms x) -> proper_tensor a.
Proof.
  intros GC EX a H. destruct (adapted c junk x EX) as (l' & E' & ->). cbn [updateSymmetryPositions x_atoms] in H. apply in_flat_map in H. destruct H as (s & _ & H).
  unfold crystal_atom in H. destruct (sc_pow s) as [p|]; [|destruct H]. destruct H as [<-|[]]. unfold proper_tensor, getUij. cbn [c_anis c_uij]. destruct (sp_iso p); cbn [negb].
  - exists (sp_biso p * BtoU). unfold mscale, mid. cbn [x00 x01 x02 x10 x11 x12 x20 x21 x22]. f_equal; ring.
  - unfold cartesianMatrix. apply form_sym.
Qed.
Print Assumptions C89_tensors.
(** The calculators of C87 and C88 may use half sums for an adapter with exact positions, if the displacement tensors have
    the symmetry of their sites and operations mix only axes of equal reciprocal lengths (see C74). *)
Theorem C89_sums junk c x w n o0 rest : good_cell c -> plain_group (oc_sg c) \/ centrosymmetric_group (oc_sg c) -> adaptCrystal junk c = Some x ->
  complete_group (x_lat x) (oc_sg c) -> (centrosymmetric_group (oc_sg c) -> inversion_fits (oc_sg c)) ->
  sg_symops (oc_sg c) = o0 :: rest -> op_R o0 = mid -> fine (x_lat x) (x_prec x) -> (forall o, In o (sg_symops (oc_sg c)) -> axes_match (x_lat x) (op_R o)) ->
  (forall a, In a (x_atoms x) -> exact_site (x_lat x) (x_prec x) (x_ops x) a /\ site_symmetric (x_lat x) (x_ops x) a) ->
  half_ok w (Adp n (StructDiff.Crystal (x_lat x) (x_prec x) (x_ops x) (x_atoms x))).
Proof.
  intros GC HG EX K I E0 R0 F AM HA. pose proof (C89_group junk c x GC HG EX K I) as SG. pose proof (C89_tensors junk c x GC EX) as TP.
  destruct (C89_crystal junk c GC HG) as (x' & EX' & _ & LM & _ & HO & _). rewrite EX in EX'. injection EX' as <-.
  assert (AM' : forall o, In o (x_ops x) -> axes_match (x_lat x) (op_R o)).
  { assert (AC : forall o, In o (centred (oc_sg c)) -> axes_match (x_lat x) (op_R o)).
    { intros o H. apply in_centred in H. destruct H as (t & p & _ & Hp & ->). exact (AM p Hp). }
    intros o H. destruct HO as [[_ EO]|(_ & l' & EO & FI)]; rewrite EO in H; [now apply AC|]. apply in_app_or in H. destruct H as [H|H]; [now apply AC|].
    assert (Y : exists p, In p (centred (oc_sg c)) /\ o = flip (sg_center (oc_sg c)) p).
    { clear -FI H. induction FI as [|p p' a b X FI IH]; [destruct H|]. destruct H as [<-|H].
      - exists p. split; [now left|now apply inverted_unique].
      - destruct (IH H) as (q & Hq & E). exists q. split; [now right|exact E]. }
    destruct Y as (p & Hp & ->). specialize (AC p Hp). unfold axes_match in *. cbn [flip op_R mscale x01 x10 x02 x20 x12 x21].
    destruct AC as (A1 & A2 & A3). repeat split; [destruct A1 as [A1|[A1 B1]]|destruct A2 as [A2|[A2 B2]]|destruct A3 as [A3|[A3 B3]]]; try (now left); right; split; nra. }
  assert (EH : exists q tl, x_ops x = q :: tl /\ op_R q = mid).
  { assert (EC : exists q tl, centred (oc_sg c) = q :: tl /\ op_R q = mid).
    { destruct HG as [(_ & (r & Er) & _)|(_ & (r & Er) & _)]; unfold centred; rewrite Er, E0; cbn [flat_map map app]; eexists; eexists; (split; [reflexivity|exact R0]). }
    destruct EC as (q & tl & EC & Rq). destruct HO as [[_ EO]|(_ & l' & EO & _)]; rewrite EO, EC; cbn [app]; eauto. }
  destruct EH as (q & tl & EH & Rq).
  assert (O : orderly true (Adp n (StructDiff.Crystal (x_lat x) (x_prec x) (x_ops x) (x_atoms x)))).
  { unfold orderly. cbn [env_of atoms_of]. split; [exact SG|]. intros a Ha. destruct (HA a Ha) as [H1 H2]. split; [exact H1|]. intros _. rewrite EH in *.
    apply (follow_holds (x_lat x) (x_prec x) (q :: tl) LM F SG q tl eq_refl Rq AM' a H1 H2). }
  destruct w; cbn [half_ok].
  - unfold orderly in *. cbn [env_of atoms_of] in *. destruct O as [O1 O2]. split; [exact O1|]. intros a Ha. split; [apply (O2 a Ha)|discriminate].
  - split; [exact O|exact TP].
  - split; [exact O|exact TP].
Qed.
Print Assumptions C89_sums.
(** A molecule gives an atom for each that is not a dummy, in order. *)
Theorem C89_molecule m : Forall2 molatom_for (filter (fun a => negb (ma_dummy a)) m) (adaptMolecule m).
Proof. exact (molecule m). Qed.
Print Assumptions C89_molecule.

(** C89: a body-centred tetragonal crystal with inversion, 16 operations from 4, two atoms from three components. *)
Example C89_nonvacuous : forall junk, good_cell ocr /\ centrosymmetric_group (oc_sg ocr) /\
  exists x, adaptCrystal junk ocr = Some x /\ length (x_ops x) = 16%nat /\ length (x_atoms x) = 2%nat /\ space_group (x_lat x) (x_ops x) /\
  half_ok PWDebyeWaller (Adp 0 (StructDiff.Crystal (x_lat x) (x_prec x) (x_ops x) (x_atoms x))).
Proof.
  intros junk. split; [exact ocr_cell|]. split; [exact i4m_centro|].
  destruct (ocr_adapted junk) as (x & EX & EL & EP & EO & L16 & L2 & HA). exists x. split; [exact EX|]. split; [exact L16|]. split; [exact L2|].
  assert (K : complete_group (x_lat x) (oc_sg ocr)) by (rewrite EL; exact i4m_complete).
  split; [exact (C89_group junk ocr x ocr_cell (or_intror i4m_centro) EX K (fun _ => i4m_inversion))|].
  refine (C89_sums junk ocr x PWDebyeWaller 0 (mkOp mid vzero) _ ocr_cell (or_intror i4m_centro) EX K (fun _ => i4m_inversion) eq_refl eq_refl _ _ _).
  - rewrite EL, EP. apply fine0. unfold prec0. lra.
  - intros o _. rewrite EL. unfold axes_match. cbv zeta. destruct recip0 as (-> & -> & ->). auto.
  - intros a Ha. destruct (HA a Ha) as (HQ & p & q & HU). rewrite EL, EP, EO. split; [now apply exact16|now apply (sym16 a p q)].
Qed.
