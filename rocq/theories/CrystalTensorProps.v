(** Theorems for C74: displacement tensors of symmetry equivalent atoms. *)
From Coq Require Import String.
From Verif Require Import RBase R3 Trig TrigProofs Sphere PeakWidth PeakWidthSpec PeakWidthProofs
  Lattice LatticeSpec LatticeProofs BondGen BondGenSpec BondGenProofs
  Crystal CrystalSpec CrystalProofs CrystalMain CrystalSep CrystalCell CrystalExample CrystalCache CrystalTensor.
Import ListNotations.
Open Scope R_scope.
Notation length := List.length.

(** C74. [cart_part L M Q]: Q is the Cartesian form of the linear part M of an operation. [axes_match L M]: M only mixes
    axes that have equal reciprocal lengths. The tensor of each equivalent atom is then Q U Q^T for an operation of the
    crystal, and if the position is exactly special or clearly general the atom is at the image under that operation. *)
Theorem C74_tensor : forall L ops eps a, lattice_made L -> fine L eps -> ops <> [] -> forall b, In b (expand_site L ops eps a) ->
  exists o, In o ops /\ forall Q, cart_part L (op_R o) Q -> axes_match L (op_R o) -> c_uij b = mm Q (mm (c_uij a) (tr Q)).
Proof. intros L ops eps a LM F NE b Hb. destruct (expand_tensor L ops eps a LM F NE b Hb) as (o & H1 & _ & H2). eauto. Qed.
Print Assumptions C74_tensor.
Theorem C74_tensor_and_position : forall L ops eps a, lattice_made L -> fine L eps -> ops <> [] ->
  separated L eps (images ops (fractional L (c_xyz a))) -> forall b, In b (expand_site L ops eps a) ->
  exists o, In o ops /\ c_xyz b = cartesian L (ucvFractional (vadd (mv (op_R o) (fractional L (c_xyz a))) (op_t o))) /\
    forall Q, cart_part L (op_R o) Q -> axes_match L (op_R o) -> c_uij b = mm Q (mm (c_uij a) (tr Q)).
Proof. exact expand_tensor_sep. Qed.
Print Assumptions C74_tensor_and_position.
(** C74: in all cases, a valid tensor (symmetric, no negative displacement) gives valid tensors. *)
Theorem C74_valid : forall L ops eps a, lattice_made L -> fine L eps -> ops <> [] -> valid_tensor (c_uij a) ->
  forall b, In b (expand_site L ops eps a) -> valid_tensor (c_uij b).
Proof. intros L ops eps a LM F NE V b Hb. destruct (expand_tensor L ops eps a LM F NE b Hb) as (o & _ & (P & -> & _) & _). now apply valid_rotate. Qed.
Print Assumptions C74_valid.
(** C74 fails for operations that mix axes of different reciprocal length, although they are symmetries of the lattice:
    cell a = (1,0,0), b = (0,1,0), c = (-1/2,0,2/3) with the mirror plane x = 0, an atom on it that moves along z only.
    The image of that motion is the motion itself, but the tensor returned has off-diagonal elements. *)
Theorem C74_skew_axes_refuted : exists L M Q, lattice_made L /\ cart_part L M Q /\ mm Q (tr Q) = mid /\
  forall eps, fine L eps -> exists b,
    expand_site L [mkOp M vzero] eps (mkCA vzero (M3 0 0 0 0 0 0 0 0 1) "C"%string 1 true) = [b] /\
    mm Q (mm (M3 0 0 0 0 0 0 0 0 1) (tr Q)) = M3 0 0 0 0 0 0 0 0 1 /\
    c_uij b = M3 (1 / 16) 0 (-1 / 4) 0 0 0 (-1 / 4) 0 1.
Proof.
  exists skew, mirror, (M3 (-1) 0 0 0 1 0 0 0 1). split; [exact skew_made|]. split; [exact skew_mirror|]. split; [vring|].
  intros eps F. destruct (made_built _ skew_made) as [C B].
  destruct (expand_head skew eps (toFractional skew (mkCA vzero (M3 0 0 0 0 0 0 0 0 1) "C"%string 1 true)) (mkOp mirror vzero) [] (built_consistent _ _ B) F) as (x & r & E).
  assert (R : r = []).
  { apply (f_equal (@List.length _)) in E. unfold expandLatticeAtom, expand_step in E. cbn in E. destruct r; [auto|discriminate]. }
  subst r. eexists. split; [unfold expand_site; rewrite E; reflexivity|]. split; [vring|].
  cbn [toCartesian c_uij toFractional op_R]. rewrite carried_tensor, skew_carried. unfold mm, tr. cbn [x00 x01 x02 x10 x11 x12 x20 x21 x22]. f_equal; field.
Qed.
Print Assumptions C74_skew_axes_refuted.
(** C74, the anchor: Ucartesian0 is the tensor of the site as given. It belongs to the position that r0 shows (the first
    equivalent) when the first operation has the identity as its linear part ... *)
Theorem C74_anchor : forall c i a o ops, lattice_made (x_lat c) -> fine (x_lat c) (x_prec c) -> x_ops c = o :: ops -> op_R o = mid ->
  nth_error (x_atoms c) i = Some a ->
  nth i (suij (stru_of c)) mid = c_uij a /\ snd (nth 0 (equivalents (stru_of c) i) (vzero, mid)) = c_uij a.
Proof.
  intros c i a o ops LM F EO EI EA. destruct (anchor_tensor c i a o ops LM F EO EA) as [H1 H2]. split; auto. rewrite H2.
  destruct (made_built _ LM) as [C B].
  assert (E : carried (x_lat c) (op_R o) = mid).
  { rewrite EI. apply (carried_op _ C B); [intros u|rewrite mm_id_l, mm_id_r; reflexivity].
    assert (X : forall v, mv mid v = v) by (intros [v1 v2 v3]; vring). now rewrite !X. }
  rewrite E. destruct (c_uij a). vring.
Qed.
Print Assumptions C74_anchor.
(** ... but not otherwise: with a mirror plane as the only operation the sign of U12 is wrong for the anchor. *)
Theorem C74_anchor_refuted : exists c, lattice_made (x_lat c) /\ fine (x_lat c) (x_prec c) /\ x_ops c <> [] /\ length (x_atoms c) = 1%nat /\
  x01 (nth 0 (suij (stru_of c)) mid) = 1 / 2 /\ x01 (snd (nth 0 (equivalents (stru_of c) 0) (vzero, mid))) = - (1 / 2).
Proof.
  set (a := mkCA vzero (M3 1 (1 / 2) 0 (1 / 2) 1 0 0 0 1) "C"%string 1 true). set (M := M3 (-1) 0 0 0 1 0 0 0 1).
  exists (mkCr [a] lattice0 [mkOp M vzero] (5 / 100000) [] false). cbn [x_lat x_prec x_ops x_atoms length].
  assert (LM : lattice_made lattice0) by now left. assert (F : fine lattice0 (5 / 100000)) by (apply fine0; lra).
  split; [exact LM|]. split; [exact F|]. split; [discriminate|]. split; [reflexivity|].
  destruct (anchor_tensor (mkCr [a] lattice0 [mkOp M vzero] (5 / 100000) [] false) 0 a (mkOp M vzero) [] LM F eq_refl eq_refl) as [H1 H2].
  rewrite H1, H2. split; [reflexivity|]. cbn [x_lat op_R].
  destruct (made_built _ LM) as [C B]. rewrite (carried_op _ C B M M).
  - unfold M, a, mm, tr. cbn. field.
  - intros u. now rewrite !cart0.
  - unfold M, diag3, mm. cbn. f_equal; ring.
Qed.
Print Assumptions C74_anchor_refuted.
(** The hypotheses are met: a fourfold rotation in the default lattice has itself as Cartesian part and mixes equal axes. *)
Example C74_nonvacuous : lattice_made lattice0 /\ fine lattice0 (5 / 100000) /\ cart_part lattice0 rot4 rot4 /\ axes_match lattice0 rot4 /\ mm rot4 (tr rot4) = mid.
Proof.
  split; [now left|]. split; [apply fine0; lra|]. split; [intros u; now rewrite !cart0|]. destruct recip0 as (E1 & E2 & E3).
  split; [unfold axes_match; rewrite E1, E2, E3; auto|]. unfold rot4. vring.
Qed.
