(** Proofs: half sums over the visited pairs. *)
From Coq Require Import String.
From Verif Require Import RBase R3 Trig Sums Lattice Crystal CrystalSpec CrystalProofs CrystalTensor StructDiff StructDiffSpec StructDiffProofs Evaluator EvaluatorSpec EvaluatorHist EvaluatorProofs EvaluatorRun EvaluatorMore
  PeakWidth PeakWidthSpec PeakWidthProofs PdfGrid Debye BondGen BondGenSpec World WorldSpec WorldAtoms WorldProofs WorldMain WorldTotal OrbitSpec OrbitGroup OrbitSum OrbitWorld OrbitExample Visited VisitedSpec VisitedProofs.
Import ListNotations.
Open Scope R_scope.
Notation length := List.length.

Lemma isometry_orthogonal N : (forall w, vnorm (mv N w) = vnorm w) -> orthogonal N.
Proof.
  intros H. apply mv_ext. intros u. pose proof (isometry_dot N H) as D. assert (E : forall w, vdot w (mv (mm (tr N) N) u) = vdot w u) by (intros w; rewrite <- (D w u); clear; vring).
  pose proof (E (V3 1 0 0)) as A. pose proof (E (V3 0 1 0)) as B. pose proof (E (V3 0 0 1)) as C. clear E D H. destruct (mv (mm (tr N) N) u) as [p q s]. destruct u as [x y z].
  unfold vdot, mv, mid in *. cbn [vx vy vz x00 x01 x02 x10 x11 x12 x20 x21 x22] in *. f_equal; lra.
Qed.
Definition proper (aniso : bool) (U : mat) : Prop := if aniso then tr U = U else spherical U.
Definition madd (A B : mat) : mat := M3 (x00 A + x00 B) (x01 A + x01 B) (x02 A + x02 B) (x10 A + x10 B) (x11 A + x11 B) (x12 A + x12 B) (x20 A + x20 B) (x21 A + x21 B) (x22 A + x22 B).
Definition canon (aniso : bool) (U : mat) : mat := if aniso then mscale (/ 2) (madd U (tr U)) else mscale (trace U / 3) mid.
Lemma canon_proper f U : proper f (canon f U).
Proof.
  destruct f; [|now eexists]. cbn [proper canon]. destruct U as [a b c d e g h i j]. unfold madd, mscale, tr. cbn [x00 x01 x02 x10 x11 x12 x20 x21 x22]. f_equal; ring.
Qed.
Lemma canon_id f U : proper f U -> canon f U = U.
Proof.
  destruct f; cbn [proper canon].
  - intros H. rewrite H. destruct U as [a b c d e g h i j]. unfold madd, mscale. cbn [x00 x01 x02 x10 x11 x12 x20 x21 x22]. f_equal; field.
  - intros [u ->]. unfold trace, mscale, mid. cbn [x00 x01 x02 x10 x11 x12 x20 x21 x22]. f_equal; field.
Qed.
Lemma turn_add N U W : mm N (mm (mscale (/ 2) (madd U W)) (tr N)) = mscale (/ 2) (madd (mm N (mm U (tr N))) (mm N (mm W (tr N)))).
Proof. destruct N as [n1 n2 n3 n4 n5 n6 n7 n8 n9], U as [u1 u2 u3 u4 u5 u6 u7 u8 u9], W as [w1 w2 w3 w4 w5 w6 w7 w8 w9]. unfold mm, madd, mscale, tr. cbn [x00 x01 x02 x10 x11 x12 x20 x21 x22]. f_equal; ring. Qed.
Lemma canon_turn f N U : orthogonal N -> canon f (mm N (mm U (tr N))) = mm N (mm (canon f U) (tr N)).
Proof.
  intros H. destruct f; cbn [canon].
  - rewrite turn_add. f_equal. f_equal. clear H. destruct N as [n1 n2 n3 n4 n5 n6 n7 n8 n9], U as [u1 u2 u3 u4 u5 u6 u7 u8 u9]. unfold mm, tr. cbn [x00 x01 x02 x10 x11 x12 x20 x21 x22]. f_equal; ring.
  - now rewrite (trace_rotate _ _ H), (rotate_spherical _ _ H).
Qed.
Lemma proper_turn f N U : orthogonal N -> proper f U -> proper f (mm N (mm U (tr N))).
Proof. intros H HU. rewrite <- (canon_id f U HU), <- (canon_turn f N U H). apply canon_proper. Qed.

(** functions of a bond that are the same from both ends and do not change when all is turned *)
Record even_bond (G : catom -> catom -> ubond -> R) : Prop := {
  eb_flip : forall a b r u0 a0 u1 a1, G a b (mkUB r u0 a0 u1 a1) = G b a (mkUB (vscale (-1) r) u1 a1 u0 a0);
  eb_turn : forall a b r u0 a0 u1 a1 N, (forall w, vnorm (mv N w) = vnorm w) -> proper a0 u0 -> proper a1 u1 ->
    G a b (mkUB (mv N r) (mm N (mm u0 (tr N))) a0 (mm N (mm u1 (tr N))) a1) = G a b (mkUB r u0 a0 u1 a1)
}.
Definition flat_bond (G : catom -> catom -> ubond -> R) : Prop := forall a b r u0 a0 u1 a1 w0 w1, G a b (mkUB r u0 a0 u1 a1) = G a b (mkUB r w0 a0 w1 a1).
Definition Gc (G : catom -> catom -> ubond -> R) : catom -> catom -> ubond -> R :=
  fun a b u => G a b (mkUB (PeakWidth.b_r01 u) (canon (b_a0 u) (b_U0 u)) (b_a0 u) (canon (b_a1 u) (b_U1 u)) (b_a1 u)).

Section Half.
  Context (x : adp) (GE : good_env (env_of x)) (lo hi : R) (masked : bool) (mask : nat -> nat -> bool) (HM : good_mask masked mask).
  Notation Q := (gq lo hi masked mask).
  Notation K G := (pair_calc (eq x) isort (Q G)).
  Notation s := (exist _ x eq_refl : wstru (eq x)).
  Context (G : catom -> catom -> ubond -> R) (HG : even_bond G).
  Definition hc (c : unit) (e : envt) (z : Z) (a b : catom) (r : vec) (u0 u1 : mat) : R := IZR z * Gc G a b (mkUB r u0 (c_anis a) u1 (c_anis b)).
  Lemma times_gq n v : times (Q (Gc G)) n v = INR n * v.
  Proof. unfold times. induction n as [|n IH]; [cbn; ring|]. cbn [repeat]. unfold qsum in *. cbn [fold_right]. rewrite IH. cbn [q_add gq]. rewrite S_INR. ring. Qed.
  Lemma invariant_c : invariant_pairs (Q (Gc G)) hc.
  Proof.
    split.
    - intros c e z a b r u. rewrite times_gq. reflexivity.
    - intros c e z a b r u0 u1. unfold hc, Gc. cbn [PeakWidth.b_r01 b_U0 b_a0 b_U1 b_a1]. f_equal. apply (eb_flip _ HG).
    - intros c e z a b r u0 u1 N H. unfold hc, Gc. cbn [PeakWidth.b_r01 b_U0 b_a0 b_U1 b_a1]. f_equal. pose proof (isometry_orthogonal N H) as O.
      rewrite !(canon_turn _ _ _ O). apply (eb_turn _ HG); auto using canon_proper.
    - intros c e a b r d u. cbn [q_contrib q_add gq]. ring.
    - intros c i a j b. apply (proj1 HM).
  Qed.
  Lemma flat_c : flat_bond G -> no_tensors hc.
  Proof. intros F c e z a b r u0 u1 w0 w1. unfold hc, Gc. f_equal. apply F. Qed.
  Lemma half_c tensors P : tensors = true \/ flat_bond G -> orderly tensors x -> neighbours_in lo hi x P ->
    total (K (Gc G)) (wpairs (eq x) (Q (Gc G))) false tt s = sum_all (Q (Gc G)) tt x P.
  Proof.
    intros HT HO HN. cbn [total].
    assert (HT' : tensors = true \/ no_tensors hc) by (destruct HT; [now left|right; now apply flat_c]).
    rewrite (total_half_o (eq x) isort (one_program x GE) isort_sorts (Q (Gc G)) Ropp (gq_ok lo hi masked mask (proj2 HM) (Gc G)) hc invariant_c tensors HT'); [|intros ? <-; exact HO].
    exact (full_is_sum_all (Q (Gc G)) (eq x) isort (one_program x GE) Ropp (gq_ok lo hi masked mask (proj2 HM) (Gc G)) tt s P HN).
  Qed.
  (** the tensors of all images are proper *)
  Lemma image_proper i j y : orderly true x -> (forall a, In a (atoms_of x) -> proper_tensor a) -> (i < length (atoms_of x))%nat -> (j < length (atoms_of x))%nat ->
    image_ok (fst (createBondGenerator x)) (snd (createBondGenerator x)) [j] y ->
    proper (c_anis (atom_at x j)) (b_u1 (bond_at (fst (createBondGenerator x)) (snd (createBondGenerator x)) i [j] y)).
  Proof.
    intros HO HP Hi Hj HI. rewrite create_view in *. destruct y as [[k t] T]. destruct (nth_error (atoms_of x) j) as [b|] eqn:Eb; [|apply nth_error_None in Eb; lia].
    assert (EA : atom_at x j = b) by (unfold atom_at; now apply nth_error_nth). rewrite EA. pose proof (nth_error_In _ _ Eb) as Hb. specialize (HP b Hb).
    destruct HI as [HK HI]. cbn in HK. assert (k = O) as -> by lia. cbn [nth] in HI. unfold orderly in HO. destruct (env_of x) as [|L|L p ops] eqn:Ee.
    - cbn [gview fst snd bond_at nth b_u1 image_u] in *. unfold suij, plain. rewrite (nth_map_some _ _ _ b _ Eb). exact HP.
    - cbn [gview fst snd bond_at nth b_u1 image_u] in *. unfold suij. rewrite (nth_map_some _ _ _ b _ Eb). exact HP.
    - destruct HO as [SG HA]. destruct (HA b Hb) as [EX TF]. specialize (TF eq_refl).
      cbn [gview fst snd] in HI. change (stru_of (mkCr (atoms_of x) L ops p [] false)) with (snd (gview (Symmetric L p ops) (atoms_of x))) in HI.
      rewrite (eqv L p ops (atoms_of x) j b Eb), map_length in HI.
      assert (Ht : (t < length (fpos L p ops b))%nat) by (unfold fpos; rewrite map_length; exact HI).
      unfold bond_at. cbn [nth b_u1]. rewrite (u_pos L p ops (atoms_of x) j b t Eb Ht).
      destruct (follow_ften L p ops GE b TF) as [F F0].
      pose proof (crystal_orbit L p ops GE b EX) as OB. pose proof (first_pos L p ops GE b) as H0.
      destruct (orbit_joined L ops SG _ _ (pos (fpos L p ops b) 0) (pos (fpos L p ops b) t) OB (pos_in _ _ H0) (pos_in _ _ Ht)) as (o & Ho & S).
      destruct (op_cart L ops (crystal_consistent L p ops GE) SG o Ho) as (N & HN & HL).
      rewrite (F o N 0%nat t Ho HN H0 Ht S), F0. apply proper_turn; [now apply isometry_orthogonal|exact HP].
  Qed.
End Half.
