(** Proofs for C89: the operations of the adapter form a space group. *)
From Coq Require Import String.
From Verif Require Import RBase R3 Trig Sphere Lattice LatticeSpec Crystal CrystalSpec CrystalProofs OrbitSpec ObjCryst ObjCrystSpec ObjCrystProofs.
Import ListNotations.
Open Scope R_scope.
Notation length := List.length.

Lemma translated_image t o u : op_image (translated t o) u = vadd (op_image o u) t.
Proof. destruct o as [M s]. unfold op_image, translated. cbn [op_R op_t]. vring. Qed.
Lemma op_add o u v : op_image o (vadd u v) = vadd (op_image o u) (mv (op_R o) v).
Proof. destruct o as [M s]. unfold op_image. cbn [op_R op_t]. vring. Qed.
Lemma same_add u v w w' : same_site u v -> same_site w w' -> same_site (vadd u w) (vadd v w').
Proof.
  intros (i & j & k & ->) (i' & j' & k' & ->). exists (i + i')%Z, (j + j')%Z, (k + k')%Z. unfold iv. rewrite !plus_IZR. vring.
Qed.
Lemma same_through c u v : same_site u v -> same_site (through c u) (through c v).
Proof. intros (i & j & k & ->). exists (- i)%Z, (- j)%Z, (- k)%Z. unfold iv, through. rewrite !opp_IZR. vring. Qed.
Lemma through2 c u : through c (through c u) = u.
Proof. unfold through. vring. Qed.
Lemma add_assoc u v w : vadd (vadd u v) w = vadd u (vadd v w). Proof. vring. Qed.
Lemma add_comm u v : vadd u v = vadd v u. Proof. vring. Qed.
Lemma add_iv o i j k i' j' k' u : mv (op_R o) (iv i j k) = iv i' j' k' -> op_image o (vadd u (iv i j k)) = vadd (op_image o u) (iv i' j' k').
Proof. intros H. now rewrite op_add, H. Qed.

(** a set of maps that keep the lattice, closed under products, with left inverses *)
Lemma group_from L ops :
  (forall o, In o ops -> forall u, vnorm (cartesian L (mv (op_R o) u)) = vnorm (cartesian L u)) ->
  (forall o, In o ops -> forall i j k, exists i' j' k', mv (op_R o) (iv i j k) = iv i' j' k') ->
  (forall o o', In o ops -> In o' ops -> exists q, In q ops /\ forall u, same_site (op_image o (op_image o' u)) (op_image q u)) ->
  (forall o, In o ops -> exists q, In q ops /\ forall u, same_site (op_image q (op_image o u)) u) ->
  space_group L ops.
Proof.
  intros H1 H2 H3 H4. split; auto. intros o Ho.
  assert (C : forall o u v, In o ops -> same_site u v -> same_site (op_image o u) (op_image o v)).
  { intros p u v Hp (i & j & k & ->). destruct (H2 p Hp i j k) as (i' & j' & k' & E). exists i', j', k'. now apply add_iv. }
  destruct (H4 o Ho) as (q & Hq & I). exists q. split; [exact Hq|]. split; [exact I|].
  destruct (H4 q Hq) as (p & Hp & J). intros u.
  apply same_trans with (op_image p (op_image q (op_image o (op_image q u)))); [apply same_sym, J|].
  apply same_trans with (op_image p (op_image q u)); [|apply J]. apply C; [exact Hp|]. apply I.
Qed.

Lemma in_centred g o : In o (centred g) <-> exists t p, In t (sg_trans g) /\ In p (sg_symops g) /\ o = translated t p.
Proof.
  unfold centred. rewrite in_flat_map. split.
  - intros (t & Ht & H). apply in_map_iff in H. destruct H as (p & <- & Hp). eauto.
  - intros (t & p & Ht & Hp & ->). exists t. split; [exact Ht|]. apply in_map_iff. eauto.
Qed.
Section G.
  Context (L : lattice) (g : spacegroup) (K : complete_group L g).
  (** maps that act like one of the centred operations *)
  Definition acts (f : vec -> vec) : Prop := exists q t, In q (sg_symops g) /\ In t (sg_trans g) /\ forall u, same_site (f u) (vadd (op_image q u) t).
  Lemma acts_in f : acts f -> exists o, In o (centred g) /\ forall u, same_site (f u) (op_image o u).
  Proof.
    intros (q & t & Hq & Ht & E). exists (translated t q). split; [apply in_centred; eauto|]. intros u. rewrite translated_image. apply E.
  Qed.
  Lemma base_same o u v : In o (sg_symops g) -> same_site u v -> same_site (op_image o u) (op_image o v).
  Proof. intros Ho (i & j & k & ->). destruct (cg_lattice _ _ K o Ho i j k) as (i' & j' & k' & E). exists i', j', k'. now apply add_iv. Qed.
  Lemma acts_mult o o' : In o (centred g) -> In o' (centred g) -> acts (fun u => op_image o (op_image o' u)).
  Proof.
    intros H H'. apply in_centred in H, H'. destruct H as (t & p & Ht & Hp & ->), H' as (t' & p' & Ht' & Hp' & ->).
    destruct (cg_turn _ _ K p t' Hp Ht') as (s & Hs & Es). destruct (cg_mult _ _ K p p' Hp Hp') as (q & r & Hq & Hr & Eq).
    destruct (cg_add _ _ K r s Hr Hs) as (w & Hw & Ew). destruct (cg_add _ _ K w t Hw Ht) as (z & Hz & Ez).
    exists q, z. split; [exact Hq|]. split; [exact Hz|]. intros u. rewrite !translated_image, op_add.
    apply same_trans with (vadd (vadd (vadd (op_image q u) r) s) t).
    - apply same_add; [|apply same_refl]. apply same_add; [apply Eq|exact Es].
    - rewrite !add_assoc. apply same_add; [apply same_refl|]. rewrite <- add_assoc. apply same_trans with (vadd w t); [|exact Ez]. apply same_add; [exact Ew|apply same_refl].
  Qed.
  Lemma centred_left o : In o (centred g) -> exists q, In q (centred g) /\ forall u, same_site (op_image q (op_image o u)) u.
  Proof.
    intros H. apply in_centred in H. destruct H as (t & p & Ht & Hp & ->).
    destruct (cg_inverse _ _ K p Hp) as (q & s & Hq & Hs & E). destruct (cg_turn _ _ K q t Hq Ht) as (t' & Ht' & Et).
    destruct (cg_add _ _ K s t' Hs Ht') as (w & Hw & Ew). destruct (cg_minus _ _ K w Hw) as (m & Hm & Em).
    exists (translated m q). split; [apply in_centred; eauto|]. intros u. rewrite !translated_image, op_add.
    apply same_trans with (vadd (vadd (vadd u s) t') m).
    - apply same_add; [|apply same_refl]. apply same_add; [apply E|exact Et].
    - rewrite !add_assoc. apply same_trans with (vadd u vzero); [|rewrite vadd_0; apply same_refl]. apply same_add; [apply same_refl|].
      rewrite <- add_assoc. apply same_trans with (vadd w m); [|exact Em]. apply same_add; [exact Ew|apply same_refl].
  Qed.
  Lemma centred_len o : In o (centred g) -> forall u, vnorm (cartesian L (mv (op_R o) u)) = vnorm (cartesian L u).
  Proof. intros H. apply in_centred in H. destruct H as (t & p & Ht & Hp & ->). exact (cg_length _ _ K p Hp). Qed.
  Lemma centred_lat o : In o (centred g) -> forall i j k, exists i' j' k', mv (op_R o) (iv i j k) = iv i' j' k'.
  Proof. intros H. apply in_centred in H. destruct H as (t & p & Ht & Hp & ->). exact (cg_lattice _ _ K p Hp). Qed.
  Lemma centred_group : space_group L (centred g).
  Proof.
    apply group_from.
    - exact centred_len.
    - exact centred_lat.
    - intros o o' H H'. exact (acts_in _ (acts_mult o o' H H')).
    - exact centred_left.
  Qed.
  Lemma centred_same o u v : In o (centred g) -> same_site u v -> same_site (op_image o u) (op_image o v).
  Proof. intros Ho (i & j & k & ->). destruct (centred_lat o Ho i j k) as (i' & j' & k' & E). exists i', j', k'. now apply add_iv. Qed.

  Context (I : inversion_fits g).
  Local Notation c := (sg_center g).
  (** the inversion passes to the other side *)
  Lemma pass o : In o (centred g) -> exists q, In q (centred g) /\ forall u, same_site (op_image o (through c u)) (through c (op_image q u)).
  Proof.
    intros H. apply in_centred in H. destruct H as (t & p & Ht & Hp & ->). destruct (I p Hp) as (q & s & Hq & Hs & E).
    destruct (cg_minus _ _ K t Ht) as (m & Hm & Em). destruct (cg_add _ _ K s m Hs Hm) as (w & Hw & Ew).
    exists (translated w q). split; [apply in_centred; eauto|]. intros u. rewrite !translated_image.
    apply same_trans with (vadd (through c (vadd (op_image q u) s)) t); [apply same_add; [apply E|apply same_refl]|].
    assert (X : same_site t (vscale (-1) m)).
    { destruct Em as (i & j & k & Em). exists i, j, k. revert Em. generalize (iv i j k). clear. intros d H. destruct t as [a b c], m as [a' b' c'], d as [d e f]. unfold vadd, vscale, vzero in *. cbn [vx vy vz] in *. injection H as ? ? ?. f_equal; lra. }
    apply same_trans with (vadd (through c (vadd (op_image q u) s)) (vscale (-1) m)); [apply same_add; [apply same_refl|exact X]|].
    replace (vadd (through c (vadd (op_image q u) s)) (vscale (-1) m)) with (through c (vadd (op_image q u) (vadd s m))).
    2:{ generalize (op_image q u), (sg_center g). clear. intros. unfold through. vring. }
    apply same_through. apply same_add; [apply same_refl|exact Ew].
  Qed.
  Lemma flip_image o u : op_image (flip c o) u = through c (op_image o u).
  Proof. apply flip_inverted. Qed.
  Definition all_ops : list symop := centred g ++ map (flip c) (centred g).
  Lemma in_all o : In o all_ops <-> In o (centred g) \/ exists p, In p (centred g) /\ o = flip c p.
  Proof. unfold all_ops. rewrite in_app_iff, in_map_iff. split; intros [H|(p & H1 & H2)]; auto; right; exists p; auto. Qed.
  Lemma neg_norm M u : vnorm (cartesian L (mv (mscale (-1) M) u)) = vnorm (cartesian L (mv M u)).
  Proof.
    unfold cartesian, vnorm. f_equal. generalize (base L). clear. intros. vring.
  Qed.
  Lemma neg_mv M u : mv (mscale (-1) M) u = vscale (-1) (mv M u). Proof. clear. vring. Qed.
  Lemma all_group : space_group L all_ops.
  Proof.
    assert (P : forall x y, In x (centred g) -> In y (centred g) -> exists q, In q (centred g) /\ forall u, same_site (op_image x (op_image y u)) (op_image q u))
      by (intros x y Hx Hy; exact (acts_in _ (acts_mult x y Hx Hy))).
    apply group_from.
    - intros o H. apply in_all in H. destruct H as [H|(p & H & ->)]; [now apply centred_len|]. intros u. cbn [flip op_R]. rewrite neg_norm. now apply centred_len.
    - intros o H. apply in_all in H. destruct H as [H|(p & H & ->)]; [now apply centred_lat|]. intros i j k. destruct (centred_lat p H i j k) as (i' & j' & k' & E).
      exists (- i')%Z, (- j')%Z, (- k')%Z. cbn [flip op_R]. rewrite neg_mv, E. unfold iv. rewrite !opp_IZR. clear. vring.
    - intros o o' H H'. apply in_all in H, H'. destruct H as [H|(p & H & ->)], H' as [H'|(p' & H' & ->)].
      + destruct (P o o' H H') as (q & Hq & E). exists q. split; [apply in_all; now left|exact E].
      + destruct (pass o H) as (x & Hx & Ex). destruct (P x p' Hx H') as (q & Hq & E). exists (flip c q). split; [apply in_all; right; eauto|].
        intros u. rewrite !flip_image. apply same_trans with (through c (op_image x (op_image p' u))); [apply Ex|]. apply same_through, E.
      + destruct (P p o' H H') as (q & Hq & E). exists (flip c q). split; [apply in_all; right; eauto|]. intros u. rewrite !flip_image. apply same_through, E.
      + destruct (pass p H) as (x & Hx & Ex). destruct (P x p' Hx H') as (q & Hq & E). exists q. split; [apply in_all; now left|].
        intros u. rewrite !flip_image. apply same_trans with (through c (through c (op_image x (op_image p' u)))); [apply same_through, Ex|]. rewrite through2. apply E.
    - intros o H. apply in_all in H. destruct H as [H|(p & H & ->)].
      + destruct (centred_left o H) as (q & Hq & E). exists q. split; [apply in_all; now left|exact E].
      + destruct (centred_left p H) as (q & Hq & E). destruct (pass q Hq) as (x & Hx & Ex). exists (flip c x). split; [apply in_all; right; eauto|].
        intros u. rewrite !flip_image. apply same_trans with (op_image q (through c (through c (op_image p u)))); [apply same_sym, Ex|]. rewrite through2. apply E.
  Qed.
End G.
Lemma operations_group L g l : complete_group L g -> (centrosymmetric_group g -> inversion_fits g) -> operations_of g l -> space_group L l.
Proof.
  intros K I [[P ->]|(C & l' & -> & F)]; [now apply centred_group|].
  assert (E : l' = map (flip (sg_center g)) (centred g)).
  { clear -F. induction F as [|o o' a b H F IH]; [reflexivity|]. cbn [map]. f_equal; [now apply inverted_unique|exact IH]. }
  rewrite E. apply all_group; auto.
Qed.
