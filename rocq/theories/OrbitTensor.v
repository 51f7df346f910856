(** Proofs: when the tensors of equivalent atoms turn with the operations; an example with a fourfold axis. *)
From Coq Require Import String.
From Verif Require Import RBase R3 Trig Sphere SphereProofs Lattice LatticeSpec LatticeProofs Crystal CrystalSpec CrystalProofs CrystalMain CrystalSep CrystalCell CrystalTensor CrystalExample
  StructDiff StructDiffSpec Evaluator EvaluatorSpec BondGen BondGenSpec BondGenProofs World WorldSpec OrbitSpec OrbitGroup.
Import ListNotations.
Open Scope R_scope.
Notation length := List.length.

Lemma mv_mm A B u : mv A (mv B u) = mv (mm A B) u. Proof. vring. Qed.
Lemma linear_eq M M' c c' : (forall u, same_site (vadd (mv M u) c) (vadd (mv M' u) c')) -> M = M'.
Proof.
  intros H. set (D := M3 (x00 M - x00 M' + 1) (x01 M - x01 M') (x02 M - x02 M') (x10 M - x10 M') (x11 M - x11 M' + 1) (x12 M - x12 M') (x20 M - x20 M') (x21 M - x21 M') (x22 M - x22 M' + 1)).
  assert (E : D = mid).
  { apply (linear_id D (vsub c c')). intros u. destruct (H u) as (i & j & k & E). exists i, j, k. revert E. unfold D. clear. unfold iv. generalize (IZR i) (IZR j) (IZR k). intros x y z E.
    destruct M as [m1 m2 m3 m4 m5 m6 m7 m8 m9], M' as [n1 n2 n3 n4 n5 n6 n7 n8 n9], c as [c1 c2 c3], c' as [d1 d2 d3], u as [u1 u2 u3].
    unfold vsub, vadd, mv in *. cbn [vx vy vz x00 x01 x02 x10 x11 x12 x20 x21 x22] in *. injection E as E1 E2 E3. f_equal; lra. }
  unfold D, mid in E. destruct M as [m1 m2 m3 m4 m5 m6 m7 m8 m9], M' as [n1 n2 n3 n4 n5 n6 n7 n8 n9]. cbn [x00 x01 x02 x10 x11 x12 x20 x21 x22] in E. injection E as E1 E2 E3 E4 E5 E6 E7 E8 E9. f_equal; lra.
Qed.
Lemma op_lin o o' q : (forall u, same_site (op_image o (op_image o' u)) (op_image q u)) -> mm (op_R o) (op_R o') = op_R q.
Proof.
  intros H. apply (linear_eq _ _ (vadd (mv (op_R o) (op_t o')) (op_t o)) (op_t q)). intros u. specialize (H u). unfold op_image in H.
  replace (vadd (mv (mm (op_R o) (op_R o')) u) (vadd (mv (op_R o) (op_t o')) (op_t o))) with (vadd (mv (op_R o) (vadd (mv (op_R o') u) (op_t o'))) (op_t o)); auto.
  destruct o as [P t], o' as [R' t']. cbn [op_R op_t]. vring.
Qed.

Section Follow.
  Context (L : lattice) (eps : R) (ops : list symop) (LM : lattice_made L) (F : fine L eps) (G : space_group L ops).
  Context (o0 : symop) (rest : list symop) (EO : ops = o0 :: rest) (E0 : op_R o0 = mid) (HA : forall o, In o ops -> axes_match L (op_R o)).
  Context (a : catom) (EX : exact_site L eps ops a) (SS : site_symmetric L ops a).
  Lemma fl_consistent : consistent L. Proof. destruct (made_built _ LM) as [C B]. exact (built_consistent _ _ B). Qed.
  Lemma fl_nonempty : ops <> []. Proof. rewrite EO. discriminate. Qed.
  Lemma fl_site p : In p (expand_site L ops eps a) -> exists o N, In o ops /\ cart_part L (op_R o) N /\ same_site (fractional L (c_xyz p)) (op_image o (fractional L (c_xyz a))) /\ c_uij p = mm N (mm (c_uij a) (tr N)).
  Proof.
    intros Hp. destruct (expand_tensor_sep L ops eps a LM F fl_nonempty (proj1 EX) p Hp) as (o & Ho & EP & EU).
    destruct (op_cart L ops fl_consistent G o Ho) as (N & HN & _). exists o, N. split; [exact Ho|]. split; [exact HN|]. split; [|apply EU; auto].
    rewrite EP, (k_inv1 _ fl_consistent). destruct EX as [_ NS]. destruct (NS (op_image o (fractional L (c_xyz a)))) as (n1 & n2 & n3); [unfold images; apply in_map_iff; exists o; split; [reflexivity|exact Ho]|]. now apply no_snap_same.
  Qed.
  Lemma cart_id_unique N N' M : cart_part L M N -> cart_part L M N' -> N = N'.
  Proof. intros H H'. apply mv_ext. intros w. rewrite <- (k_inv2 _ fl_consistent w), <- H, <- H'. reflexivity. Qed.
  Theorem follow_holds : tensors_follow L eps ops a.
  Proof.
    split.
    - intros o N s s' p p' Ho HN Hs Hs' S. apply nth_error_In in Hs, Hs'.
      destruct (fl_site p Hs) as (q & Nq & Hq & HNq & Sq & ->). destruct (fl_site p' Hs') as (q' & Nq' & Hq' & HNq' & Sq' & ->).
      destruct (op_inverse L ops G q' Hq') as (r & Hr & I1 & I2 & R1 & R2).
      destruct (sg_mult _ _ G o q Ho Hq) as (oq & Hoq & M1). destruct (sg_mult _ _ G r oq Hr Hoq) as (w & Hw & M2).
      assert (SW : same_site (op_image w (fractional L (c_xyz a))) (fractional L (c_xyz a))).
      { eapply same_trans; [apply same_sym, M2|]. eapply same_trans; [|apply I1]. apply (op_same L ops G r _ _ Hr). eapply same_trans; [apply same_sym, M1|].
        eapply same_trans; [eapply (op_same L ops G); [exact Ho|apply same_sym; exact Sq]|]. eapply same_trans; [exact S|exact Sq']. }
      destruct (op_cart L ops fl_consistent G w Hw) as (Nw & HNw & _). pose proof (SS w Nw Hw HNw SW) as ST.
      pose proof (op_lin _ _ _ M1) as L1. pose proof (op_lin _ _ _ M2) as L2.
      assert (EN : mm N Nq = mm Nq' Nw).
      { apply mv_ext. intros u. rewrite <- !mv_mm. rewrite <- (k_inv2 _ fl_consistent u). rewrite <- HNq, <- HN, <- HNw, <- HNq'. f_equal.
        rewrite <- L2, <- L1, <- !mv_mm. now rewrite R1. }
      rewrite <- ST at 1. transitivity (mm (mm Nq' Nw) (mm (c_uij a) (tr (mm Nq' Nw)))); [rewrite tr_mm, !mm_assoc; reflexivity|]. rewrite <- EN, tr_mm, !mm_assoc. reflexivity.
    - intros p Hp. unfold expand_site in Hp. rewrite EO in Hp.
      destruct (expand_head L eps (toFractional L a) o0 rest fl_consistent F) as (x & r & E). rewrite E in Hp. cbn [map nth_error] in Hp. injection Hp as <-. cbn [toCartesian c_uij toFractional].
      destruct (made_built _ LM) as [C B]. rewrite carried_tensor, E0. rewrite (carried_op L C B mid mid).
      + now rewrite tr_id, mm_id_r, mm_id_l.
      + intros u. replace (mv mid u) with u by (clear; destruct u; vring). clear. generalize (cartesian L u). intros w. vring.
      + now rewrite mm_id_r, mm_id_l.
  Qed.
End Follow.
