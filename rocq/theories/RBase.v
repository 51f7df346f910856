(** Real number helpers shared by the geometric parts of the model: floor, ceil, int casts, vectors.
    [double] is modelled by R (exact arithmetic, no overflow, no NaN). *)
From Coq Require Export Reals Lra Psatz.
From Verif Require Export Base.
Open Scope R_scope.

(** std::floor and std::ceil followed by int(): exact, no int overflow. *)
Definition Rfloor (x : R) : Z := (up x - 1)%Z.
Definition Rceil (x : R) : Z := (- Rfloor (- x))%Z.

Lemma Rfloor_spec x : IZR (Rfloor x) <= x < IZR (Rfloor x) + 1.
Proof. unfold Rfloor. rewrite minus_IZR. destruct (archimed x). lra. Qed.
Lemma Rceil_spec x : IZR (Rceil x) - 1 < x <= IZR (Rceil x).
Proof. unfold Rceil. rewrite opp_IZR. destruct (Rfloor_spec (- x)). lra. Qed.
Lemma Rfloor_lt x (z : Z) : (Rfloor x < z)%Z <-> x < IZR z.
Proof.
  destruct (Rfloor_spec x) as [H1 H2]. split; intros H.
  - apply Zlt_le_succ, IZR_le in H. unfold Z.succ in H. rewrite plus_IZR in H. lra.
  - apply lt_IZR. lra.
Qed.
Lemma Rfloor_le x (z : Z) : (z <= Rfloor x)%Z <-> IZR z <= x.
Proof. pose proof (Rfloor_lt x z). split; intros; [apply Rnot_lt_le; intros ?|apply Z.nlt_ge; intros ?]; rewrite <- ?H in *; try lia. apply H in H1. lra. Qed.
Lemma Rceil_gt x (z : Z) : (z < Rceil x)%Z <-> IZR z < x.
Proof.
  destruct (Rceil_spec x) as [H1 H2]. split; intros H.
  - apply Zlt_le_succ, IZR_le in H. unfold Z.succ in H. rewrite plus_IZR in H. lra.
  - apply lt_IZR. lra.
Qed.
Lemma Rceil_le x (z : Z) : (Rceil x <= z)%Z <-> x <= IZR z.
Proof. pose proof (Rceil_gt x z). split; intros; [apply Rnot_lt_le; intros ?|apply Z.nlt_ge; intros ?]; rewrite <- ?H in *; try lia. apply H in H1. lra. Qed.

(** C++ comparisons of doubles as booleans. *)
Definition Rltb (x y : R) : bool := if Rlt_dec x y then true else false.
Definition Rleb (x y : R) : bool := if Rle_dec x y then true else false.
Definition Reqb (x y : R) : bool := if Req_EM_T x y then true else false.
Lemma Rltb_true x y : Rltb x y = true <-> x < y.
Proof. unfold Rltb. destruct (Rlt_dec x y); split; auto; discriminate. Qed.
Lemma Rltb_false x y : Rltb x y = false <-> y <= x.
Proof. unfold Rltb. destruct (Rlt_dec x y); split; auto; try discriminate; lra. Qed.
Lemma Rleb_true x y : Rleb x y = true <-> x <= y.
Proof. unfold Rleb. destruct (Rle_dec x y); split; auto; discriminate. Qed.
Lemma Rleb_false x y : Rleb x y = false <-> y < x.
Proof. unfold Rleb. destruct (Rle_dec x y); split; auto; try discriminate; lra. Qed.
Lemma Reqb_true x y : Reqb x y = true <-> x = y.
Proof. unfold Reqb. destruct (Req_EM_T x y); split; auto; discriminate. Qed.
Lemma Reqb_false x y : Reqb x y = false <-> x <> y.
Proof. unfold Reqb. destruct (Req_EM_T x y); split; auto; try discriminate; congruence. Qed.

(** integers a, a+1, ..., b-1 *)
Definition zrange (a b : Z) : list Z := map (fun k => (a + Z.of_nat k)%Z) (seq 0 (Z.to_nat (b - a))).
Lemma zrange_In a b z : In z (zrange a b) <-> (a <= z < b)%Z.
Proof.
  unfold zrange. rewrite in_map_iff. split.
  - intros (k & <- & Hk). apply in_seq in Hk. lia.
  - intros H. exists (Z.to_nat (z - a)). split; [lia|]. apply in_seq. lia.
Qed.
Lemma zrange_nil a b : (b <= a)%Z -> zrange a b = [].
Proof. intros H. unfold zrange. replace (Z.to_nat (b - a)) with O by lia. reflexivity. Qed.
Lemma zrange_cons a b : (a < b)%Z -> zrange a b = a :: zrange (a + 1) b.
Proof.
  intros H. unfold zrange. replace (Z.to_nat (b - a)) with (S (Z.to_nat (b - (a + 1)))) by lia.
  cbn [seq map]. f_equal; [lia|]. rewrite <- seq_shift, map_map. apply map_ext. intros k. lia.
Qed.
