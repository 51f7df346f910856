(** Finite sums of reals. *)
From Verif Require Import RBase.
Open Scope R_scope.

(** The sum of f over a list. *)
Definition sumf {A} (f : A -> R) (l : list A) : R := fold_right (fun x s => f x + s) 0 l.

(** ** Sums *)
Lemma sumf_nil {A} (f : A -> R) : sumf f [] = 0. Proof. reflexivity. Qed.
Lemma sumf_cons {A} (f : A -> R) x l : sumf f (x :: l) = f x + sumf f l. Proof. reflexivity. Qed.
Lemma sumf_app {A} (f : A -> R) l l' : sumf f (l ++ l') = sumf f l + sumf f l'.
Proof. induction l as [|x l IH]; [rewrite sumf_nil; cbn [app]; ring|]. cbn [app]. rewrite !sumf_cons, IH. ring. Qed.
Lemma sumf_ext {A} (f g : A -> R) l : (forall x, In x l -> f x = g x) -> sumf f l = sumf g l.
Proof. induction l as [|x l IH]; intros H; [reflexivity|]. rewrite !sumf_cons, H, IH; auto with datatypes. Qed.
Lemma sumf_scale {A} (f : A -> R) k l : sumf (fun x => k * f x) l = k * sumf f l.
Proof. induction l as [|x l IH]; rewrite ?sumf_nil, ?sumf_cons; [ring|]. rewrite IH. ring. Qed.
Lemma sumf_plus {A} (f g : A -> R) l : sumf (fun x => f x + g x) l = sumf f l + sumf g l.
Proof. induction l as [|x l IH]; rewrite ?sumf_nil, ?sumf_cons; [ring|]. rewrite IH. ring. Qed.
Lemma sumf_minus {A} (f g : A -> R) l : sumf (fun x => f x - g x) l = sumf f l - sumf g l.
Proof. induction l as [|x l IH]; rewrite ?sumf_nil, ?sumf_cons; [ring|]. rewrite IH. ring. Qed.
Lemma sumf_map {A B} (h : B -> A) (f : A -> R) l : sumf f (map h l) = sumf (fun x => f (h x)) l.
Proof. induction l as [|x l IH]; [reflexivity|]. cbn [map]. rewrite !sumf_cons, IH. reflexivity. Qed.
Lemma sumf_0 {A} (l : list A) : sumf (fun _ => 0) l = 0.
Proof. induction l as [|x l IH]; rewrite ?sumf_nil, ?sumf_cons; [ring|]. rewrite IH. ring. Qed.
Lemma sumf_zero {A} (f : A -> R) l : (forall x, In x l -> f x = 0) -> sumf f l = 0.
Proof. intros H. rewrite (sumf_ext f (fun _ => 0)); auto. apply sumf_0. Qed.
Lemma sumf_filter {A} (f : A -> R) p l : sumf f (filter p l) = sumf (fun x => if p x then f x else 0) l.
Proof.
  induction l as [|x l IH]; [reflexivity|]. cbn [filter]. rewrite sumf_cons, <- IH. destruct (p x); [apply sumf_cons|ring].
Qed.
Lemma sumf_perm {A} (f : A -> R) l l' : Permutation l l' -> sumf f l = sumf f l'.
Proof. induction 1; rewrite ?sumf_cons in *; lra. Qed.
Lemma sumf_const {A} k (l : list A) : sumf (fun _ => k) l = INR (length l) * k.
Proof. induction l as [|x l IH]; [rewrite sumf_nil; cbn [length INR]; ring|]. rewrite sumf_cons, IH. cbn [length]. rewrite S_INR. ring. Qed.
Lemma sumf_swap {A B} (f : A -> B -> R) l l' : sumf (fun x => sumf (f x) l') l = sumf (fun y => sumf (fun x => f x y) l) l'.
Proof.
  induction l as [|x l IH].
  - rewrite sumf_nil. symmetry. apply sumf_zero. intros; apply sumf_nil.
  - rewrite sumf_cons, IH, <- sumf_plus. apply sumf_ext. intros y _. now rewrite sumf_cons.
Qed.
Lemma fold_plus {A} (f : A -> R) l a : fold_left (fun s x => s + f x) l a = a + sumf f l.
Proof. revert a; induction l as [|x l IH]; intros a; [cbn [fold_left]; rewrite sumf_nil; ring|]. cbn [fold_left]. rewrite IH, sumf_cons. ring. Qed.
(** sum over indices below n of what sits at index k *)
Lemma sumf_pick (f : nat -> R) k n : (k < n)%nat -> sumf (fun i => if (k =? i)%nat then f i else 0) (seq 0 n) = f k.
Proof.
  intros H. replace n with (k + S (n - S k))%nat by lia. rewrite seq_app, sumf_app. cbn [seq]. rewrite sumf_cons.
  rewrite (sumf_zero _ (seq 0 k)), (sumf_zero _ (seq (S (0 + k)) _)).
  - replace (0 + k)%nat with k by lia. rewrite Nat.eqb_refl. ring.
  - intros x Hx%in_seq. destruct (Nat.eqb_spec k x); [lia|reflexivity].
  - intros x Hx%in_seq. destruct (Nat.eqb_spec k x); [lia|reflexivity].
Qed.

