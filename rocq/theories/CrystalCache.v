(** Proofs about the cache of symmetry positions in Crystal.v. *)
From Coq Require Import String.
From Verif Require Import RBase R3 Trig TrigProofs Sphere Lattice LatticeSpec LatticeProofs BondGen
  Crystal CrystalSpec CrystalProofs CrystalMain CrystalSep CrystalCell CrystalExample.
Import ListNotations.
Open Scope R_scope.
Notation length := List.length.

Definition valid (c : crystal) : Prop := x_cached c = true -> x_sym c = current c.
Lemma valid_answers c : valid c -> answers c.
Proof.
  intros V i. assert (E : x_sym (ensureSymmetry c) = current c).
  { unfold ensureSymmetry. destruct (x_cached c) eqn:Ec; cbn [andb]; [|reflexivity]. rewrite (V Ec). unfold current. rewrite map_length, Nat.eqb_refl. exact (V Ec). }
  cbn [xstep snd]. now rewrite E.
Qed.
Lemma ensure_valid c : valid c -> valid (ensureSymmetry c).
Proof. unfold ensureSymmetry. intros V. destruct (_ && _); auto. intros _. reflexivity. Qed.
Lemma xstep_valid c k : valid c -> ~ edits k -> valid (fst (xstep c k)).
Proof.
  intros V N. destruct k; cbn [xstep fst]; try (exfalso; apply N; exact I).
  - destruct (epsilon_positive eps); [|exact V]. cbn [fst]. intros H. cbn [x_cached] in H. destruct (Reqb eps (x_prec c)) eqn:E; [|discriminate].
    apply Reqb_true in E. subst eps. cbn. rewrite (V H). reflexivity.
  - intros H. discriminate.
  - intros H. discriminate.
  - intros _. reflexivity.
  - now apply ensure_valid.
  - now apply ensure_valid.
Qed.
Lemma xrun_app c l1 l2 : xrun c (l1 ++ l2) = xrun (xrun c l1) l2.
Proof. unfold xrun. apply fold_left_app. Qed.
Lemma xrun_valid l : forall c, valid c -> Forall (fun k => ~ edits k) l -> valid (xrun c l).
Proof. induction l as [|k l IH]; intros c V F; auto. inversion F; subst. cbn. apply IH; auto. now apply xstep_valid. Qed.
Lemma refresh_valid c k : refreshes k -> valid (fst (xstep c k)).
Proof. destruct k; intros []; cbn [xstep fst]; intros H; try discriminate. reflexivity. Qed.

Lemma refreshed c pre k post : refreshes k -> Forall (fun k => ~ edits k) post -> answers (xrun c (pre ++ k :: post)).
Proof. intros R F. rewrite xrun_app. cbn. apply valid_answers, xrun_valid; auto. now apply refresh_valid. Qed.

Lemma uncached_step c k : x_cached c = false -> ~ asks k -> x_cached (fst (xstep c k)) = false.
Proof.
  intros H N. destruct k; cbn [xstep fst]; try (exfalso; apply N; exact I); auto. destruct (epsilon_positive eps); auto. cbn. now destruct (Reqb _ _).
Qed.
Lemma uncached_run l : forall c, x_cached c = false -> Forall (fun k => ~ asks k) l -> x_cached (xrun c l) = false.
Proof. induction l as [|k l IH]; intros c V F; auto. inversion F; subst. cbn. apply IH; auto. now apply uncached_step. Qed.
Lemma unasked c l : x_cached c = false -> Forall (fun k => ~ asks k) l -> answers (xrun c l).
Proof. intros H F. apply valid_answers. intros E. rewrite (uncached_run _ _ H F) in E. discriminate. Qed.
Lemma unasked_since c pre k post : discards k -> Forall (fun k => ~ asks k) post -> answers (xrun c (pre ++ k :: post)).
Proof. intros R F. rewrite xrun_app. cbn. apply unasked; auto. destruct k; destruct R; reflexivity. Qed.

(** settings that a history leaves *)
Lemma ensure_same c : x_atoms (ensureSymmetry c) = x_atoms c /\ x_lat (ensureSymmetry c) = x_lat c /\ x_ops (ensureSymmetry c) = x_ops c /\ x_prec (ensureSymmetry c) = x_prec c.
Proof. unfold ensureSymmetry. destruct (_ && _); auto. Qed.
Lemma eps_pos e : epsilon_positive e = Rltb (/ 67108864) e.
Proof.
  unfold epsilon_positive, eps_gt, SQRT_DOUBLE_EPS. now rewrite Rplus_0_l.
Qed.
Lemma conf_xstep c k : x_conf (fst (xstep c k)) = conf_step (x_conf c) k.
Proof.
  unfold x_conf. destruct (ensure_same c) as (E1 & E2 & E3 & E4). destruct k; cbn [xstep fst conf_step]; rewrite ?E1, ?E2, ?E3, ?E4; auto.
  rewrite eps_pos. now destruct (Rltb _ _).
Qed.
Lemma conf_run l : forall c, x_conf (xrun c l) = fold_left conf_step l (x_conf c).
Proof. induction l as [|k l IH]; intros c; auto. change (xrun c (k :: l)) with (xrun (fst (xstep c k)) l). cbn [fold_left]. rewrite <- conf_xstep. apply IH. Qed.

(** the number of sites changed *)
Lemma count_changed c l : length (x_sym c) <> length l -> answers (fst (xstep c (XAtoms l))).
Proof.
  intros H i. cbn [xstep fst]. assert (E : x_sym (ensureSymmetry (mkCr l (x_lat c) (x_ops c) (x_prec c) (x_sym c) (x_cached c))) = current (mkCr l (x_lat c) (x_ops c) (x_prec c) (x_sym c) (x_cached c))).
  { unfold ensureSymmetry. cbn [x_cached x_sym x_atoms]. rewrite (proj2 (Nat.eqb_neq _ _) H), andb_false_r. reflexivity. }
  cbn [xstep snd]. now rewrite E.
Qed.
Lemma asked_length c k : asks k -> length (x_sym (fst (xstep c k))) = length (x_atoms c).
Proof.
  destruct k; intros []; cbn [xstep fst].
  - cbn. apply map_length.
  - unfold ensureSymmetry. destruct (x_cached c) eqn:E; cbn [andb]; [|cbn; apply map_length]. destruct (Nat.eqb_spec (length (x_sym c)) (length (x_atoms c))); auto. cbn. apply map_length.
  - unfold ensureSymmetry. destruct (x_cached c) eqn:E; cbn [andb]; [|cbn; apply map_length]. destruct (Nat.eqb_spec (length (x_sym c)) (length (x_atoms c))); auto. cbn. apply map_length.
Qed.

(** ** stale answers *)
Lemma expand_none L eps a : consistent L -> map c_xyz (expand_site L [] eps a) = [c_xyz a].
Proof.
  intros C. unfold expand_site, expandLatticeAtom. cbn [fold_left eqsites eqsumpos eqduplicity mean_sites map toCartesian toFractional c_xyz].
  f_equal. replace (vscale (/ INR 1) (fractional L (c_xyz a))) with (fractional L (c_xyz a)); [apply (k_inv2 _ C)|].
  destruct (fractional L (c_xyz a)) as [u v w]. unfold vscale. cbn [vx vy vz INR]. rewrite Rinv_1. f_equal; ring.
Qed.
Lemma expand_single L eps a o : map c_xyz (expand_site L [o] eps a) = [cartesian L (ucvFractional (op_image o (fractional L (c_xyz a))))].
Proof.
  unfold expand_site, expandLatticeAtom, expand_step. cbn [fold_left eqsites eqsumpos eqduplicity findEqualPosition app length upd nth Nat.add mean_sites map toCartesian toFractional c_xyz].
  f_equal. f_equal. set (q := ucvFractional _). destruct q as [u v w]. unfold vscale, vadd, vzero. cbn [vx vy vz INR]. rewrite Rinv_1. f_equal; ring.
Qed.
Definition wide : lattice := setLatPar blank 2 1 1 90 90 90.
Lemma wide_base : base wide = M3 2 0 0 0 1 0 0 0 1.
Proof.
  unfold wide, setLatPar. cbn [base baserot blank]. rewrite cosd90, sind90. rewrite mm_id_r. unfold mk_stdbase, mklatpar, Vunit.
  cbn [ar cgr sgr cb la lb sa ca lc]. replace (1 + 2 * 0 * 0 * 0 - 0 * 0 - 0 * 0 - 0 * 0) with 1 by ring. rewrite sqrt_1.
  replace (1 - (0 * 0 - 0) / (1 * 1) * ((0 * 0 - 0) / (1 * 1))) with 1 by field. rewrite sqrt_1. f_equal; field.
Qed.
