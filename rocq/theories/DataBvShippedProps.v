(** C100: the bond valence parameters of the shipped file. *)
From Coq Require Import Ascii String.
From Verif Require Import Base AList RBase Trig Sums Bvs BvsSpec BvsTable BvsProofs Tables Data DataSpec DataText DataIons DataHist DataExample DataShippedProofs SftData SftDataSpec SftDataProofs SftDataShipped DataBvShipped DataBvShippedSpec DataBvShippedProofs.
Open Scope R_scope.
Open Scope list_scope.
Notation length := List.length.

(** The file of the source tree is read to its end, and what is read answers the standard lookups. *)
Theorem C100_complete num : reads_decimals num -> exists t, read_bv num bv_dat = Ok t /\
  (forall p, fresh_answer num bv_dat (CBv p) = Val (ABv (bvfind p t))) /\ NoDup (map (fun r => let '(a0, v0, a1, v1, _) := r in (a0, v0, a1, v1)) shipped_bonds).
Proof.
  intros HN. destruct (loads num HN) as (t & Ht). exists t. split; [exact Ht|]. split.
  - intros p. unfold loaded in Ht. now rewrite fresh_bv, Ht.
  - pose proof keys_nodup as H. clear Ht. revert H. generalize shipped_bonds. intros l. induction l as [|r l IH]; intros H; [constructor|]. cbn [map] in H |- *. inversion_clear H as [|? ? H1 H2]. constructor; [|auto].
    intros Hin. apply H1. apply in_map_iff in Hin as (r' & E & Hr). apply in_map_iff. exists r'. split; [|exact Hr]. destruct r as [[[[a0 v0] a1] v1] w], r' as [[[[b0 w0] b1] w1] w']. injection E as -> -> -> ->. reflexivity.
Qed.
Print Assumptions C100_complete.

(** A listed bond has the parameters that the file says, in both orders of its ions unless these have the same charge. *)
Theorem C100_listed num t el0 v0 el1 v1 w s0 s1 : reads_decimals num -> read_bv num bv_dat = Ok t -> In (el0, v0, el1, v1, w) shipped_bonds -> ion_named s0 el0 v0 -> ion_named s1 el1 v1 ->
  has_values (lookup_symbols (newTable t) s0 s1) w /\ (v0 <> v1 \/ el0 = el1 -> has_values (lookup_symbols (newTable t) s1 s0) w).
Proof.
  intros HN HL Hin N0 N1. pose proof (all_proper num HN _ Hin) as P. assert (EO := proper_order num _ _ _ _ _ P).
  assert (EE : element (chars el0) /\ element (chars el1)) by (unfold proper in P; destruct w; tauto). destruct EE as [E0 E1].
  rewrite (symbols_lookup t s0 el0 v0 s1 el1 v1 E0 E1 N0 N1), (symbols_lookup t s1 el1 v1 s0 el0 v0 E1 E0 N1 N0).
  assert (K : bond_key (chars el0) v0 (chars el1) v1 = (chars el0, v0, chars el1, v1)) by exact EO. split.
  - eapply (has_of num _ _ (el0, v0, el1, v1, w)); [eapply (lookup_listed num HN); [exact HL|exact Hin|exact EO|exact K]|exact P|reflexivity].
  - intros H. eapply (has_of num _ _ (el0, v0, el1, v1, w)); [eapply (lookup_listed num HN); [exact HL|exact Hin|exact EO|]|exact P|reflexivity].
    rewrite <- K. apply key_sym. destruct H as [H| ->]; [left; congruence|now right].
Qed.
Print Assumptions C100_listed.

(** A cation whose charge is not listed with this anion uses the record of the unspecified charge 9, if there is one, ... *)
Theorem C100_unspecified num t el0 v0 el1 v1 w s0 s1 : reads_decimals num -> read_bv num bv_dat = Ok t -> In (el0, 9%Z, el1, v1, w) shipped_bonds -> (0 < v0)%Z -> ~ has_bond el0 v0 el1 v1 ->
  ion_named s0 el0 v0 -> ion_named s1 el1 v1 -> has_values (lookup_symbols (newTable t) s0 s1) w /\ has_values (lookup_symbols (newTable t) s1 s0) w.
Proof.
  intros HN HL Hin Hv Hno N0 N1. pose proof (all_proper num HN _ Hin) as P. assert (EO := proper_order num _ _ _ _ _ P).
  assert (EE : element (chars el0) /\ element (chars el1) /\ (v1 < 0)%Z). { unfold proper in P; destruct w. split; [tauto|]. split; [tauto|]. destruct P as (_ & _ & _ & _ & [P|[P _]] & _); [exact P|lia]. } destruct EE as (E0 & E1 & Hneg).
  rewrite (symbols_lookup t s0 el0 v0 s1 el1 v1 E0 E1 N0 N1), (symbols_lookup t s1 el1 v1 s0 el0 v0 E1 E0 N1 N0).
  assert (K : bond_key (chars el0) v0 (chars el1) v1 = (chars el0, v0, chars el1, v1)) by (unfold bond_key; destruct (Z.ltb_spec v0 v1); [lia|reflexivity]).
  assert (A : forall r, In r shipped_bonds -> bkey r <> (chars el0, v0, chars el1, v1)).
  { intros [[[[a0 u0] a1] u1] w'] Hr E. pose proof (all_proper num HN _ Hr) as P'. rewrite (proper_order num _ _ _ _ _ P') in E. injection E as Ea Eu Eb Ev. apply chars_inj in Ea, Eb. subst. apply Hno. now exists w'. }
  split.
  - eapply (has_of num _ _ (el0, 9%Z, el1, v1, w)); [eapply (lookup_nine num HN); [exact HL|exact Hin|exact EO|exact K|exact Hv|exact A]|exact P|reflexivity].
  - eapply (has_of num _ _ (el0, 9%Z, el1, v1, w)); [eapply (lookup_nine num HN); [exact HL|exact Hin|exact EO| |exact Hv|exact A]|exact P|reflexivity]. rewrite <- K. symmetry. apply key_sym. left. lia.
Qed.
Print Assumptions C100_unspecified.

(** ... and otherwise no parameters are found. *)
Theorem C100_unlisted num t el0 v0 el1 v1 s0 s1 : reads_decimals num -> read_bv num bv_dat = Ok t -> element (chars el0) -> element (chars el1) -> ion_named s0 el0 v0 -> ion_named s1 el1 v1 ->
  ~ has_bond el0 v0 el1 v1 -> ~ has_bond el1 v1 el0 v0 -> ((0 < v0)%Z -> ~ has_bond el0 9 el1 v1) -> ((0 < v1)%Z -> ~ has_bond el1 9 el0 v0) -> lookup_symbols (newTable t) s0 s1 = None.
Proof.
  intros HN HL E0 E1 N0 N1 H0 H1 H2 H3. cut ((0 < v0)%Z /\ has_bond el0 9 el1 v1 \/ (0 < v1)%Z /\ has_bond el1 9 el0 v0 \/ lookup_symbols (newTable t) s0 s1 = None). { intros [[A B]|[[A B]|A]]; [exfalso; now apply H2|exfalso; now apply H3|exact A]. } clear H2 H3. rewrite (symbols_lookup t s0 el0 v0 s1 el1 v1 E0 E1 N0 N1).
  assert (A : forall r b0 w0 b1 w1, In r shipped_bonds -> bkey r = (chars b0, w0, chars b1, w1) -> has_bond b0 w0 b1 w1).
  { intros [[[[a0 u0] a1] u1] w'] b0 w0 b1 w1 Hr E. pose proof (all_proper num HN _ Hr) as P'. rewrite (proper_order num _ _ _ _ _ P') in E. injection E as Ea Eu Eb Ev. apply chars_inj in Ea, Eb. subst. now exists w'. }
  assert (D : forall b0 w0 b1 w1, (exists r, In r shipped_bonds /\ bkey r = (chars b0, w0, chars b1, w1)) \/ ~ (exists r, In r shipped_bonds /\ bkey r = (chars b0, w0, chars b1, w1))).
  { intros b0 w0 b1 w1. destruct (in_dec key_dec (chars b0, w0, chars b1, w1) (map bkey shipped_bonds)) as [I|I].
    - left. apply in_map_iff in I as (r & E & Hr). now exists r.
    - right. intros (r & Hr & E). apply I. rewrite <- E. now apply in_map. }
  destruct (Z.ltb_spec v0 v1) as [L|L].
  - assert (K : bond_key (chars el0) v0 (chars el1) v1 = (chars el1, v1, chars el0, v0)) by (unfold bond_key; destruct (Z.ltb_spec v0 v1); [reflexivity|lia]).
    destruct (D el1 9%Z el0 v0) as [(r & Hr & Er)|D9].
    + destruct (Z.ltb_spec 0 v1) as [P|P]; [right; left; split; [exact P|exact (A _ _ _ _ _ Hr Er)]|]. right; right. eapply (lookup_absent num HN); [exact HL|exact K| |intros P'; lia]. intros r' Hr' E'. apply H1. exact (A _ _ _ _ _ Hr' E').
    + right; right. eapply (lookup_absent num HN); [exact HL|exact K| |]. { intros r' Hr' E'. apply H1. exact (A _ _ _ _ _ Hr' E'). } intros _ r' Hr' E'. apply D9. now exists r'.
  - assert (K : bond_key (chars el0) v0 (chars el1) v1 = (chars el0, v0, chars el1, v1)) by (unfold bond_key; destruct (Z.ltb_spec v0 v1); [lia|reflexivity]).
    destruct (D el0 9%Z el1 v1) as [(r & Hr & Er)|D9].
    + destruct (Z.ltb_spec 0 v0) as [P|P]; [left; split; [exact P|exact (A _ _ _ _ _ Hr Er)]|]. right; right. eapply (lookup_absent num HN); [exact HL|exact K| |intros P'; lia]. intros r' Hr' E'. apply H0. exact (A _ _ _ _ _ Hr' E').
    + right; right. eapply (lookup_absent num HN); [exact HL|exact K| |]. { intros r' Hr' E'. apply H0. exact (A _ _ _ _ _ Hr' E'). } intros _ r' Hr' E'. apply D9. now exists r'.
Qed.
Print Assumptions C100_unlisted.

(** Anions, and neutral atoms, have no bonds with each other. *)
Theorem C100_anions num t el0 v0 el1 v1 s0 s1 : reads_decimals num -> read_bv num bv_dat = Ok t -> element (chars el0) -> element (chars el1) -> ion_named s0 el0 v0 -> ion_named s1 el1 v1 ->
  (v0 <= 0)%Z -> (v1 <= 0)%Z -> lookup_symbols (newTable t) s0 s1 = None.
Proof.
  intros HN HL E0 E1 N0 N1 L0 L1.
  assert (A : forall b0 w0 b1 w1, (w0 <= 0)%Z -> ~ has_bond b0 w0 b1 w1). { intros b0 w0 b1 w1 L (w & H). apply (all_proper num HN) in H. unfold proper in H. destruct w. lia. }
  apply (C100_unlisted num t el0 v0 el1 v1 s0 s1 HN HL E0 E1 N0 N1 (A _ _ _ _ L0) (A _ _ _ _ L1)); intros X; lia.
Qed.
Print Assumptions C100_anions.

(** Every listed bond has proper parameters: the valence of a bond of length Ro is one, shorter bonds have a larger valence, and it is below 0.00001
    from 15 A. *)
Theorem C100_valence num t el0 v0 el1 v1 w s0 s1 p : reads_decimals num -> read_bv num bv_dat = Ok t -> In (el0, v0, el1, v1, w) shipped_bonds ->
  ion_named s0 el0 v0 -> ion_named s1 el1 v1 -> lookup_symbols (newTable t) s0 s1 = Some p ->
  1 / 2 <= mRo p <= 32 / 10 /\ 26 / 100 <= mB p <= 94 / 100 /\ bondvalence p (mRo p) = 1 /\ (forall d e, d < e -> bondvalence p e < bondvalence p d) /\ (forall d, 15 <= d -> bondvalence p d < 1 / 100000).
Proof.
  intros HN HL Hin N0 N1 EL. destruct (C100_listed num t el0 v0 el1 v1 w s0 s1 HN HL Hin N0 N1) as [(p' & E' & HR & HB) _]. rewrite EL in E'. injection E' as <-.
  pose proof (all_proper num HN _ Hin) as P. unfold proper in P. destruct w as [wr wb]. destruct P as (_ & _ & _ & _ & _ & NR & NB & _ & _ & P1 & P2 & P3). cbn [fst snd] in HR, HB.
  apply HN in HR, HB. rewrite HR in NR. rewrite HB in NB. injection NR as NR. injection NB as NB. rewrite <- NR, <- NB in *.
  assert (F : forall d, bondvalence p d = exp ((mRo p - d) / mB p)). { intros d. unfold bondvalence. rewrite (proj2 (Rltb_true 0 (mB p))) by lra. reflexivity. }
  assert (IB : 0 < / mB p) by (apply Rinv_0_lt_compat; lra).
  split; [exact P1|]. split; [exact P2|]. split; [|split].
  - rewrite F. unfold Rminus, Rdiv. rewrite Rplus_opp_r, Rmult_0_l. apply exp_0.
  - intros d e H. rewrite !F. apply exp_increasing. apply Rmult_lt_compat_r; [exact IB|lra].
  - intros d H. rewrite F. apply Rle_lt_trans with (exp (-12)); [|exact exp_12]. assert (L : (mRo p - d) / mB p <= -12).
    { apply Rmult_le_reg_r with (mB p); [lra|]. unfold Rdiv. rewrite Rmult_assoc, Rinv_l by lra. lra. }
    destruct L as [L| ->]; [left; now apply exp_increasing|right; reflexivity].
Qed.
Print Assumptions C100_valence.

(** Two ions of the same charge: the bond of Pt2+ and C2+ is found in one order and not in the other. *)
Theorem C100_either_order_refuted num t : reads_decimals num -> read_bv num bv_dat = Ok t ->
  has_values (lookup_symbols (newTable t) (chars "Pt2+") (chars "C2+")) ("1.760", "0.37")%string /\ lookup_symbols (newTable t) (chars "C2+") (chars "Pt2+") = None.
Proof.
  intros HN HL.
  assert (C2 : charge_text 2 (chars "2+")) by (right; right; exists "+"%char, 2%nat; repeat split; auto; try lia; now left).
  assert (NP : ion_named (chars "Pt2+") "Pt" 2) by (exists [], (chars "2+"); split; [reflexivity|split; [constructor|exact C2]]).
  assert (NC : ion_named (chars "C2+") "C" 2) by (exists [], (chars "2+"); split; [reflexivity|split; [constructor|exact C2]]).
  assert (EP : element (chars "Pt")) by (apply elementb_sound; reflexivity). assert (EC : element (chars "C")) by (apply elementb_sound; reflexivity).
  assert (X : existsb (fun r : brec => let '(a0, v0, a1, v1, (x, y)) := r in String.eqb a0 "Pt" && (v0 =? 2)%Z && String.eqb a1 "C" && (v1 =? 2)%Z && String.eqb x "1.760" && String.eqb y "0.37") shipped_bonds = true) by (vm_compute; reflexivity).
  assert (Y : forallb (fun r : brec => let '(a0, v0, a1, v1, (x, y)) := r in negb (String.eqb a0 "C" && ((v0 =? 2)%Z || (v0 =? 9)%Z) && String.eqb a1 "Pt" && (v1 =? 2)%Z)) shipped_bonds = true) by (vm_compute; reflexivity).
  apply existsb_exists in X as ([[[[a0 v0] a1] v1] [x y]] & Hin & X). rewrite !andb_true_iff in X. destruct X as (((((X1 & X2) & X3) & X4) & X5) & X6). apply String.eqb_eq in X1, X3, X5, X6. apply Z.eqb_eq in X2, X4. subst.
  rewrite forallb_forall in Y.
  split; [exact (proj1 (C100_listed num t _ _ _ _ _ _ _ HN HL Hin NP NC))|].
  rewrite (symbols_lookup t (chars "C2+") "C" 2 (chars "Pt2+") "Pt" 2 EC EP NC NP).
  assert (A : forall r v, In r shipped_bonds -> v = 2%Z \/ v = 9%Z -> bkey r <> (chars "C", v, chars "Pt", 2%Z)).
  { intros [[[[b0 u0] b1] u1] [z1 z2]] v Hr Hv E. pose proof (all_proper num HN _ Hr) as P'. rewrite (proper_order num _ _ _ _ _ P') in E. injection E as Ea Eu Eb Ev. change (["C"%char]) with (chars "C") in Ea. change (["P"%char; "t"%char]) with (chars "Pt") in Eb. apply chars_inj in Ea, Eb. specialize (Y _ Hr). subst. cbv beta iota in Y. rewrite !String.eqb_refl in Y. destruct Hv; subst; discriminate. }
  eapply (lookup_absent num HN); [exact HL|reflexivity| |]; [intros r Hr; apply A; auto|intros _ r Hr; apply A; auto].
Qed.
Print Assumptions C100_either_order_refuted.

(** Na+ and Cl-; Ag2+ uses the record of the unspecified charge with Br-; Na+ and Ag+ have no bond. *)
Example C100_nonvacuous : reads_decimals plain_num /\ (exists t, read_bv plain_num bv_dat = Ok t) /\ In ("Na", 1, "Cl", -1, ("2.15", "0.37"))%string%Z shipped_bonds /\
  In ("Ag", 9, "Br", -1, ("2.22", "0.37"))%string%Z shipped_bonds /\ ~ has_bond "Ag" 2 "Br" (-1) /\ ion_named (chars "23-Na+") "Na" 1 /\ ion_named (chars "Ag2+") "Ag" 2 /\ ion_named (chars "Br-") "Br" (-1) /\
  ~ has_bond "Na" 1 "Ag" 1 /\ ~ has_bond "Ag" 1 "Na" 1 /\ ~ has_bond "Na" 9 "Ag" 1 /\ ~ has_bond "Ag" 9 "Na" 1.
Proof.
  assert (I : forall a0 v0 a1 v1 x y, existsb (fun r : brec => let '(b0, w0, b1, w1, (x', y')) := r in String.eqb b0 a0 && (w0 =? v0)%Z && String.eqb b1 a1 && (w1 =? v1)%Z && String.eqb x' x && String.eqb y' y) shipped_bonds = true ->
    In (a0, v0, a1, v1, (x, y)) shipped_bonds).
  { intros a0 v0 a1 v1 x y X. apply existsb_exists in X as ([[[[b0 w0] b1] w1] [x' y']] & Hin & X). rewrite !andb_true_iff in X. destruct X as (((((X1 & X2) & X3) & X4) & X5) & X6). apply String.eqb_eq in X1, X3, X5, X6. apply Z.eqb_eq in X2, X4. subst. exact Hin. }
  assert (N : forall a0 v0 a1 v1, existsb (fun r : brec => let '(b0, w0, b1, w1, _) := r in String.eqb b0 a0 && (w0 =? v0)%Z && String.eqb b1 a1 && (w1 =? v1)%Z) shipped_bonds = false -> ~ has_bond a0 v0 a1 v1).
  { intros a0 v0 a1 v1 X (w & Hin). apply Bool.not_true_iff_false in X. apply X, existsb_exists. eexists. split; [exact Hin|]. cbv beta iota. now rewrite !String.eqb_refl, !Z.eqb_refl. }
  split; [exact plain_reads|]. split; [exact (loads plain_num plain_reads)|]. split; [apply I; vm_compute; reflexivity|]. split; [apply I; vm_compute; reflexivity|]. split; [apply N; vm_compute; reflexivity|].
  split. { exists (chars "23-"), (chars "+"). split; [reflexivity|]. split; [|right; left; exists "+"%char; repeat split; now left]. repeat constructor; unfold prefix_char; cbn; tauto. }
  split. { exists [], (chars "2+"). split; [reflexivity|]. split; [constructor|]. right; right; exists "+"%char, 2%nat; repeat split; auto; try lia; now left. }
  split. { exists [], (chars "-"). split; [reflexivity|]. split; [constructor|]. right; left; exists "-"%char. repeat split; auto. now right. }
  repeat split; apply N; vm_compute; reflexivity.
Qed.
