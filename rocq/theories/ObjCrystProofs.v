(** Proofs for C89. *)
From Coq Require Import String.
From Verif Require Import RBase R3 Trig Sphere Lattice LatticeSpec LatticeProofs BondGen BondGenSpec Crystal CrystalSpec CrystalProofs BondCalcProofs ObjCryst ObjCrystSpec.
Import ListNotations.
Open Scope R_scope.
Notation length := List.length.

Lemma foldo_ext {A B} (f g : B -> A -> option B) l : (forall a x, In a l -> f x a = g x a) -> forall x, foldo f l x = foldo g l x.
Proof.
  induction l as [|a l IH]; intros H x; cbn; auto. rewrite (H a x) by now left. destruct (g x a); auto. apply IH. intros; apply H; now right.
Qed.
Lemma foldo_app {A B} (f : B -> A -> option B) l l' x : foldo f (l ++ l') x = match foldo f l x with Some y => foldo f l' y | None => None end.
Proof. revert x. induction l as [|a l IH]; intros x; cbn; auto. destruct (f x a); auto. Qed.
Lemma put_mid P k z R o : length P = k -> put (P ++ z :: R) k o = Some (P ++ o :: R).
Proof.
  intros H. unfold put. rewrite app_length; cbn [length]. destruct (Nat.ltb_spec k (length P + S (length R))) as [_|X]; [|exfalso; lia]. rewrite (upd_mid k o z P R H). reflexivity.
Qed.
Lemma nth_split_at {A} (l : list A) i x : nth_error l i = Some x -> skipn i l = x :: skipn (S i) l.
Proof. revert i. induction l as [|a l IH]; intros [|i] H; cbn in *; try discriminate. - congruence. - now apply IH. Qed.
Lemma skip_skip {A} a b (l : list A) : skipn a (skipn b l) = skipn (b + a) l.
Proof. revert l. induction b as [|b IH]; intros l; [reflexivity|]. destruct l; cbn [skipn Nat.add]; [apply skipn_nil|]. apply IH. Qed.
(** writing a block from the elements before it *)
Lemma fill (f : symop -> symop) b k : forall s P M Q, length P = b -> length M = s -> (s + k <= b)%nat -> (k <= length Q)%nat ->
  foldo (fun rv i => match nth_error rv i with Some o => put rv (b + i) (f o) | None => None end) (seq s k) (P ++ M ++ Q) =
  Some (P ++ M ++ map f (firstn k (skipn s P)) ++ skipn k Q).
Proof.
  induction k as [|k IH]; intros s P M Q HP HM Hb HQ; [reflexivity|]. cbn [seq foldo].
  destruct (nth_error P s) as [o|] eqn:E; [|apply nth_error_None in E; lia].
  rewrite nth_error_app1 by lia. rewrite E. destruct Q as [|z Q]; [cbn in HQ; lia|].
  rewrite app_assoc, (put_mid (P ++ M) (b + s) z Q (f o)) by (rewrite app_length; lia). rewrite <- app_assoc.
  replace (M ++ f o :: Q) with ((M ++ [f o]) ++ Q) by now rewrite <- app_assoc.
  rewrite (IH (S s) P (M ++ [f o]) Q); [| |rewrite app_length; cbn; lia|lia|cbn in HQ; lia]; auto. f_equal. f_equal.
  rewrite (nth_split_at P s o E). cbn [firstn map skipn]. rewrite <- app_assoc. reflexivity.
Qed.
Lemma fill0 (f : symop -> symop) b k P Q : length P = b -> (k <= b)%nat -> (k <= length Q)%nat ->
  foldo (fun rv i => match nth_error rv i with Some o => put rv (b + i) (f o) | None => None end) (seq 0 k) (P ++ Q) =
  Some (P ++ map f (firstn k P) ++ skipn k Q).
Proof. intros HP Hb HQ. exact (fill f b k 0 P [] Q HP eq_refl Hb HQ). Qed.
Lemma copy_fill ops k : forall s M Q, length M = s -> (s + k <= length ops)%nat -> (k <= length Q)%nat ->
  foldo (fun rv i => match nth_error ops i with Some o => put rv i o | None => None end) (seq s k) (M ++ Q) =
  Some (M ++ firstn k (skipn s ops) ++ skipn k Q).
Proof.
  induction k as [|k IH]; intros s M Q HM Hb HQ; [reflexivity|]. cbn [seq foldo].
  destruct (nth_error ops s) as [o|] eqn:E; [|apply nth_error_None in E; lia].
  destruct Q as [|z Q]; [cbn in HQ; lia|]. rewrite (put_mid M s z Q o HM).
  replace (M ++ o :: Q) with ((M ++ [o]) ++ Q) by now rewrite <- app_assoc.
  rewrite (IH (S s) (M ++ [o]) Q); [|rewrite app_length; cbn; lia|lia|cbn in HQ; lia]. f_equal.
  rewrite (nth_split_at ops s o E). cbn [firstn skipn]. rewrite <- app_assoc. reflexivity.
Qed.
Lemma copy_spec ops Q : (length ops <= length Q)%nat -> copy_ops ops Q = Some (ops ++ skipn (length ops) Q).
Proof.
  intros H. unfold copy_ops. etransitivity; [exact (copy_fill ops (length ops) 0 [] Q eq_refl (le_n _) H)|]. cbn [app skipn]. now rewrite firstn_all.
Qed.
Lemma vadd_0 v : vadd v vzero = v. Proof. vring. Qed.
Lemma translated_0 o : translated vzero o = o. Proof. destruct o as [Rm t]. unfold translated. cbn. now rewrite vadd_0. Qed.
Lemma zero_loop ops Q k : forall s, (s + k <= length ops)%nat ->
  foldo (shift_step (length ops) 0 vzero) (seq s k) (ops ++ Q) = Some (ops ++ Q).
Proof.
  induction k as [|k IH]; intros s H; [reflexivity|]. cbn [seq foldo].
  destruct (nth_error ops s) as [o|] eqn:E; [|apply nth_error_None in E; lia].
  unfold shift_step at 1. rewrite nth_error_app1 by lia. rewrite E, Nat.mul_0_l, Nat.add_0_r. unfold put. rewrite app_length.
  destruct (Nat.ltb_spec s (length ops + length Q)); [|lia].
  assert (EU : upd s (mkOp (op_R o) (vadd (op_t o) vzero)) (ops ++ Q) = ops ++ Q).
  { rewrite vadd_0. replace (mkOp (op_R o) (op_t o)) with o by now destruct o.
    rewrite <- (upd_nth s o (ops ++ Q)) at 2 by (rewrite app_length; lia). f_equal.
    symmetry. apply nth_error_nth. rewrite nth_error_app1 by lia. exact E. }
  rewrite EU. apply IH. lia.
Qed.
(** the blocks after the first *)
Lemma more_blocks (ops : list symop) trans : forall rest nt Q, (1 <= nt)%nat -> (forall i t, nth_error rest i = Some t -> nth_error trans (nt + i) = Some t) ->
  (length ops * length rest <= length Q)%nat -> forall P, length P = (nt * length ops)%nat -> firstn (length ops) P = ops ->
  foldo (fun rv nt => match nth_error trans nt with Some sgt => foldo (shift_step (length ops) nt sgt) (seq 0 (length ops)) rv | None => None end)
    (seq nt (length rest)) (P ++ Q) =
  Some (P ++ flat_map (fun t => map (translated t) ops) rest ++ skipn (length ops * length rest) Q).
Proof.
  induction rest as [|t rest IH]; intros nt Q Hn HT HQ P HP HF.
  - cbn. now rewrite Nat.mul_0_r.
  - cbn [length seq foldo]. rewrite <- (Nat.add_0_r nt) at 1. rewrite (HT O t eq_refl). cbn [length] in HQ.
    assert (L1 : (length ops <= length P)%nat) by (rewrite HP; nia).
    rewrite (foldo_ext (shift_step (length ops) nt t) (fun rv i => match nth_error rv i with Some o => put rv (nt * length ops + i) (translated t o) | None => None end)).
    2:{ intros i rv _. unfold shift_step, translated. rewrite (Nat.add_comm i). reflexivity. }
    rewrite (fill0 (translated t) (nt * length ops) (length ops) P Q HP) by nia. rewrite HF.
    rewrite app_assoc, (IH (S nt)).
    + rewrite <- app_assoc. cbn [flat_map]. rewrite <- app_assoc. do 3 f_equal.
      rewrite skip_skip. cbn [length]. rewrite Nat.mul_succ_r, Nat.add_comm. reflexivity.
    + lia.
    + intros i t' H. replace (S nt + i)%nat with (nt + S i)%nat by lia. now apply HT.
    + rewrite skipn_length. nia.
    + rewrite app_length, map_length. lia.
    + rewrite firstn_app. replace (length ops - length P)%nat with O by lia. cbn. now rewrite app_nil_r.
Qed.
Lemma centred_length g : length (centred g) = (length (sg_symops g) * length (sg_trans g))%nat.
Proof. unfold centred. induction (sg_trans g) as [|t r IH]; cbn; [lia|]. rewrite app_length, map_length, IH. lia. Qed.
Lemma translate_spec ops rest Q : (length ops * length rest <= length Q)%nat ->
  translate_ops (length ops) (vzero :: rest) (S (length rest)) (ops ++ Q) =
  Some (flat_map (fun t => map (translated t) ops) (vzero :: rest) ++ skipn (length ops * length rest) Q).
Proof.
  intros HQ. unfold translate_ops. cbn [seq foldo nth_error]. rewrite zero_loop by lia.
  rewrite (more_blocks ops (vzero :: rest) rest 1 Q).
  - f_equal. cbn [flat_map]. rewrite <- app_assoc. f_equal. rewrite <- (map_id ops) at 1. apply map_ext. intros. symmetry. apply translated_0.
  - lia.
  - intros i t H. exact H.
  - exact HQ.
  - lia.
  - apply firstn_all.
Qed.

(** what the loop puts in the second half *)
Definition flip (c : vec) (o : symop) : symop := mkOp (mscale (-1) (op_R o)) (vsub (vscale 2 c) (op_t o)).
Lemma flip_inverted c o : inverted c o (flip c o).
Proof. intros u. destruct o as [Rm t]. unfold op_image, flip, through. cbn. clear. vring. Qed.
Lemma inverted_unique c o o' : inverted c o o' -> o' = flip c o.
Proof.
  intros H. destruct o as [M t], o' as [M' t'].
  pose proof (H vzero) as H0. pose proof (H (V3 1 0 0)) as H1. pose proof (H (V3 0 1 0)) as H2. pose proof (H (V3 0 0 1)) as H3. clear H.
  unfold op_image, through, flip in *. cbn [op_R op_t] in *. destruct M as [a0 a1 a2 a3 a4 a5 a6 a7 a8], M' as [b0 b1 b2 b3 b4 b5 b6 b7 b8], t as [t0 t1 t2], t' as [s0 s1 s2], c as [c0 c1 c2].
  unfold vadd, vsub, mv, vscale, mscale, vzero in *. cbn [vx vy vz x00 x01 x02 x10 x11 x12 x20 x21 x22] in *.
  injection H0 as ? ? ?. injection H1 as ? ? ?. injection H2 as ? ? ?. injection H3 as ? ? ?. f_equal; f_equal; lra.
Qed.

Lemma fetch_plain junk g : plain_group g -> fetchSymmetryOperations junk g = Some (centred g).
Proof.
  intros (H1 & (r & H2) & H3). unfold fetchSymmetryOperations. rewrite H2 in *. cbn [length] in *.
  rewrite copy_spec by (rewrite repeat_length, H3; nia). rewrite H1, translate_spec by (rewrite skipn_length, repeat_length, H3; nia).
  destruct (Nat.ltb_spec (length (sg_symops g) * S (length r)) (sg_nbsym g)); [nia|]. unfold centred. rewrite H2. rewrite skipn_all2, app_nil_r; auto.
  rewrite skipn_length, repeat_length, H3. nia.
Qed.
Lemma fetch_centro junk g : centrosymmetric_group g -> fetchSymmetryOperations junk g = Some (centred g ++ map (flip (sg_center g)) (centred g)).
Proof.
  intros (H1 & (r & H2) & H3). unfold fetchSymmetryOperations. pose proof (centred_length g) as HL.
  assert (EC : centred g = flat_map (fun t => map (translated t) (sg_symops g)) (vzero :: r)) by (unfold centred; now rewrite H2).
  rewrite H2 in *. cbn [length] in *.
  rewrite copy_spec by (rewrite repeat_length, H3; nia). rewrite H1, translate_spec by (rewrite skipn_length, repeat_length, H3; nia).
  rewrite <- EC.
  set (Q := skipn (length (sg_symops g) * length r) (skipn (length (sg_symops g)) (repeat junk (sg_nbsym g)))).
  assert (LQ : length Q = length (centred g)) by (unfold Q; rewrite !skipn_length, repeat_length, H3, HL; nia).
  destruct (Nat.ltb_spec (length (sg_symops g) * S (length r)) (sg_nbsym g)) as [_|HH].
  - unfold invert_ops. rewrite <- HL.
    etransitivity; [refine (fill0 (flip (sg_center g)) (length (centred g)) (length (centred g)) (centred g) Q eq_refl _ _); lia|].
    rewrite firstn_all, skipn_all2, app_nil_r by lia. reflexivity.
  - assert (HE : length (centred g) = 0%nat) by nia. apply length_zero_iff_nil in HE. rewrite HE in *. cbn in LQ. apply length_zero_iff_nil in LQ. rewrite LQ. reflexivity.
Qed.

Lemma form_normbase A B C D E F n1 n2 n3 w : let U := M3 A D E D B F E F C in let M := rows n1 n2 n3 in
  vdot w (mv (mm (tr M) (mm U M)) w) =
  A * vdot n1 w * vdot n1 w + B * vdot n2 w * vdot n2 w + C * vdot n3 w * vdot n3 w + 2 * D * vdot n1 w * vdot n2 w + 2 * E * vdot n1 w * vdot n3 w + 2 * F * vdot n2 w * vdot n3 w.
Proof. cbv zeta. vring. Qed.
Lemma form_sym A B C D E F M : let U := M3 A D E D B F E F C in tr (mm (tr M) (mm U M)) = mm (tr M) (mm U M).
Proof. cbv zeta. vring. Qed.
Lemma form_iso k w : vdot w (mv (M3 k 0 0 0 k 0 0 0 k) w) = k * vdot w w.
Proof. vring. Qed.
Lemma getUij_sym sp : tr (getUij sp) = getUij sp.
Proof. unfold getUij. destruct (sp_iso sp); reflexivity. Qed.
Lemma form_id U : mm (tr mid) (mm U mid) = U.
Proof. rewrite tr_id, mm_id_r, mm_id_l. reflexivity. Qed.
Lemma BtoU_div x : x * BtoU = x / (8 * PI ^ 2).
Proof. unfold BtoU. pose proof PI_RGT_0. field. lra. Qed.

Section Adapted.
  Variable c : ocrystal.
  Hypothesis GC : good_cell c.
  Definition olat : lattice := setLatPar lattice0 (oc_a c) (oc_b c) (oc_c c) (180 / PI * oc_al c) (180 / PI * oc_be c) (180 / PI * oc_ga c).
  Lemma olat_built : exists C, built olat C.
  Proof. eexists. apply setLatPar_built; [apply (b_rot _ _ lattice0_built)|exact GC]. Qed.
  Lemma olat_cell : crystal_cell c olat.
  Proof.
    destruct olat_built as [C HB]. pose proof (built_consistent _ _ HB) as K. pose proof PI_RGT_0. split; [exact K|].
    repeat split; try reflexivity.
    - rewrite (k_alpha _ K). unfold olat. cbn [alpha setLatPar]. field. lra.
    - rewrite (k_beta _ K). unfold olat. cbn [beta setLatPar]. field. lra.
    - rewrite (k_gamma _ K). unfold olat. cbn [gamma setLatPar]. field. lra.
  Qed.
  Lemma olat_nb : normbase olat = rows (recip_scaled (Lva olat) (Lvar olat)) (recip_scaled (Lvb olat) (Lvbr olat)) (recip_scaled (Lvc olat) (Lvcr olat)).
  Proof.
    destruct olat_built as [C HB]. pose proof (built_consistent _ _ HB) as K. unfold recip_scaled.
    rewrite (k_ar _ K), (k_br _ K), (k_cr _ K), (b_nb _ _ HB), (b_va _ _ HB), (b_vb _ _ HB), (b_vc _ _ HB), (b_sc _ _ HB). reflexivity.
  Qed.
  Lemma atom_ok s sp : sc_pow s = Some sp -> exists a, crystal_atom olat s = [a] /\ atom_for olat sp (sc_occ s) (sc_xyz s) a.
  Proof.
    intros E. unfold crystal_atom. rewrite E. eexists. split; [reflexivity|]. unfold atom_for. cbn [c_xyz c_occ c_type c_anis c_uij].
    destruct olat_built as [C HB]. pose proof (built_consistent _ _ HB) as K.
    split; [apply cart_lin; exact K|]. do 3 (split; [reflexivity|]). unfold b_form, getUij. destruct (sp_iso sp); cbn [negb].
    - split; [reflexivity|]. intros w. rewrite form_iso, BtoU_div. unfold Rdiv. ring.
    - unfold cartesianMatrix. rewrite olat_nb. split; [apply form_sym|]. intros w. rewrite form_normbase, !BtoU_div. unfold Rdiv. ring.
  Qed.
  Lemma atoms_ok l : Forall2 (fun ps a => atom_for olat (fst ps) (sc_occ (snd ps)) (sc_xyz (snd ps)) a)
    (flat_map (fun s => match sc_pow s with Some p => [(p, s)] | None => [] end) l) (flat_map (crystal_atom olat) l).
  Proof.
    induction l as [|s l IH]; [constructor|]. cbn [flat_map]. destruct (sc_pow s) as [p|] eqn:E.
    - destruct (atom_ok s p E) as (a & -> & HA). cbn [app]. constructor; auto.
    - unfold crystal_atom at 1. rewrite E. exact IH.
  Qed.
  Lemma adds_ops l : forall x, xrun x (map XAddOp l ++ [XUpdate]) =
    updateSymmetryPositions (mkCr (x_atoms x) (x_lat x) (x_ops x ++ l) (x_prec x) (x_sym x) (match l with [] => x_cached x | _ => false end)).
  Proof.
    unfold xrun. induction l as [|o l IH]; intros x.
    - destruct x. cbn. now rewrite app_nil_r.
    - cbn [map app fold_left]. rewrite IH. cbn [xstep fst x_atoms x_lat x_ops x_prec x_sym x_cached]. rewrite <- app_assoc. cbn [app]. destruct l; reflexivity.
  Qed.
  Lemma adapted junk x : adaptCrystal junk c = Some x -> exists ops, fetchSymmetryOperations junk (oc_sg c) = Some ops /\
    x = updateSymmetryPositions (mkCr (flat_map (crystal_atom olat) (oc_comps c)) olat ops (5 / 100000) [] false).
  Proof.
    unfold adaptCrystal. fold olat. destruct (fetchSymmetryOperations junk (oc_sg c)) as [ops|]; [|discriminate]. intros H. injection H as <-. exists ops. split; [reflexivity|].
    change (xrun crystal0 (XLattice olat :: XAtoms (flat_map (crystal_atom olat) (oc_comps c)) :: map XAddOp ops ++ [XUpdate])) with
      (xrun (fst (xstep (fst (xstep crystal0 (XLattice olat))) (XAtoms (flat_map (crystal_atom olat) (oc_comps c))))) (map XAddOp ops ++ [XUpdate])).
    rewrite adds_ops. cbn [xstep fst x_atoms x_lat x_ops x_prec x_sym x_cached crystal0 app]. destruct ops; reflexivity.
  Qed.
End Adapted.

Lemma operations junk g : plain_group g \/ centrosymmetric_group g ->
  exists l, fetchSymmetryOperations junk g = Some l /\ operations_of g l /\ length l = sg_nbsym g.
Proof.
  intros [H|H].
  - exists (centred g). split; [now apply fetch_plain|]. split; [left; auto|]. rewrite centred_length. destruct H as (_ & _ & ->). reflexivity.
  - eexists. split; [now apply fetch_centro|]. split.
    + right. split; [exact H|]. eexists. split; [reflexivity|]. generalize (centred g). induction l as [|o l IH]; constructor; auto. apply flip_inverted.
    + rewrite app_length, map_length, centred_length. destruct H as (_ & _ & ->). lia.
Qed.
Lemma molecule m : Forall2 molatom_for (filter (fun a => negb (ma_dummy a)) m) (adaptMolecule m).
Proof.
  induction m as [|a m IH]; [constructor|]. unfold adaptMolecule. cbn [filter flat_map]. fold (adaptMolecule m). destruct (ma_dummy a); cbn [negb app]; [exact IH|].
  constructor; [|exact IH]. unfold molatom_for. cbn [c_xyz c_occ c_type c_anis c_uij]. do 4 (split; [reflexivity|]). split; [apply getUij_sym|]. intros w.
  unfold b_form. destruct (sp_iso (ma_pow a)) eqn:EI.
  - unfold getUij. rewrite EI. rewrite form_iso, BtoU_div. unfold Rdiv. ring.
  - unfold getUij. rewrite EI. rewrite <- (form_id (M3 _ _ _ _ _ _ _ _ _)). change mid with (rows (V3 1 0 0) (V3 0 1 0) (V3 0 0 1)). rewrite form_normbase, !BtoU_div. unfold Rdiv. ring.
Qed.
