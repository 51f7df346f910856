(** Proofs about the overlap calculator: the flat array, totals, flips, coordinations. *)
From Coq Require Import String Relations.
From Verif Require Import RBase R3 Lattice BondGen Overlap OverlapSpec.
Open Scope R_scope.

(** ** Loops over indices *)
Lemma fold_seq {A B} (f : B -> nat -> B) (g : B -> A -> B) l :
  (forall k x a, nth_error l k = Some x -> f a k = g a x) -> forall a, fold_left f (seq 0 (length l)) a = fold_left g l a.
Proof.
  intros H. induction l as [|x l IH] using rev_ind; intros a; [reflexivity|].
  rewrite app_length. cbn [length]. rewrite Nat.add_1_r, seq_S, !fold_left_app. cbn [fold_left].
  rewrite IH; [apply H; rewrite nth_error_app2, Nat.sub_diag by lia; reflexivity|].
  intros k y a' Hk. apply H. rewrite nth_error_app1; auto. apply nth_error_Some. congruence.
Qed.
Lemma flatmap_seq {A B} (f : nat -> list B) (g : A -> list B) l :
  (forall k x, nth_error l k = Some x -> f k = g x) -> flat_map f (seq 0 (length l)) = flat_map g l.
Proof.
  intros H. induction l as [|x l IH] using rev_ind; [reflexivity|].
  rewrite app_length. cbn [length]. rewrite Nat.add_1_r, seq_S, !flat_map_app. cbn [flat_map]. rewrite !app_nil_r.
  f_equal; [apply IH|apply H; rewrite nth_error_app2, Nat.sub_diag by lia; reflexivity].
  intros k y Hk. apply H. rewrite nth_error_app1; auto. apply nth_error_Some. congruence.
Qed.
Lemma flatmap_filter {A B} (p : A -> bool) (f : A -> B) l : flat_map (fun x => if p x then [f x] else []) l = map f (filter p l).
Proof. induction l as [|x l IH]; [reflexivity|]. cbn. rewrite IH. destruct (p x); reflexivity. Qed.

(** ** The flat array *)
Lemma chunks_length bs : length (flat_map chunk bs) = (6 * length bs)%nat.
Proof. induction bs as [|b bs IH]; [reflexivity|]. cbn [flat_map]. rewrite app_length, IH. cbn [length chunk]. lia. Qed.
Lemma chunks_nth bs k b o : nth_error bs k = Some b -> (o < 6)%nat -> nth (o + 6 * k) (flat_map chunk bs) 0 = nth o (chunk b) 0.
Proof.
  revert k; induction bs as [|x bs IH]; intros [|k] H Ho; try discriminate.
  - injection H as ->. cbn [flat_map]. rewrite Nat.mul_0_r, Nat.add_0_r, app_nth1; [reflexivity|]. exact Ho.
  - cbn [flat_map]. rewrite app_nth2; cbn [length chunk]; [|lia].
    replace (o + 6 * S k - 6)%nat with (o + 6 * k)%nat by lia. apply IH; auto.
Qed.
Lemma to_int_INR n : to_int (INR n) = n.
Proof.
  unfold to_int. rewrite INR_IZR_INZ. replace (Rfloor (IZR (Z.of_nat n))) with (Z.of_nat n); [lia|].
  pose proof (Rfloor_spec (IZR (Z.of_nat n))) as [H1 H2]. apply le_IZR in H1.
  rewrite <- plus_IZR in H2. apply lt_IZR in H2. lia.
Qed.

Section View.
  Context (c : ocalc) (bs : list bond) (HV : mvalue c = flat_map chunk bs).
  Lemma count_view : count c = length bs.
  Proof. unfold count. rewrite HV, chunks_length. change CHUNK_SIZE with 6%nat. rewrite Nat.mul_comm. apply Nat.div_mul. lia. Qed.
  Lemma subvalue_view k b o : nth_error bs k = Some b -> (o < 6)%nat -> subvalue c o k = nth o (chunk b) 0.
  Proof. intros. unfold subvalue. rewrite HV. apply chunks_nth; auto. Qed.
  Lemma site0_view k b : nth_error bs k = Some b -> to_int (subvalue c SITE0_OFFSET k) = b_site0 b.
  Proof. intros H. rewrite (subvalue_view k b) by (auto; unfold SITE0_OFFSET; lia). apply to_int_INR. Qed.
  Lemma site1_view k b : nth_error bs k = Some b -> to_int (subvalue c SITE1_OFFSET k) = b_site1 b.
  Proof. intros H. rewrite (subvalue_view k b) by (auto; unfold SITE1_OFFSET; lia). apply to_int_INR. Qed.
  Lemma dist_view k b : nth_error bs k = Some b -> subvalue c DISTANCE_OFFSET k = b_distance b.
  Proof. intros H. rewrite (subvalue_view k b) by (auto; unfold DISTANCE_OFFSET; lia). reflexivity. Qed.
  Lemma dir_view k b : nth_error bs k = Some b -> subdirection c k = b_r01 b.
  Proof.
    intros H. unfold subdirection. rewrite !(subvalue_view k b) by (auto; unfold DIRECTION0_OFFSET, DIRECTION1_OFFSET, DIRECTION2_OFFSET; lia).
    cbn. destruct (b_r01 b); reflexivity.
  Qed.
  Lemma rad_flip i j x : (if (i =? j)%nat then siteradius c x else if (x =? i)%nat then siteradius c j
     else if (x =? j)%nat then siteradius c i else siteradius c x) = swap (siteradius c) i j x.
  Proof. unfold swap. destruct (Nat.eqb_spec i j) as [->|]; [|reflexivity]. destruct (Nat.eqb_spec x j) as [->|]; reflexivity. Qed.
  Lemma sub_max x y : (if Rltb x y then y - x else 0) = Rmax 0 (y - x).
  Proof.
    destruct (Rltb x y) eqn:E; [apply Rltb_true in E|apply Rltb_false in E]; unfold Rmax; destruct (Rle_dec 0 (y - x)); lra.
  Qed.
  Lemma overlap_view k b i j : nth_error bs k = Some b -> suboverlap c k i j = overlap (swap (siteradius c) i j) b.
  Proof.
    intros H. unfold suboverlap. rewrite (site0_view k b), (site1_view k b), (dist_view k b), !rad_flip by auto. apply sub_max.
  Qed.
  Lemma swap_same r i k : swap r i i k = r k.
  Proof. unfold swap. destruct (Nat.eqb_spec k i) as [->|]; reflexivity. Qed.
  Lemma overlap_ext r r' b : (forall k, r k = r' k) -> overlap r b = overlap r' b.
  Proof. intros H. unfold overlap. now rewrite !H. Qed.
  Lemma overlap_view0 k b : nth_error bs k = Some b -> suboverlap c k 0 0 = overlap (siteradius c) b.
  Proof. intros H. rewrite (overlap_view k b) by auto. apply overlap_ext. intros; apply swap_same. Qed.
  Lemma overlap_nonneg r b : 0 <= overlap r b.
  Proof. unfold overlap. apply Rmax_l. Qed.
  Lemma leb_overlap r b : Rleb (overlap r b) 0 = negb (overlapping r b).
  Proof.
    unfold overlapping. destruct (Rltb 0 (overlap r b)) eqn:E; cbn.
    - apply Rltb_true in E. now apply Rleb_false.
    - apply Rltb_false in E. now apply Rleb_true.
  Qed.
  Lemma not_overlapping r b : overlapping r b = false -> overlap r b = 0.
  Proof. unfold overlapping. rewrite Rltb_false. pose proof (overlap_nonneg r b). lra. Qed.
  Let r := siteradius c.

  Lemma overlaps_view : overlaps c = map (overlap r) (filter (overlapping r) bs).
  Proof.
    unfold overlaps. rewrite count_view, <- flatmap_filter. apply flatmap_seq. intros k b Hk.
    cbv zeta. rewrite (overlap_view0 k b) by auto. rewrite leb_overlap. fold r. destruct (overlapping r b); reflexivity.
  Qed.
  Lemma subvector_view o : (o < 6)%nat -> subvector c o = map (fun b => nth o (chunk b) 0) (filter (overlapping r) bs).
  Proof.
    intros Ho. unfold subvector. rewrite count_view, <- flatmap_filter. apply flatmap_seq. intros k b Hk.
    rewrite (overlap_view0 k b) by auto. rewrite leb_overlap, (subvalue_view k b) by auto. fold r. destruct (overlapping r b); reflexivity.
  Qed.
  Lemma distances_view : distances c = map b_distance (filter (overlapping r) bs).
  Proof. unfold distances. rewrite subvector_view by (unfold DISTANCE_OFFSET; lia). reflexivity. Qed.
  Lemma sites0_view : sites0 c = map b_site0 (filter (overlapping r) bs).
  Proof. unfold sites0. rewrite subvector_view by (unfold SITE0_OFFSET; lia). rewrite map_map. apply map_ext. intros b. apply to_int_INR. Qed.
  Lemma sites1_view : sites1 c = map b_site1 (filter (overlapping r) bs).
  Proof. unfold sites1. rewrite subvector_view by (unfold SITE1_OFFSET; lia). rewrite map_map. apply map_ext. intros b. apply to_int_INR. Qed.
  Lemma directions_view : directions c = map b_r01 (filter (overlapping r) bs).
  Proof.
    unfold directions. rewrite count_view, <- flatmap_filter. apply flatmap_seq. intros k b Hk.
    rewrite (overlap_view0 k b) by auto. rewrite leb_overlap, (dir_view k b) by auto. fold r. destruct (overlapping r b); reflexivity.
  Qed.
End View.

(** ** Accumulation into a vector *)
Lemma nth_repeat0 {A} (d : A) n i : nth i (repeat d n) d = d.
Proof. revert i; induction n; intros [|i]; cbn; auto. Qed.
Lemma nth_upd {A} (d : A) i j x l : nth j (upd i x l) d = if (i =? j)%nat && (i <? length l)%nat then x else nth j l d.
Proof.
  destruct (nth_error (upd i x l) j) eqn:E.
  - erewrite nth_error_nth by eassumption. rewrite nth_error_upd in E.
    destruct (Nat.eqb_spec i j) as [<-|]; cbn [andb].
    + destruct (Nat.ltb i (length l)); congruence.
    + symmetry. now apply nth_error_nth.
  - rewrite nth_overflow by now apply nth_error_None. apply nth_error_None in E. rewrite upd_length in E.
    destruct (Nat.eqb_spec i j) as [<-|]; cbn [andb]; [destruct (Nat.ltb_spec i (length l)); [lia|]|]; symmetry; now apply nth_overflow.
Qed.
Section Accum.
  Context {A : Type} (p : A -> bool) (s : A -> nat) (f : A -> R) (n : nat).
  Lemma accum_fold (l : list A) : Forall (fun x => (s x < n)%nat) l -> forall rv, length rv = n ->
    let rv' := fold_left (fun rv x => if p x then addto rv (s x) (f x) else rv) l rv in
    length rv' = n /\ forall i, nth i rv' 0 = nth i rv 0 + sumf f (filter (fun x => (s x =? i)%nat && p x) l).
  Proof.
    induction l as [|x l IH]; intros HF rv HL rv'.
    - split; auto. intros i. subst rv'. cbn [fold_left filter]. rewrite sumf_nil. ring.
    - apply Forall_cons_iff in HF as [Hx HF]. subst rv'. cbn [fold_left filter].
      destruct (p x) eqn:P.
      + edestruct IH as [H1 H2]; [auto| |split; [exact H1|]].
        { unfold addto. now rewrite upd_length. }
        intros i. rewrite H2. unfold addto at 1. rewrite nth_upd, HL. replace (s x <? n)%nat with true by (symmetry; now apply Nat.ltb_lt).
        rewrite !andb_true_r. destruct (Nat.eqb_spec (s x) i) as [<-|]; cbn [filter]; [rewrite sumf_cons|]; ring.
      + edestruct IH as [H1 H2]; [auto|exact HL|split; [exact H1|]].
        intros i. rewrite H2, andb_false_r. reflexivity.
  Qed.
End Accum.
Lemma accum_zero {A} (p : A -> bool) (s : A -> nat) (f : A -> R) n l : Forall (fun x => (s x < n)%nat) l ->
  let rv' := fold_left (fun rv x => if p x then addto rv (s x) (f x) else rv) l (repeat 0 n) in
  length rv' = n /\ forall i, nth i rv' 0 = sumf f (filter (fun x => (s x =? i)%nat && p x) l).
Proof.
  intros H rv'. destruct (accum_fold p s f n l H (repeat 0 n) (repeat_length 0 n)) as [H1 H2].
  split; auto. intros i. unfold rv'. rewrite H2, nth_repeat0. ring.
Qed.

Section Totals.
  Context (S : ostru) (c : ocalc) (bs : list bond) (HV : mvalue c = flat_map chunk bs) (HB : Forall (bond_ok S) bs).
  Let r := siteradius c.
  Lemma s0_ok : Forall (fun b => (b_site0 b < o_n S)%nat) bs.
  Proof. eapply Forall_impl; [|exact HB]. intros b [H _]; exact H. Qed.
  Lemma s1_ok : Forall (fun b => (b_site1 b < o_n S)%nat) bs.
  Proof. eapply Forall_impl; [|exact HB]. intros b [_ H]; exact H. Qed.
  Lemma site_square_raw :
    length (siteSquareOverlaps S c) = o_n S /\ forall i, nth i (siteSquareOverlaps S c) 0 = site_square S r bs i.
  Proof.
    unfold siteSquareOverlaps. rewrite (count_view c bs HV).
    rewrite (fold_seq _ (fun rv b => if overlapping r b then addto rv (b_site0 b) (o_occ S (b_site1 b) * (overlap r b)²) else rv)).
    - pose proof (accum_zero (overlapping r) b_site0 (fun b => o_occ S (b_site1 b) * (overlap r b)²) (o_n S) bs s0_ok) as [H1 H2].
      cbv zeta in H1, H2. split; [now rewrite map_length|]. intros i.
      replace 0 with ((fun x => x / 2) 0) at 2 by field. rewrite (map_nth (fun x => x / 2)). rewrite H2. unfold site_square. f_equal.
      rewrite !sumf_filter. apply sumf_ext. intros b _. destruct (b_site0 b =? i)%nat; cbn; [|reflexivity].
      destruct (overlapping r b) eqn:P; [reflexivity|]. rewrite (not_overlapping _ _ P). unfold Rsqr. ring.
    - intros k b rv Hk. cbv zeta. rewrite (overlap_view0 c bs HV k b), leb_overlap, (site0_view c bs HV k b), (site1_view c bs HV k b) by auto.
      fold r. destruct (overlapping r b); cbn; [|reflexivity]. f_equal. unfold Rsqr. ring.
  Qed.
  Lemma total_raw : totalSquareOverlap S c = total_square S r bs.
  Proof.
    unfold totalSquareOverlap. destruct site_square_raw as [_ H].
    cbv zeta. rewrite (fold_plus (fun i => nth i (siteSquareOverlaps S c) 0 * INR (o_mult S i) * o_occ S i)), Rplus_0_l.
    rewrite (sumf_ext _ (fun i => sumf (fun b => if (b_site0 b =? i)%nat then
        (fun i => o_occ S i * o_occ S (b_site1 b) * INR (o_mult S i) * (overlap r b)² / 2) i else 0) bs)).
    2:{ intros i _. rewrite H. unfold site_square. rewrite sumf_filter. unfold Rdiv. rewrite Rmult_comm, <- Rmult_assoc.
        rewrite !(Rmult_comm _ (INR _)), <- !Rmult_assoc, (Rmult_comm _ (/ 2)), <- !Rmult_assoc.
        rewrite <- sumf_scale. apply sumf_ext. intros b _. destruct (b_site0 b =? i)%nat; field. }
    rewrite sumf_swap. unfold total_square, Rdiv. rewrite Rmult_comm, <- sumf_scale. apply sumf_ext. intros b Hb.
    rewrite sumf_pick; [field|]. eapply Forall_forall in HB; [|exact Hb]. apply HB.
  Qed.
  Lemma occ_raw : totalOccupancy S = total_occupancy S.
  Proof. unfold totalOccupancy. rewrite (fold_plus (fun i => o_occ S i * INR (o_mult S i))). unfold total_occupancy. ring. Qed.
  Lemma mean_raw : meanSquareOverlap S c = if Rltb 0 (total_occupancy S) then total_square S r bs / total_occupancy S else 0.
  Proof. unfold meanSquareOverlap. now rewrite occ_raw, total_raw. Qed.
  Lemma coordinations_raw :
    length (coordinations S c) = o_n S /\ forall i, nth i (coordinations S c) 0 = coordination S r bs i.
  Proof.
    unfold coordinations. rewrite (count_view c bs HV).
    rewrite (fold_seq _ (fun rv b => if overlapping r b then addto rv (b_site0 b) (o_occ S (b_site1 b)) else rv)).
    - exact (accum_zero (overlapping r) b_site0 (fun b => o_occ S (b_site1 b)) (o_n S) bs s0_ok).
    - intros k b rv Hk. cbv zeta. rewrite (overlap_view0 c bs HV k b), leb_overlap, (site0_view c bs HV k b), (site1_view c bs HV k b) by auto.
      fold r. destruct (overlapping r b); reflexivity.
  Qed.
End Totals.

(** ** History of calls *)
Lemma counted_app ops o : counted (ops ++ [o]) =
  match o with CReset => [] | CAdd b => counted ops ++ [b] | CMerge bs => counted ops ++ bs | CQuery | CReload => counted ops end.
Proof. unfold counted. now rewrite fold_left_app. Qed.
Lemma orun_app S lk c ops o : orun S lk c (ops ++ [o]) = ostep S lk (orun S lk c ops) o.
Proof. unfold orun. now rewrite fold_left_app. Qed.
Lemma maxradius_ge l x : In x l -> x <= maxradius l.
Proof.
  destruct l as [|y l]; [intros []|]. unfold maxradius.
  assert (G : forall l m, m <= fold_left (fun m y => if Rltb m y then y else m) l m /\
     forall x, In x l -> x <= fold_left (fun m y => if Rltb m y then y else m) l m).
  { clear. induction l as [|z l IH]; intros m; [split; [cbn; lra|intros x []]|]. cbn [fold_left].
    destruct (IH (if Rltb m z then z else m)) as [H1 H2]. split.
    - destruct (Rltb m z) eqn:E; [apply Rltb_true in E|apply Rltb_false in E]; lra.
    - intros x [->|Hx]; [|auto]. destruct (Rltb m x) eqn:E; [apply Rltb_true in E|apply Rltb_false in E]; lra. }
  destruct (G l y) as [G1 G2]. intros [<-|H]; auto.
Qed.
Lemma run_state S lk c ops : Forall (call_ok S) ops -> let c' := orun S lk (resetValue S lk c) ops in
  mvalue c' = flat_map chunk (counted ops) /\ Forall (bond_ok S) (counted ops) /\
  mradii c' = map (radius_of S lk) (seq 0 (o_n S)) /\ mmaxsep c' = 2 * maxradius (mradii c').
Proof.
  induction ops as [|o ops IH] using rev_ind; intros H c'.
  - subst c'. cbn. repeat split; auto.
  - apply Forall_app in H as [H HO]. apply Forall_inv in HO. specialize (IH H). cbv zeta in IH. destruct IH as (I1 & I2 & I3 & I4).
    subst c'. rewrite orun_app, counted_app. destruct o; cbn [ostep].
    + cbn. repeat split; auto.
    + cbn [addPairContribution with_value mvalue mradii mmaxsep]. rewrite I1, flat_map_app. cbn [flat_map]. rewrite app_nil_r.
      repeat split; auto. apply Forall_app; auto.
    + cbn [executeParallelMerge with_value mvalue mradii mmaxsep]. rewrite I1, flat_map_app.
      repeat split; auto. apply Forall_app; auto.
    + unfold fillNeighborIds. destruct (mcached _); cbn [with_nb mvalue mradii mmaxsep]; repeat split; auto.
    + cbn [reload mvalue mradii mmaxsep]. repeat split; auto.
Qed.
Lemma radius_view S lk c i : mradii c = map (radius_of S lk) (seq 0 (o_n S)) -> (i < o_n S)%nat -> siteradius c i = radius_of S lk i.
Proof.
  intros H Hi. unfold siteradius. rewrite H. erewrite nth_error_nth; [reflexivity|].
  rewrite nth_error_map. replace (nth_error (seq 0 (o_n S)) i) with (Some i); [reflexivity|].
  rewrite (nth_error_nth' _ O) by now rewrite seq_length. now rewrite seq_nth.
Qed.
Lemma overlap_radius S lk c b : mradii c = map (radius_of S lk) (seq 0 (o_n S)) -> bond_ok S b ->
  overlap (siteradius c) b = overlap (radius_of S lk) b.
Proof. intros H [H0 H1]. unfold overlap. now rewrite !(radius_view S lk) by auto. Qed.
Lemma maxsep_bound S lk c i j : mradii c = map (radius_of S lk) (seq 0 (o_n S)) -> mmaxsep c = 2 * maxradius (mradii c) ->
  (i < o_n S)%nat -> (j < o_n S)%nat -> radius_of S lk i + radius_of S lk j <= mmaxsep c.
Proof.
  intros H H' Hi Hj. rewrite H'.
  assert (G : forall k, (k < o_n S)%nat -> radius_of S lk k <= maxradius (mradii c)).
  { intros k Hk. apply maxradius_ge. rewrite H. apply in_map. apply in_seq. lia. }
  pose proof (G i Hi). pose proof (G j Hj). lra.
Qed.
