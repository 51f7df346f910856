(** Proofs about gradients(): the derivative of the total overlap with respect to the position of a site. *)
From Coq Require Import String.
From Verif Require Import RBase R3 Lattice BondGen Overlap OverlapSpec OverlapProofs OverlapFlip.
Open Scope R_scope.

Lemma nth_addtov rv i x j : (i < length rv)%nat -> nth j (addtov rv i x) vzero = if (i =? j)%nat then vadd (nth i rv vzero) x else nth j rv vzero.
Proof.
  intros H. unfold addtov. rewrite nth_upd. replace (i <? length rv)%nat with true by (symmetry; now apply Nat.ltb_lt). now rewrite andb_true_r.
Qed.
Lemma vdot_add u v w : vdot (vadd u v) w = vdot u w + vdot v w. Proof. vring. Qed.
Lemma vdot_scale k u w : vdot (vscale k u) w = k * vdot u w. Proof. vring. Qed.
Section AccumV.
  Context {A : Type} (p : A -> bool) (s : A -> nat) (f : A -> vec) (n : nat) (u : vec).
  Lemma accumv (l : list A) : Forall (fun x => (s x < n)%nat) l -> forall rv, length rv = n ->
    let rv' := fold_left (fun rv x => if p x then addtov rv (s x) (f x) else rv) l rv in
    length rv' = n /\ forall i, vdot (nth i rv' vzero) u = vdot (nth i rv vzero) u + sumf (fun x => vdot (f x) u) (filter (fun x => (s x =? i)%nat && p x) l).
  Proof.
    induction l as [|x l IH]; intros HF rv HL rv'.
    - split; auto. intros i. subst rv'. cbn [fold_left filter]. rewrite sumf_nil. ring.
    - apply Forall_cons_iff in HF as [Hx HF]. subst rv'. cbn [fold_left filter].
      destruct (p x) eqn:P.
      + edestruct IH as [H1 H2]; [auto| |split; [exact H1|]].
        { unfold addtov. now rewrite upd_length. }
        intros i. rewrite H2, nth_addtov by now rewrite HL.
        rewrite andb_true_r. destruct (Nat.eqb_spec (s x) i) as [<-|]; cbn [filter]; [rewrite sumf_cons, vdot_add|]; ring.
      + edestruct IH as [H1 H2]; [auto|exact HL|split; [exact H1|]].
        intros i. rewrite H2, andb_false_r. reflexivity.
  Qed.
End AccumV.

(** ** One dimension *)
Lemma sqr_plus_deriv x : derivable_pt_lim (fun y => (Rmax 0 y)²) x (2 * Rmax 0 x).
Proof.
  destruct (total_order_T x 0) as [[H|E]|H]; [|subst x|].
  - rewrite (Rmax_left 0 x) by lra. replace (2 * 0) with 0 by ring. intros e He.
    assert (0 < - x) as Hd by lra. exists (mkposreal _ Hd). cbn. intros h Hh Hx.
    rewrite !Rmax_left; [|lra|apply Rabs_def2 in Hx; lra]. unfold Rsqr. replace ((0 * 0 - 0 * 0) / h - 0) with 0 by (field; auto). now rewrite Rabs_R0.
  - rewrite (Rmax_left 0 0) by lra. replace (2 * 0) with 0 by ring. intros e He. exists (mkposreal _ He). cbn. intros h Hh Hx.
    rewrite Rplus_0_l, (Rmax_left 0 0) by lra. unfold Rsqr. replace ((Rmax 0 h * Rmax 0 h - 0 * 0) / h - 0) with (Rmax 0 h * Rmax 0 h / h) by (field; auto).
    unfold Rmax. destruct (Rle_dec 0 h).
    + replace (h * h / h) with h by (field; auto). exact Hx.
    + replace (0 * 0 / h) with 0 by (field; auto). now rewrite Rabs_R0.
  - rewrite (Rmax_right 0 x) by lra. intros e He. destruct (derivable_pt_lim_Rsqr x e He) as [d Hd].
    assert (0 < Rmin d x) as HM by (apply Rmin_pos; [apply d|exact H]). exists (mkposreal _ HM). cbn. intros h Hh Hx.
    rewrite !Rmax_right; [|lra|]. 
    + apply Hd; auto. eapply Rlt_le_trans; [exact Hx|apply Rmin_l].
    + assert (Rabs h < x) as Q by (eapply Rlt_le_trans; [exact Hx|apply Rmin_r]). apply Rabs_def2 in Q. lra.
Qed.
Lemma deriv_ext f g x l : (forall y, f y = g y) -> derivable_pt_lim f x l -> derivable_pt_lim g x l.
Proof. intros E H e He. destruct (H e He) as [d Hd]. exists d. intros h Hh Hx. rewrite <- !E. now apply Hd. Qed.
Lemma deriv_eq f x l l' : l' = l -> derivable_pt_lim f x l' -> derivable_pt_lim f x l.
Proof. now intros ->. Qed.
Lemma norm_deriv v u : 0 < vnorm v -> derivable_pt_lim (fun t => vnorm (vadd v (vscale t u))) 0 (vdot v u / vnorm v).
Proof.
  intros H. assert (Hd : 0 < vdot v v).
  { unfold vnorm in H. destruct (Rle_lt_dec (vdot v v) 0) as [L|L]; auto. rewrite sqrt_neg_0 in H by auto. lra. }
  apply (deriv_ext (fun t => sqrt (vdot v v + 2 * vdot v u * t + vdot u u * (t * t)))).
  { intros t. unfold vnorm. f_equal. vring. }
  replace (vdot v u / vnorm v) with (/ (2 * sqrt (vdot v v + 2 * vdot v u * 0 + vdot u u * (0 * 0))) * (2 * vdot v u)).
  2:{ replace (vdot v v + 2 * vdot v u * 0 + vdot u u * (0 * 0)) with (vdot v v) by ring. fold (vnorm v). field. lra. }
  apply (derivable_pt_lim_comp (fun t => vdot v v + 2 * vdot v u * t + vdot u u * (t * t)) sqrt).
  - apply (deriv_eq _ _ _ (0 + 2 * vdot v u * 1 + vdot u u * (1 * 0 + 0 * 1))); [ring|].
    apply (derivable_pt_lim_plus (fun t => vdot v v + 2 * vdot v u * t) (fun t => vdot u u * (t * t))).
    + apply (derivable_pt_lim_plus (fun _ => vdot v v) (fun t => 2 * vdot v u * t)); [apply derivable_pt_lim_const|].
      apply (derivable_pt_lim_scal (fun t => t)). apply derivable_pt_lim_id.
    + apply (derivable_pt_lim_scal (fun t => t * t)). apply (derivable_pt_lim_mult (fun t => t) (fun t => t)); apply derivable_pt_lim_id.
  - apply derivable_pt_lim_sqrt. replace (vdot v v + 2 * vdot v u * 0 + vdot u u * (0 * 0)) with (vdot v v) by ring. exact Hd.
Qed.
Lemma overlap_deriv v u s : 0 < vnorm v ->
  derivable_pt_lim (fun t => (Rmax 0 (s - vnorm (vadd v (vscale t u))))²) 0 (- 2 * Rmax 0 (s - vnorm v) / vnorm v * vdot v u).
Proof.
  intros H. assert (E0 : vadd v (vscale 0 u) = v) by (clear; vring).
  replace (- 2 * Rmax 0 (s - vnorm v) / vnorm v * vdot v u) with (2 * Rmax 0 (s - vnorm (vadd v (vscale 0 u))) * (0 - vdot v u / vnorm v)).
  2:{ rewrite E0. field. lra. }
  apply (derivable_pt_lim_comp (fun t => s - vnorm (vadd v (vscale t u))) (fun y => (Rmax 0 y)²)).
  - apply (derivable_pt_lim_minus (fun _ => s) (fun t => vnorm (vadd v (vscale t u)))); [apply derivable_pt_lim_const|now apply norm_deriv].
  - apply sqr_plus_deriv.
Qed.
Lemma sumf_deriv {A} (f : A -> R -> R) (g : A -> R) l x : (forall a, In a l -> derivable_pt_lim (f a) x (g a)) ->
  derivable_pt_lim (fun t => sumf (fun a => f a t) l) x (sumf g l).
Proof.
  induction l as [|a l IH]; intros H.
  - apply (deriv_ext (fun _ => 0)); [reflexivity|]. apply derivable_pt_lim_const.
  - apply (deriv_ext (fun t => f a t + sumf (fun a => f a t) l)); [reflexivity|]. rewrite sumf_cons.
    apply (derivable_pt_lim_plus (f a) (fun t => sumf (fun a => f a t) l)); [apply H; now left|apply IH; intros; apply H; now right].
Qed.

(** sums of a function of the bond, seen from the other end *)
Lemma sum_flipped (f : nat * nat * R * vec -> R) bs : Permutation (map arrow bs) (map flipped bs) ->
  sumf (fun b => f (arrow b)) bs = sumf (fun b => f (flipped b)) bs.
Proof. intros H. rewrite <- (sumf_map arrow f), <- (sumf_map flipped f). now apply sumf_perm. Qed.

Lemma mv1 v x : v = vadd v (vsub x x). Proof. vring. Qed.
Lemma mv2 v x : vadd v x = vadd v (vsub x vzero). Proof. vring. Qed.
Lemma mv3 v t u : vadd v (vscale t (vscale (-1) u)) = vadd v (vsub vzero (vscale t u)). Proof. vring. Qed.
Lemma dot_neg v u : vdot v (vscale (-1) u) = - vdot v u. Proof. vring. Qed.
Theorem gradient_main S lk c ops q : Forall (call_ok S) ops ->
  (forall i, (i < o_n S)%nat -> o_occ S i = q /\ o_mult S i = 1%nat) ->
  let c' := orun S lk (resetValue S lk c) ops in
  let bs := counted ops in
  let r := radius_of S lk in
  (forall b, In b bs -> b_distance b = vnorm (b_r01 b) /\ 0 < b_distance b) ->
  Permutation (map arrow bs) (map flipped bs) ->
  length (gradients S c') = o_n S /\
  forall k u, (k < o_n S)%nat ->
    derivable_pt_lim (fun t => moved_total S r bs k (vscale t u)) 0 (q * q * vdot (nth k (gradients S c') vzero) u).
Proof.
  intros HO H1 c' bs r HD HP. destruct (run_state S lk c ops HO) as (HV & HB & HR & _). fold c' bs in HV, HB. fold c' in HR.
  assert (OV : forall b, In b bs -> overlap (siteradius c') b = overlap r b).
  { intros b Hb. apply overlap_radius; auto. rewrite Forall_forall in HB. auto. }
  assert (EG : gradients S c' = fold_left (fun rv b => if overlapping (siteradius c') b then addtov rv (b_site1 b)
     (vscale (-2 * overlap (siteradius c') b / b_distance b) (b_r01 b)) else rv) bs (repeat vzero (o_n S))).
  { unfold gradients. rewrite (count_view c' bs HV). apply fold_seq. intros k b rv Hk. cbv zeta.
    rewrite (overlap_view0 c' bs HV k b), leb_overlap, (dist_view c' bs HV k b), (site1_view c' bs HV k b), (dir_view c' bs HV k b) by auto.
    destruct (overlapping (siteradius c') b); reflexivity. }
  assert (S1 : Forall (fun b => (b_site1 b < o_n S)%nat) bs) by (eapply Forall_impl; [|exact HB]; intros b [_ Q]; exact Q).
  split.
  { rewrite EG. apply (accumv _ _ _ _ vzero bs S1). apply repeat_length. }
  intros k u Hk. rewrite EG.
  destruct (accumv (overlapping (siteradius c')) b_site1 (fun b => vscale (-2 * overlap (siteradius c') b / b_distance b) (b_r01 b)) (o_n S) u bs S1 (repeat vzero (o_n S)) (repeat_length _ _)) as [_ HG].
  rewrite HG, nth_repeat0. clear HG EG. replace (vdot vzero u) with 0 by (destruct u; unfold vdot, vzero; cbn; ring). rewrite Rplus_0_l, sumf_filter.
  set (w := fun b => overlap r b / b_distance b * vdot (b_r01 b) u).
  rewrite (sumf_ext _ (fun b => if (b_site1 b =? k)%nat then -2 * w b else 0)).
  2:{ intros b Hb. unfold overlapping. rewrite OV by auto. destruct (b_site1 b =? k)%nat; cbn [andb]; [|reflexivity].
      destruct (Rltb 0 (overlap r b)) eqn:P; [rewrite vdot_scale; unfold w; field; apply HD in Hb; lra|].
      unfold w. replace (overlap r b) with 0 by (symmetry; apply not_overlapping; exact P). field. apply HD in Hb. lra. }
  (* seen from the other end *)
  set (W := fun a : nat * nat * R * vec => let '(i, j, d, v) := a in if (j =? k)%nat && negb (i =? k)%nat then Rmax 0 (r i + r j - d) / d * vdot v u else 0).
  set (W2 := fun a : nat * nat * R * vec => let '(i, j, d, v) := a in if (j =? k)%nat && (i =? k)%nat then Rmax 0 (r i + r j - d) / d * vdot v u else 0).
  pose proof (sum_flipped W bs HP) as EW. pose proof (sum_flipped W2 bs HP) as EW2.
  assert (Wf : forall b, W (flipped b) = if (b_site0 b =? k)%nat && negb (b_site1 b =? k)%nat then - w b else 0).
  { intros b. unfold W, flipped, w, overlap. destruct ((b_site0 b =? k)%nat && negb (b_site1 b =? k)%nat); [|reflexivity].
    rewrite vdot_scale, (Rplus_comm (r (b_site1 b))). unfold Rdiv. ring. }
  assert (Wa : forall b, W (arrow b) = if (b_site1 b =? k)%nat && negb (b_site0 b =? k)%nat then w b else 0) by reflexivity.
  assert (W2a : forall b, W2 (arrow b) = if (b_site1 b =? k)%nat && (b_site0 b =? k)%nat then w b else 0) by reflexivity.
  assert (W2f : forall b, W2 (flipped b) = -1 * (if (b_site1 b =? k)%nat && (b_site0 b =? k)%nat then w b else 0)).
  { intros b. unfold W2, flipped, w, overlap. rewrite (andb_comm (b_site0 b =? k)%nat). destruct ((b_site1 b =? k)%nat && (b_site0 b =? k)%nat); [|ring].
    rewrite vdot_scale, (Rplus_comm (r (b_site1 b))). unfold Rdiv. ring. }
  rewrite (sumf_ext _ _ bs (fun b _ => Wa b)), (sumf_ext _ _ bs (fun b _ => Wf b)) in EW.
  rewrite (sumf_ext _ _ bs (fun b _ => W2a b)), (sumf_ext _ _ bs (fun b _ => W2f b)), sumf_scale in EW2.
  set (g := fun b => if (b_site1 b =? k)%nat then (if (b_site0 b =? k)%nat then 0 else - w b) else (if (b_site0 b =? k)%nat then w b else 0)).
  replace (sumf _ bs) with (sumf g bs).
  2:{ transitivity (-1 * sumf (fun b => if (b_site1 b =? k)%nat && negb (b_site0 b =? k)%nat then w b else 0) bs
        + -1 * sumf (fun b => if (b_site0 b =? k)%nat && negb (b_site1 b =? k)%nat then - w b else 0) bs).
      - rewrite <- !sumf_scale, <- sumf_plus. apply sumf_ext. intros b _. unfold g. destruct (b_site1 b =? k)%nat, (b_site0 b =? k)%nat; cbn; ring.
      - rewrite <- EW. transitivity (-2 * sumf (fun b => if (b_site1 b =? k)%nat && negb (b_site0 b =? k)%nat then w b else 0) bs
          + -2 * sumf (fun b => if (b_site1 b =? k)%nat && (b_site0 b =? k)%nat then w b else 0) bs); [lra|].
        rewrite <- !sumf_scale, <- sumf_plus. apply sumf_ext. intros b _. destruct (b_site1 b =? k)%nat, (b_site0 b =? k)%nat; cbn; ring. }
  apply (deriv_ext (fun t => q * q * sumf (fun b => / 2 * (Rmax 0 (r (b_site0 b) + r (b_site1 b) - moved_distance k (vscale t u) b))²) bs)).
  { intros t. unfold moved_total, Rdiv. rewrite (Rmult_comm _ (/ 2)), <- !sumf_scale. apply sumf_ext. intros b Hb.
    rewrite Forall_forall in HB. destruct (HB b Hb) as [B0 B1]. destruct (H1 _ B0) as [-> ->], (H1 _ B1) as [-> _]. cbn [INR]. ring. }
  apply (derivable_pt_lim_scal (fun t => sumf (fun b => / 2 * (Rmax 0 (r (b_site0 b) + r (b_site1 b) - moved_distance k (vscale t u) b))²) bs)).
  apply sumf_deriv. intros b Hb. destruct (HD b Hb) as [E0 P0]. unfold moved_distance, g.
  assert (EO : overlap r b = Rmax 0 (r (b_site0 b) + r (b_site1 b) - vnorm (b_r01 b))) by (unfold overlap; now rewrite E0).
  destruct (Nat.eqb_spec (b_site1 b) k) as [Q1|Q1], (Nat.eqb_spec (b_site0 b) k) as [Q0|Q0].
  - apply (deriv_ext (fun _ => / 2 * (overlap r b)²)).
    { intros t. rewrite EO. now rewrite <- mv1. }
    apply derivable_pt_lim_const.
  - replace (- w b) with (/ 2 * (- 2 * overlap r b / vnorm (b_r01 b) * vdot (b_r01 b) u)) by (unfold w; rewrite E0; field; lra).
    apply (deriv_ext (fun t => / 2 * (Rmax 0 (r (b_site0 b) + r (b_site1 b) - vnorm (vadd (b_r01 b) (vscale t u))))²)).
    { intros t. now rewrite mv2. }
    apply (derivable_pt_lim_scal (fun t => (Rmax 0 (r (b_site0 b) + r (b_site1 b) - vnorm (vadd (b_r01 b) (vscale t u))))²)).
    rewrite EO. apply overlap_deriv. lra.
  - replace (w b) with (/ 2 * (- 2 * overlap r b / vnorm (b_r01 b) * vdot (b_r01 b) (vscale (-1) u))).
    2:{ unfold w. replace (vdot (b_r01 b) (vscale (-1) u)) with (- vdot (b_r01 b) u) by (symmetry; apply dot_neg). rewrite E0. field. lra. }
    apply (deriv_ext (fun t => / 2 * (Rmax 0 (r (b_site0 b) + r (b_site1 b) - vnorm (vadd (b_r01 b) (vscale t (vscale (-1) u)))))²)).
    { intros t. now rewrite mv3. }
    apply (derivable_pt_lim_scal (fun t => (Rmax 0 (r (b_site0 b) + r (b_site1 b) - vnorm (vadd (b_r01 b) (vscale t (vscale (-1) u)))))²)).
    rewrite EO. apply overlap_deriv. lra.
  - apply (deriv_ext (fun _ => / 2 * (overlap r b)²)).
    { intros t. rewrite EO. now rewrite <- mv1. }
    apply derivable_pt_lim_const.
Qed.
