(** C107: lattice points in a sphere in double arithmetic. *)
From Flocq Require Import Core.
From Coq Require Import Reals Lra Lia.
From Coq Require Import Sorting.Sorted.
From Verif Require Import RBase Fp FpConcrete FpSphere FpSphereSpec FpSphereLoop FpSphereProofs FpSphereMain FpSphereMore.
From Verif Require SphereMain.
Import ListNotations.
Open Scope R_scope.

(** Whatever is rounded, the loop ends, it visits each point once and in the same order, every visited point is in the sphere and every point of the
    shell is visited, up to a 2^-30 part of the squared radius. *)
Theorem C107_points_partial : forall Rmin Rmax L, par_ok L -> bpow radix2 (-300) <= Rmax -> exists l,
  visits Rmin Rmax L l /\ StronglySorted lex l /\ NoDup l /\
  (forall p, In p l -> ints p -> len2 L p <= (1 + margin) * (Rmax * Rmax)) /\
  (forall p, ints p -> len2 L p <= (1 - margin) * (Rmax * Rmax) ->
     Rmin <= 0 \/ Rmin * Rmin + margin * (Rmax * Rmax) <= len2 L p -> In p l).
Proof.
  intros Rmin Rmax L HL HW. exists (all_points Rmin Rmax L). pose proof HL as [_ _ HC _ _ _]. pose proof (bpow_gt_0 radix2 (-300)) as P.
  assert (HS : StronglySorted lex (all_points Rmin Rmax L)) by (apply all_sorted; lra).
  split; [now apply visits_all|]. split; [exact HS|]. split.
  { eapply SphereMain.SSorted_NoDup; [|exact HS]. intros [[m n] o] H. cbn in H. lia. }
  split; intros [[m n] o]; [now apply sound|now apply complete].
Qed.
Print Assumptions C107_points_partial.

(** The same in terms of the edges of a cell with right angles. *)
Theorem C107_right_angles_partial : forall Rmin Rmax a b c, edge a -> edge b -> edge c -> bpow radix2 (-300) <= Rmax -> exists l,
  visits Rmin Rmax (box a b c) l /\ NoDup l /\
  (forall p, In p l -> ints p -> box2 a b c p <= (1 + 2 * margin) * (Rmax * Rmax)) /\
  (forall p, ints p -> box2 a b c p <= (1 - 2 * margin) * (Rmax * Rmax) ->
     Rmin <= 0 \/ Rmin * Rmin + 2 * margin * (Rmax * Rmax) <= box2 a b c p -> In p l).
Proof.
  intros Rmin Rmax a b c Ha Hb Hc HW. destruct (C107_points_partial Rmin Rmax (box a b c) (box_ok a b c Ha Hb Hc) HW) as (l & Hl & _ & Hd & Hs & Hcp).
  exists l. split; [exact Hl|]. split; [exact Hd|]. pose proof (bpow_gt_0 radix2 (-300)) as P. assert (S0 : 0 < Rmax * Rmax) by (apply Rmult_lt_0_compat; lra).
  assert (Q : forall p, 0 <= box2 a b c p).
  { intros [[m n] o]. unfold box2. rewrite <- !Rsqr_pow2. pose proof (Rle_0_sqr (IZR m * a)). pose proof (Rle_0_sqr (IZR n * b)). pose proof (Rle_0_sqr (IZR o * c)). lra. }
  split.
  - intros p Hp Hi. specialize (Hs p Hp Hi). pose proof (box_len a b c p Ha Hb Hc) as E. apply Rabs_le_inv in E. specialize (Q p). unfold margin in *. lra.
  - intros p Hi Hu Hlo. pose proof (box_len a b c p Ha Hb Hc) as E. apply Rabs_le_inv in E. specialize (Q p). apply Hcp; [exact Hi|unfold margin in *; lra|].
    destruct Hlo as [H|H]; [left; exact H|right; unfold margin in *; lra].
Qed.
Print Assumptions C107_right_angles_partial.

(** The origin, where a small Rmin is used to leave it out: it is visited exactly if Rmin is not positive, however small Rmin is compared with Rmax. *)
Theorem C107_origin : forall Rmin Rmax L l, par_ok L -> bpow radix2 (-300) <= Rmax -> visits Rmin Rmax L l ->
  (Rmin <= 0 -> In (0, 0, 0)%Z l) /\ (bpow radix2 (-300) <= Rmin -> Rmin * c1r L <= / 2 -> ~ In (0, 0, 0)%Z l).
Proof.
  intros Rmin Rmax L l HL HW Hl. apply visits_all in Hl. subst l. split.
  - intros H. pose proof (bpow_gt_0 radix2 (-300)) as P. assert (S0 : 0 < Rmax * Rmax) by (apply Rmult_lt_0_compat; lra).
    apply complete; auto; [cbn; lia|]. assert (E : len2 L (0, 0, 0)%Z = 0) by (unfold len2, Rdiv; rewrite !Rmult_0_l; ring). rewrite E. unfold margin. lra.
  - intros H1 H2. now apply origin_out.
Qed.
Print Assumptions C107_origin.

(** Without the margin the claim is false: in the cubic lattice with the edge 3 and a sphere with the radius 15 + 2^-49 the point (5, 0, 0) is missed. *)
Theorem C107_surface_refuted : exists l, visits 0 W15 (box 3 3 3) l /\ box2 3 3 3 (5, 0, 0)%Z < W15 * W15 /\ ~ In (5, 0, 0)%Z l.
Proof.
  exists (all_points 0 W15 (box 3 3 3)). split; [now apply visits_all|].
  assert (D3 : dbl 3) by (apply (dbl_Z 3); lia).
  assert (HW : 15 < W15 < 16).
  { unfold W15. replace 15 with (D (15 * 2 ^ 49) (-49)); [replace 16 with (D (16 * 2 ^ 49) (-49)); [split; apply D_lt; lia|]|];
      unfold D; rewrite mult_IZR; change (IZR (2 ^ 49)) with (bpow radix2 49); rewrite Rmult_assoc, <- bpow_plus; cbn; ring. }
  split.
  - unfold box2. assert (15 * 15 < W15 * W15) by (apply Rmult_le_0_lt_compat; lra). lra.
  - intros H. unfold all_points in H. apply in_flat_map in H as (m' & Hm & H). unfold plane in H.
    apply in_flat_map in H as (n' & _ & H). apply in_map_iff in H as (o' & Eo & _). injection Eo as -> _ _.
    apply mlist_in in Hm. rewrite box_eq in Hm by exact D3. cbn [ar] in Hm. rewrite five_of_15, Rabs_pos_eq in Hm; lra.
Qed.
Print Assumptions C107_surface_refuted.

(** An oblique lattice, and a point on the diagonal of a box that is visited. *)
Example C107_nonvacuous : par_ok {| ar := 1/3; dn0dm := -1/2; do0dm := 1/4; b2r := 1/4; do0dn := -1/5; c1r := 1/5 |} /\
  exists l, visits 2 10 (box 3 4 5) l /\ In (1, 1, 1)%Z l /\ ~ In (0, 0, 0)%Z l.
Proof.
  assert (P : bpow radix2 (-300) <= 1 / 8) by (apply Rle_trans with (bpow radix2 (-3)); [apply bpow_le; lia|cbn; lra]).
  assert (E : forall k, (3 <= k <= 5)%Z -> edge (IZR k)).
  { intros k Hk. split; [apply dbl_Z; lia|]. split; [apply IZR_lt; lia|]. apply Rle_trans with (bpow radix2 3); [cbn; apply IZR_le; lia|apply bpow_le; lia]. }
  split.
  - constructor; cbn [ar dn0dm do0dm b2r do0dn c1r]; try lra; [rewrite Rabs_left by lra|rewrite Rabs_pos_eq by lra|rewrite Rabs_left by lra]; lra.
  - pose proof (E 3%Z ltac:(lia)) as E3. pose proof (E 4%Z ltac:(lia)) as E4. pose proof (E 5%Z ltac:(lia)) as E5.
    destruct (C107_right_angles_partial 2 10 3 4 5 E3 E4 E5 ltac:(lra)) as (l & Hl & _ & _ & Hc). exists l. split; [exact Hl|]. split.
    + apply Hc; [cbn; lia|unfold box2, margin; lra|right; unfold box2, margin; lra].
    + apply (C107_origin 2 10 (box 3 4 5) l); auto; [now apply box_ok|lra|lra|]. destruct E3, E4, E5. rewrite box_eq by assumption. cbn [c1r].
      pose proof (rb (1 / 5) 1 ltac:(rewrite Rabs_pos_eq; lra) ltac:(change 1 with (bpow radix2 0); apply bpow_le; lia)) as R. apply Rabs_le_inv in R. lra.
Qed.
