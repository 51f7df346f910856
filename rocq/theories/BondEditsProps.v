(** C109: bond generators and later edits of the atoms. *)
From Coq Require Import Reals Lra Lia List.
From Verif Require Import RBase R3 Trig Sphere Lattice LatticeSpec BondGen BondGenSpec BondGenProofs BondGenMain BondEdits BondEditsSpec BondEditsProofs.
Import ListNotations.
Open Scope R_scope.

(** Isolated structures: after any calls and edits the loop shows the selected sites where they are now, but it measures from the place where the
    anchor was when it was selected. *)
Theorem C109_isolated : forall made sph f ops p u g a, edited GAtomic made sph f ops = EDone p u g ->
  let X := settings_of made (calls ops) in s_anchor X = Some a -> Forall (fun i => i < length p)%nat (s_sites X) ->
  let P := selected_at (spos made) vzero ops in let here k := vdist (nth (nth k (s_sites X) O) p vzero) P in
  (p, u) = atoms_after made ops /\ exists v, NoDup v /\
    (forall k, In k v <-> (k < length (s_sites X))%nat /\ in_range (s_rmin X) (s_rmax X) (here k)) /\
    loop_is GAtomic (seen GAtomic made p u) sph g (map (bond_from P a (s_sites X) p u) v).
Proof. exact isolated_edits. Qed.
Print Assumptions C109_isolated.

(** Periodic structures and crystals: all the positions are those of the time when the generator was made, the tensors of a periodic structure are
    those of now. *)
Theorem C109_periodic : forall cls made sph f ops p u g a, cls <> GAtomic -> stru_ok cls made -> sphere_of (slat made) sph ->
  edited cls made sph f ops = EDone p u g ->
  let X := settings_of made (calls ops) in s_anchor X = Some a ->
  (p, u) = atoms_after made ops /\ exists v, NoDup v /\
    (forall y, In y v <-> image_ok cls made (s_sites X) y /\ in_range (s_rmin X) (s_rmax X) (image_distance cls made a (s_sites X) y)) /\
    loop_is cls (seen cls made p u) sph g (map (bond_at cls (with_tensors made u) a (s_sites X)) v).
Proof. exact periodic_edits. Qed.
Print Assumptions C109_periodic.

Lemma selected_app ops : forall p u P r, selected_at p P (ops ++ r) =
  selected_at (fst (fold_left (fun s o => match o with Edit p u => (p, u) | Call _ => s end) ops (p, u))) (selected_at p P ops) r.
Proof.
  induction ops as [|o ops IH]; intros p u P r; [reflexivity|]. cbn [app selected_at fold_left]. destruct o as [p' u'|c]; [apply IH|]. destruct c; apply IH.
Qed.
Lemma selected_calls p post : forall x P a0, s_anchor x = Some a0 -> P = nth a0 p vzero ->
  forall a, s_anchor (fold_left set_step post x) = Some a -> selected_at p P (map Call post) = nth a p vzero.
Proof.
  induction post as [|c post IH]; intros x P a0 E0 EP a E; cbn [map selected_at fold_left] in *; [congruence|].
  destruct c; try (eapply IH; [|exact EP|exact E]; exact E0). eapply IH; [|reflexivity|exact E]. reflexivity.
Qed.
Lemma calls_map post : calls (map Call post) = post.
Proof. induction post as [|c post IH]; cbn; [reflexivity|]. f_equal. exact IH. Qed.
(** When the anchor of an isolated structure is selected again after the last edit, the bonds are those of the atoms of now. *)
Theorem C109_isolated_reselected : forall made sph f pre a0 post p u g a, let ops := pre ++ Call (SelAnchor a0) :: map Call post in
  edited GAtomic made sph f ops = EDone p u g ->
  let X := settings_of made (calls ops) in s_anchor X = Some a -> Forall (fun i => i < length p)%nat (s_sites X) ->
  let S := {| spos := p; suij := u; slat := slat made; ssym := ssym made |} in
  (p, u) = atoms_after made pre /\ exists v, NoDup v /\
    (forall k, In k v <-> (k < length (s_sites X))%nat /\ in_range (s_rmin X) (s_rmax X) (image_distance GAtomic S a (s_sites X) (k, O, (0, 0, 0)%Z))) /\
    loop_is GAtomic S sph g (map (fun k => bond_at GAtomic S a (s_sites X) (k, O, (0, 0, 0)%Z)) v).
Proof.
  intros made sph f pre a0 post p u g a ops H X EA HI S. destruct (isolated_edits made sph f ops p u g a H EA HI) as (E1 & v & N & HV & HL). fold X in HV, HL.
  assert (EP : (p, u) = atoms_after made pre).
  { rewrite E1. unfold ops, atoms_after. rewrite fold_left_app. cbn [fold_left]. set (s := fold_left _ pre _). clearbody s. clear. induction post as [|c post IH]; [reflexivity|exact IH]. }
  split; [exact EP|]. exists v. split; [exact N|].
  assert (P : selected_at (spos made) vzero ops = nth a p vzero).
  { unfold ops. rewrite (selected_app pre (spos made) (suij made)). fold (atoms_after made pre). rewrite <- EP. cbn [fst selected_at].
    refine (selected_calls p post (set_step (fold_left set_step (calls pre) (settings0 made)) (SelAnchor a0)) _ a0 eq_refl eq_refl a _).
    rewrite <- EA. unfold X, settings_of, ops, calls. rewrite flat_map_app, fold_left_app. cbn [flat_map app fold_left]. fold (calls (map Call post)). now rewrite calls_map. }
  rewrite P in HV, HL. split; [exact HV|exact HL].
Qed.
Print Assumptions C109_isolated_reselected.

Definition one : stru := {| spos := [V3 0 0 0]; suij := [mid]; slat := lattice0; ssym := [] |}.
Definition none (a b : R) : list (Z * Z * Z) := [].
Definition moved : list eop := [Call (SelAnchor 0); Call (SetRmax 5); Edit [V3 3 0 0] [mid]].
Lemma moved_runs : exists g, edited GAtomic one none 0 moved = EDone [V3 3 0 0] [mid] g.
Proof. unfold edited, moved. cbn [erun estep call_ok length Nat.ltb Nat.leb gstep nsites spos seen one]. eauto. Qed.
Lemma d30 : vdist (V3 3 0 0) vzero = 3.
Proof. unfold vdist, vnorm, vsub, vdot, vzero. cbn [vx vy vz]. replace (_ + _ + _) with (3 * 3) by ring. apply sqrt_square. lra. Qed.
(** Otherwise they need not be bonds of any structure: a single atom that was moved has a bond to itself. *)
Theorem C109_isolated_moved_refuted : exists made sph ops p u g l b, edited GAtomic made sph 0 ops = EDone p u g /\ p = [V3 3 0 0] /\
  loop_is GAtomic (seen GAtomic made p u) sph g l /\ In b l /\ b_site0 b = O /\ b_site1 b = O /\ b_distance b = 3.
Proof.
  destruct moved_runs as [g H]. destruct (isolated_edits one none 0 moved _ _ g O H eq_refl) as (_ & v & _ & HV & HL).
  { repeat constructor. }
  exists one, none, moved, [V3 3 0 0], [mid], g. eexists. exists (bond_from vzero 0 [0%nat] [V3 3 0 0] [mid] 0). split; [exact H|]. split; [reflexivity|]. split; [exact HL|]. split.
  - apply (in_map (bond_from vzero 0 [0%nat] [V3 3 0 0] [mid])). apply HV. cbn -[vdist in_range]. split; [lia|]. change (V3 0 0 0) with vzero. rewrite d30. unfold in_range. lra.
  - split; [reflexivity|]. split; [reflexivity|]. cbn [bond_from b_distance nth]. exact d30.
Qed.
Print Assumptions C109_isolated_moved_refuted.

(** An atom that was appended is not seen, in an isolated structure also not when the anchor is selected again. *)
Definition appended : list eop := [Edit [V3 0 0 0; V3 3 0 0] [mid; mid]; Call (SelAnchor 0); Call (SetRmax 5)].
Theorem C109_appended_refuted : exists made sph ops p u g, edited GAtomic made sph 0 ops = EDone p u g /\ p = [V3 0 0 0; V3 3 0 0] /\
  s_anchor (settings_of made (calls ops)) = Some O /\ s_rmin (settings_of made (calls ops)) = 0 /\ s_rmax (settings_of made (calls ops)) = 5 /\
  loop_is GAtomic (seen GAtomic made p u) sph g [].
Proof.
  assert (H : exists g, edited GAtomic one none 0 appended = EDone [V3 0 0 0; V3 3 0 0] [mid; mid] g).
  { unfold edited, appended. cbn [erun estep call_ok length Nat.ltb Nat.leb gstep nsites spos seen one]. eauto. }
  destruct H as [g H]. destruct (isolated_edits one none 0 appended _ _ g O H eq_refl) as (_ & v & _ & HV & HL).
  { repeat constructor. }
  exists one, none, appended, [V3 0 0 0; V3 3 0 0], [mid; mid], g. repeat (split; [first [exact H|reflexivity]|]).
  assert (E : v = []).
  { destruct v as [|k v]; [reflexivity|]. exfalso. destruct (proj1 (HV k) (or_introl eq_refl)) as [Hk [_ Hd]]. cbn in Hk. assert (k = O) by lia. subst k.
    cbn -[vdist] in Hd. change (V3 0 0 0) with vzero in Hd. assert (Z : vdist vzero vzero = 0).
    { unfold vdist, vnorm, vsub, vdot, vzero. cbn [vx vy vz]. replace (_ + _ + _) with 0 by ring. apply sqrt_0. }
    rewrite Z in Hd. lra. }
  rewrite E in HL. exact HL.
Qed.
Print Assumptions C109_appended_refuted.

(** The hypotheses are met: a periodic structure whose atom is moved between two loops, and an isolated one with a re-selected anchor. *)
From Verif Require Import BondGenProps.
Example C109_nonvacuous : (exists sph g, stru_ok GPeriodic cub /\ sphere_of (slat cub) sph /\
    edited GPeriodic cub sph 0 [Call (SelAnchor 0); Call (SetRmax 1); Edit [V3 0 0 0] [mid]] = EDone [V3 0 0 0] [mid] g) /\
  (exists g, edited GAtomic one none 0 [Edit [V3 1 0 0; V3 3 0 0] [mid; mid]; Call (SelAnchor 0); Call (SelSites [0; 1]%nat); Call (SetRmax 5)] =
     EDone [V3 1 0 0; V3 3 0 0] [mid; mid] g) /\
  let X := settings_of one [SelAnchor 0; SelSites [0; 1]%nat; SetRmax 5] in
  in_range (s_rmin X) (s_rmax X) (vdist (V3 3 0 0) (V3 1 0 0)).
Proof.
  split.
  { destruct (sphere_exists (slat cub) (or_introl eq_refl)) as [sph H]. exists sph. eexists. split; [left; reflexivity|]. split; [exact H|].
    unfold edited. cbn [erun estep call_ok length Nat.ltb Nat.leb gstep nsites spos seen cub]. reflexivity. }
  split.
  { eexists. unfold edited. cbn [erun estep call_ok length Nat.ltb Nat.leb gstep nsites spos seen one forallb andb]. reflexivity. }
  cbn -[vdist]. unfold vdist, vnorm, vsub, vdot, in_range. cbn [vx vy vz]. replace (sqrt _) with 2; [lra|].
  replace (_ + _ + _) with (2 * 2) by ring. symmetry. apply sqrt_square. lra.
Qed.
