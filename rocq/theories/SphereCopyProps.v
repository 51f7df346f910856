(** C105: copies of the iterators over lattice points. *)
From Verif Require Import RBase Sphere SphereSpec SphereGeom SphereMain SphereProps SphereCopy SphereCopySpec SphereCopyProofs SphereCopyMain.
Open Scope R_scope.

(** C105, for objects made by a constructor: however many there are and in whatever order they are used, each is in the state that its own calls
    alone lead to (for which see C18-C22), provided that no copy is advanced or rewound. *)
Theorem C105_originals_partial : forall (fuel : nat) (l : list iop) (w : list iter), irun fuel l [] = Some w -> copies_idle l ->
  forall k rmin rmax L, constructed l k rmin rmax L ->
  exists i, nth_error w k = Some i /\ alone rmin rmax L fuel (calls k l) = Some (i_data i).
Proof. exact originals. Qed.
Print Assumptions C105_originals_partial.

(** C105, defect: a copy stays at the point where it was made, whatever is called on it or on the others. *)
Theorem C105_copy_never_moves : forall (fuel fuel' : nat) (l l' : list iop) (w w' : list iter) (k : nat),
  irun fuel l [] = Some w -> copied l k -> irun fuel' l' w = Some w' -> shown w' k = shown w k.
Proof. intros fuel fuel' l l' w w' k E HC E'. exact (stuck fuel' l' l w w' k (run_bound _ _ _ E) HC E'). Qed.
Print Assumptions C105_copy_never_moves.

Lemma alone_line a b L f c s : alone a b L f c = Some s -> finished s = false -> (o s < hi_o s)%Z.
Proof.
  unfold alone. destruct (rewind a b L f) as [s0|] eqn:E0; [|discriminate].
  assert (R : forall s1, rewind a b L f = Some s1 -> finished s1 = false -> (o s1 < hi_o s1)%Z) by (intros s1 E1 F; unfold rewind in E1; eapply next_o_line; eauto).
  assert (G : forall c s0, (finished s0 = false -> (o s0 < hi_o s0)%Z) -> go_on a b L f c s0 = Some s -> finished s = false -> (o s < hi_o s)%Z).
  { clear s0 E0 c. induction c as [|x c IH]; intros s0 H E; cbn [go_on] in E; [injection E as <-; exact H|].
    destruct (if x then _ else _) as [s1|] eqn:E1; [|discriminate]. apply (IH s1); [|exact E]. intros F.
    destruct x; [apply R; assumption|]. eapply next_o_line; eauto. }
  intros E F. apply (G c s0); auto.
Qed.

(** A loop over a copy of an iterator never ends: it stays at one point, and each next() moves the original instead, along its line and out of the
    sphere. *)
Theorem C105_loop_over_a_copy : forall (fuel : nat) (l : list iop) (w : list iter) (k : nat) rmin rmax L a b c,
  irun (S fuel) l [] = Some w -> copies_idle l -> constructed l k rmin rmax L -> at_end w k = Some false -> shown w k = Some (a, b, c) ->
  forall n : nat, exists w', irun (S fuel) (ICopy k :: repeat (INext (length w)) n) w = Some w' /\
    shown w' (length w) = Some (a, b, c) /\ at_end w' (length w) = Some false /\ shown w' k = Some (a, b, (c + Z.of_nat n)%Z).
Proof.
  intros fuel l w k rmin rmax L a b c E HI HC HF HS n. destruct (originals _ _ _ E HI _ _ _ _ HC) as (i & Ei & Ea).
  pose proof (run_bound _ _ _ E) as (_ & B & _). pose proof (B k i Ei) as Hi. unfold constructed in HC. rewrite HC in Hi. destruct Hi as (Hr & _).
  unfold at_end in HF. rewrite Ei in HF. cbn in HF. injection HF as HF. pose proof (alone_line _ _ _ _ _ _ Ea HF) as Ho.
  assert (Lk : (k < length w)%nat) by (apply nth_error_Some; congruence).
  destruct (copy_loop (S fuel) (length w) k n (w ++ [i]) i a b c) as (w' & E' & D' & S'); try assumption; try lia.
  - rewrite nth_error_app2, Nat.sub_diag by lia. reflexivity.
  - unfold shown in *. now rewrite nth_error_app1.
  - exists w'. cbn [irun istep]. rewrite Ei. split; [exact E'|]. unfold shown in HS. rewrite Ei in HS. cbn in HS.
    unfold shown at 1, at_end. destruct (nth_error w' (length w)) as [j|]; [|discriminate]. cbn in D'. injection D' as D'. cbn [option_map]. cbn in HS |- *. rewrite D'.
    split; [exact HS|]. split; [now rewrite HF|exact S'].
Qed.
Print Assumptions C105_loop_over_a_copy.

(** So a copy does not visit the points of its sphere, and leads its original to a point that does not belong to it: for every cell and every
    range that contains a lattice point. *)
Theorem C105_copies_refuted : forall (C : cell) (rmin rmax : R) (p : Z * Z * Z), cell_ok C -> rmin <= sqrt (norm2 C p) < rmax ->
  exists fuel n w, irun fuel (INew rmin rmax (lp C) :: ICopy 0 :: repeat (INext 1) n) [] = Some w /\
    at_end w 1 = Some false /\ (exists q, shown w 1 = Some q /\ exists pts, points rmin rmax (lp C) fuel = Some (q :: pts)) /\
    exists q, shown w 0 = Some q /\ forall f pts, points rmin rmax (lp C) f = Some pts -> ~ In q pts.
Proof.
  intros C rmin rmax p HC Hp. destruct (C18_sphere_total C HC rmin rmax) as (l & (f0 & Hl) & _ & ND).
  set (fuel := S f0). assert (El : points rmin rmax (lp C) fuel = Some l) by (apply Hl; unfold fuel; lia).
  assert (Hin : In p l) by (apply (C18_sphere_complete C HC rmin rmax fuel l p El Hp)).
  pose proof El as El'. unfold points in El. destruct (rewind rmin rmax (lp C) fuel) as [s|] eqn:Es; [|discriminate].
  assert (Fs : finished s = false /\ exists pts, l = mno s :: pts).
  { unfold fuel in El. cbn [collect] in El. destruct (finished s); [injection El as <-; contradiction|]. split; [reflexivity|].
    destruct (next_o _ _ _ _ _) as [s'|]; [|discriminate]. destruct (collect _ _ _ _ _) as [r|]; [|discriminate]. injection El as <-. now exists r. }
  destruct Fs as [Fs [pts Ep]]. destruct s as [sm sn so shm shn sho soo sn0 so0 sol sr se] eqn:Ess. rewrite <- Ess in *.
  assert (E1 : irun fuel [INew rmin rmax (lp C)] [] = Some [mkIter rmin rmax (lp C) s 0]).
  { cbn [irun istep app length]. unfold on. cbn [nth_error i_ref i_rmin i_rmax i_lat i_data Nat.eqb]. change (mkView blank (mno blank)) with (self blank).
    rewrite self_rewind, Es. reflexivity. }
  assert (HI : copies_idle [INew rmin rmax (lp C)]). { intros k _. split; intros [H|[]]; discriminate. }
  (* one of the points so + 0 .. so + length l is not in l *)
  assert (HN : exists n, ~ In (sm, sn, (so + Z.of_nat n)%Z) l).
  { destruct (Classical_Prop.classic (exists n, ~ In (sm, sn, (so + Z.of_nat n)%Z) l)) as [H|H]; [exact H|]. exfalso.
    assert (A : forall n, In (sm, sn, (so + Z.of_nat n)%Z) l). { intros n. destruct (Classical_Prop.classic (In (sm, sn, (so + Z.of_nat n)%Z) l)) as [H1|H1]; [exact H1|]. exfalso. apply H. now exists n. }
    assert (I : incl (map (fun n => (sm, sn, (so + Z.of_nat n)%Z)) (seq 0 (S (length l)))) l). { intros q Hq. apply in_map_iff in Hq. destruct Hq as (n & <- & _). apply A. }
    apply NoDup_incl_length in I; [rewrite map_length, seq_length in I; lia|]. apply FinFun.Injective_map_NoDup; [|apply seq_NoDup].
    intros x y Hxy. injection Hxy as Hxy. lia. }
  destruct HN as [n HN].
  destruct (C105_loop_over_a_copy f0 [INew rmin rmax (lp C)] _ 0 rmin rmax (lp C) sm sn so E1 HI eq_refl) with (n := n) as (w' & R1 & R2 & R3 & R4).
  - cbn. now rewrite Fs.
  - cbn. rewrite Ess. reflexivity.
  - exists fuel, n, w'. cbn [length] in *. split.
    + change (INew rmin rmax (lp C) :: ICopy 0 :: repeat (INext 1) n) with ([INew rmin rmax (lp C)] ++ ICopy 0 :: repeat (INext 1) n).
      rewrite irun_app, E1. exact R1.
    + split; [exact R3|]. split.
      * exists (sm, sn, so). split; [exact R2|]. exists pts. rewrite El', Ep, Ess. reflexivity.
      * exists (sm, sn, (so + Z.of_nat n)%Z). split; [exact R4|]. intros f pts' Ef Hq. apply HN.
        rewrite (points_det C rmin rmax f pts' Ef) in Hq. rewrite (points_det C rmin rmax fuel l El'). exact Hq.
Qed.
Print Assumptions C105_copies_refuted.
Example C105_nonvacuous : exists C rmin rmax p, cell_ok C /\ rmin <= sqrt (norm2 C p) < rmax.
Proof.
  exists cell_cubic, 0, (1 / 2), (0, 0, 0)%Z. split; [exact cell_cubic_ok|]. unfold norm2. cbn [c_a c_b c_c c_ca c_cb c_cg cell_cubic].
  match goal with |- _ <= sqrt ?e < _ => replace e with 0 by ring end. rewrite sqrt_0. lra.
Qed.
