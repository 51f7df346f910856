(** Proofs for FpBonds.v: the loop shows the images in the limits, each once, in the order of the points and of the selected sites. *)
From Flocq Require Import Core.
From Verif Require Import RBase R3 Fp FpGrid FpTol FpAngle FpSphere FpBonds.
From Coq Require Import Lia Lra.
Import ListNotations.
Open Scope R_scope.
Notation length := List.length.

Section Loop.
  Context (periodic : bool) (S : fp_stru) (anchor : nat) (sel : list nat) (rmin rmax : R) (pts : list (Z * Z * Z)).
  Notation home := (fp_home periodic S).
  Notation at_end := (at_end sel).
  Notation gnb := (fp_getNextBond periodic S anchor sel rmax pts).
  Notation upd1 := (fp_updater1 periodic S anchor sel rmax).
  Notation updD := (fp_updateDistance periodic S anchor rmax).
  Notation advance := (fp_advance periodic S anchor sel rmin rmax pts).
  Notation collect := (fp_collect periodic S anchor sel rmin rmax pts).

  Definition image := (nat * (Z * Z * Z))%type.
  Definition zero3 : Z * Z * Z := (0, 0, 0)%Z.
  Definition curT (l : list (Z * Z * Z)) : Z * Z * Z := match l with [] => zero3 | p :: _ => p end.
  Definition pvec (p : Z * Z * Z) : vec := let '(m, n, o) := p in V3 (IZR m) (IZR n) (IZR o).
  Definition i_r1 (x : image) : vec :=
    if periodic then
      let c := fp_vm (pvec (snd x)) (p_base S) in let h := home (fp_site sel (fst x)) in
      V3 (rnd (vx c + vx h)) (rnd (vy c + vy h)) (rnd (vz c + vz h))
    else fp_pos S (fp_site sel (fst x)).
  Definition i_r01 (x : image) : vec :=
    let r0 := home anchor in V3 (rnd (vx (i_r1 x) - vx r0)) (rnd (vy (i_r1 x) - vy r0)) (rnd (vz (i_r1 x) - vz r0)).
  Definition i_valid (x : image) : bool :=
    let v := i_r01 x in
    Rleb (Rabs (vx v)) rmax && Rleb (Rabs (vy v)) rmax && Rleb (Rabs (vz v)) rmax &&
    Rleb rmin (fp_norm v) && Rleb (fp_norm v) rmax && negb (fp_eps_eq (fp_norm v) 0 FP_SQRT_EPS).
  Definition i_bond (x : image) : fbond := {| b_site1 := fp_site sel (fst x); b_r01 := i_r01 x; b_dist := fp_norm (i_r01 x) |}.
  Definition Ts (l : list (Z * Z * Z)) : list (Z * Z * Z) := if periodic then curT l :: tl l else [zero3].
  Definition row (T : Z * Z * Z) : list image := map (fun k => (k, T)) (seq 0 (length sel)).
  Definition images : list image := flat_map row (Ts pts).

  Lemma vm_zero : fp_vm vzero (p_base S) = vzero.
  Proof. unfold fp_vm, vzero. cbn [vx vy vz]. now rewrite !Rmult_0_l, !rnd_0, !Rplus_0_l, !rnd_0, !Rplus_0_l, !rnd_0. Qed.
  Lemma rc_eq l : fp_rc S l = fp_vm (pvec (curT l)) (p_base S).
  Proof. destruct l as [|[[m n] o] l]; [|reflexivity]. unfold fp_rc, curT, zero3, pvec. change (V3 0 0 0) with vzero. symmetry. exact vm_zero. Qed.

  (** the distance in [g] is that of the image [x] *)
  Definition fresh (g : fgen) (x : image) : Prop :=
    fp_outOfRange rmin rmax g || fp_atSelfPair g = negb (i_valid x) /\ (i_valid x = true -> r01 g = i_r01 x /\ dist g = fp_norm (i_r01 x)).
  Lemma upd_fresh g x : r1 g = i_r1 x -> fresh (updD g) x /\ cur (updD g) = cur g /\ rest (updD g) = rest g /\ rc (updD g) = rc g.
  Proof.
    intros E. unfold fp_updateDistance. rewrite E. unfold fresh, i_valid. cbv zeta. set (v := i_r01 x).
    change (rnd (vx (i_r1 x) - vx (home anchor))) with (vx v). change (rnd (vy (i_r1 x) - vy (home anchor))) with (vy v).
    change (rnd (vz (i_r1 x) - vz (home anchor))) with (vz v).
    assert (EV : V3 (vx v) (vy v) (vz v) = v) by (destruct v; reflexivity). rewrite EV.
    assert (LL : forall a b, Rltb a b = negb (Rleb b a)).
    { intros a b. destruct (Rltb a b) eqn:E1, (Rleb b a) eqn:E2; auto; [apply Rltb_true in E1; apply Rleb_true in E2; lra|].
      destruct (Rlt_le_dec a b) as [H|H]; [apply Rltb_true in H; congruence|apply Rleb_true in H; congruence]. }
    rewrite !LL. destruct (Rleb (Rabs (vx v)) rmax) eqn:EX; cbn [negb andb].
    2:{ unfold fp_outOfRange. cbn [dist with_dist]. rewrite !LL, EX. cbn [negb]. rewrite orb_true_r. repeat split; intros; discriminate. }
    destruct (Rleb (Rabs (vy v)) rmax) eqn:EY; cbn [negb andb].
    2:{ unfold fp_outOfRange. cbn [dist with_dist]. rewrite !LL, EY. cbn [negb]. rewrite orb_true_r. repeat split; intros; discriminate. }
    destruct (Rleb (Rabs (vz v)) rmax) eqn:EZ; cbn [negb andb].
    2:{ unfold fp_outOfRange. cbn [dist with_dist]. rewrite !LL, EZ. cbn [negb]. rewrite orb_true_r. repeat split; intros; discriminate. }
    unfold fp_outOfRange, fp_atSelfPair. cbn [dist with_dist cur rest rc r01]. rewrite !LL.
    repeat split; auto. destruct (Rleb rmin (fp_norm v)), (Rleb (fp_norm v) rmax), (fp_eps_eq (fp_norm v) 0 FP_SQRT_EPS); reflexivity.
  Qed.

  Definition rem (g : fgen) : list image :=
    map (fun k => (k, if periodic then curT (rest g) else zero3)) (seq (cur g) (length sel - cur g)) ++
    (if periodic then flat_map row (tl (rest g)) else []).
  Definition now (g : fgen) : image := (cur g, if periodic then curT (rest g) else zero3).
  Definition live (g : fgen) : Prop := at_end g = false /\ fresh g (now g) /\ rc g = (if periodic then fp_rc S (rest g) else rc g).
  Definition at_ (g : fgen) (l : list image) : Prop := (l = [] /\ at_end g = true) \/ (live g /\ l = rem g).

  Lemma upd1_live g : periodic = true -> at_end g = false -> rc g = fp_rc S (rest g) -> live (upd1 g) /\ rem (upd1 g) = rem g.
  Proof.
    intros P F E. unfold fp_updater1. set (g1 := with_r1 g _).
    assert (E1 : r1 g1 = i_r1 (now g)).
    { unfold g1, with_r1, i_r1, now. cbn [r1 fst snd]. rewrite P, E, rc_eq. reflexivity. }
    destruct (upd_fresh g1 (now g) E1) as (A & B & C & D). split.
    - split; [unfold FpBonds.at_end; rewrite B; exact F|]. split; [|rewrite D, C, P; exact E].
      replace (now (updD g1)) with (now g); [exact A|]. unfold now. now rewrite B, C.
    - unfold rem. now rewrite B, C.
  Qed.
  Lemma rem_cons g : at_end g = false -> exists r, rem g = now g :: r.
  Proof.
    intros F. apply Nat.leb_gt in F. unfold rem. replace (length sel - cur g)%nat with (Datatypes.S (length sel - cur g - 1)) by lia.
    cbn [seq map app]. eexists. reflexivity.
  Qed.
  Lemma next_at g x r : live g -> rem g = x :: r -> at_ (gnb g) r.
  Proof.
    intros (F & _ & RC) E. pose proof F as F'. apply Nat.leb_gt in F'. unfold rem in E.
    replace (length sel - cur g)%nat with (Datatypes.S (length sel - (cur g + 1))) in E by lia. cbn [seq map app] in E.
    injection E as _ E. replace (Datatypes.S (cur g)) with (cur g + 1)%nat in E by lia.
    unfold fp_getNextBond. destruct periodic eqn:P.
    - destruct (at_end (move g (cur g + 1))) eqn:F1.
      + unfold fp_iterateSymmetry. cbn [move rest]. apply Nat.leb_le in F1. cbn [move cur] in F1.
        replace (length sel - (cur g + 1))%nat with 0%nat in E by lia. cbn [seq map app] in E.
        destruct (tl (rest g)) as [|T l] eqn:ET.
        * cbn [flat_map] in E. replace (at_end (to_point _ _ _)) with true by (symmetry; apply Nat.leb_le; cbn; lia).
          left. split; [auto|apply Nat.leb_le; cbn; lia].
        * set (g2 := move (to_point _ _ _) 0).
          assert (F2 : at_end g2 = false) by (apply Nat.leb_gt; cbn; lia). rewrite F2.
          assert (K := upd1_live g2 P F2 ltac:(reflexivity)). rewrite P in K. destruct K as [K1 K2].
          right. split; [exact K1|]. rewrite K2, <- E. unfold rem, g2. cbn [move to_point cur rest tl curT flat_map]. now rewrite Nat.sub_0_r, P.
      + rewrite F1. assert (K := upd1_live (move g (cur g + 1)) P F1 ltac:(cbn [move rc rest]; exact RC)). rewrite P in K. destruct K as [K1 K2].
        right. split; [exact K1|]. rewrite K2, <- E. unfold rem. cbn [move cur rest]. now rewrite P.
    - unfold fp_iterateSymmetry. rewrite app_nil_r in E.
      destruct (at_end (move g (cur g + 1))) eqn:F1.
      + left. split; [|exact F1]. apply Nat.leb_le in F1. cbn [move cur] in F1. replace (length sel - (cur g + 1))%nat with 0%nat in E by lia. now rewrite <- E.
      + unfold fp_rewindSymmetry. set (g2 := with_r1 _ _). assert (E2 : r1 g2 = i_r1 (now g2)) by (unfold i_r1; now rewrite P).
        destruct (upd_fresh g2 (now g2) E2) as (A & B & C & D). rewrite P in *. right. split.
        * split; [unfold FpBonds.at_end; rewrite B; exact F1|]. split; [|now rewrite P]. unfold now in *. rewrite B, C. exact A.
        * rewrite <- E. unfold rem. rewrite B, C, P. cbn [g2 with_r1 move cur rest]. now rewrite app_nil_r.
  Qed.

  Fixpoint dropw (l : list image) : list image := match l with [] => [] | x :: r => if i_valid x then l else dropw r end.
  Lemma filter_dropw l : filter i_valid (dropw l) = filter i_valid l.
  Proof. induction l as [|x l IH]; auto. cbn. destruct (i_valid x) eqn:V; [cbn; now rewrite V|exact IH]. Qed.
  Lemma dropw_len l : (length (dropw l) <= length l)%nat.
  Proof. induction l as [|x l IH]; auto. cbn. destruct (i_valid x); cbn; lia. Qed.
  Lemma dropw_hd l x r : dropw l = x :: r -> i_valid x = true.
  Proof. induction l as [|y l IH]; [discriminate|]. cbn. destruct (i_valid y) eqn:V; auto. intros E. injection E as -> ->. exact V. Qed.
  Lemma advance_at l : forall g, at_ g l -> forall f, (length l < f)%nat -> exists g', advance f g = Some g' /\ at_ g' (dropw l).
  Proof.
    induction l as [|x l IH]; intros g A f Hf; (destruct f as [|f]; [lia|]); cbn [fp_advance].
    - destruct A as [[_ F]|[[F _] E]]; [rewrite F; cbn; eexists; split; [reflexivity|left; auto]|]. destruct (rem_cons g F) as [r Er]. congruence.
    - destruct A as [[E _]|[L E]]; [discriminate|]. pose proof L as (F & (FR & FB) & RC). rewrite F. cbn [negb andb].
      destruct (rem_cons g F) as [r Er]. rewrite Er in E. injection E as -> ->. rewrite FR. cbn [dropw].
      destruct (i_valid (now g)) eqn:V; cbn [negb].
      + eexists. split; [reflexivity|]. right. auto.
      + apply IH; [|cbn in Hf; lia]. eapply next_at; eauto.
  Qed.
  Lemma collect_at n : forall l g, (length l <= n)%nat -> at_ g (dropw l) -> forall f, (n < f)%nat -> collect f g = Some (map i_bond (filter i_valid l)).
  Proof.
    induction n as [|n IH]; intros l g Hl A f Hf; (destruct f as [|f]; [lia|]); cbn [fp_collect].
    - destruct l; [|cbn in Hl; lia]. destruct A as [[_ F]|[[F _] E]]; [now rewrite F|]. destruct (rem_cons g F) as [r Er]. cbn in E. congruence.
    - rewrite <- filter_dropw. pose proof (dropw_len l) as DL. destruct (dropw l) as [|x r] eqn:ED.
      + destruct A as [[_ F]|[[F _] E]]; [now rewrite F|]. destruct (rem_cons g F) as [r Er]. congruence.
      + pose proof (dropw_hd l x r ED) as V. destruct A as [[E _]|[L E]]; [discriminate|]. pose proof L as (F & (FR & FB) & RC). rewrite F.
        unfold fp_next. destruct (advance_at r (gnb g) (next_at g x r L (eq_sym E)) (Datatypes.S f) ltac:(cbn in DL; lia)) as (g' & E1 & A').
        rewrite E1. rewrite (IH r g' ltac:(cbn in DL; lia) A' f ltac:(lia)). cbn [filter map]. rewrite V. cbn [map]. do 2 f_equal.
        destruct (rem_cons g F) as [r' Er]. rewrite Er in E. injection E as -> ->. destruct (FB V) as [E1' E2']. unfold fp_bond, i_bond. rewrite E1', E2'. reflexivity.
  Qed.
  Theorem bonds_all g : exists f0, forall f, (f0 <= f)%nat -> fp_bonds periodic S anchor sel rmin rmax pts f g = Some (map i_bond (filter i_valid images)).
  Proof.
    exists (Datatypes.S (length images)). intros f Hf. unfold fp_bonds, fp_rewind. destruct (at_end (move g 0)) eqn:F.
    - assert (EI : images = []).
      { apply Nat.leb_le in F. cbn [move cur] in F. unfold images, row. replace (length sel) with 0%nat by lia. cbn [seq map]. now induction (Ts pts). }
      rewrite EI. cbn. destruct f; [lia|]. cbn [fp_collect]. now rewrite F.
    - assert (A : at_ (fp_rewindSymmetry periodic S anchor sel rmax pts (move g 0)) images).
      { unfold fp_rewindSymmetry. destruct periodic eqn:P.
        - set (g2 := to_point _ _ _). assert (K := upd1_live g2 P F ltac:(reflexivity)). rewrite P in K. destruct K as [K1 K2].
          right. split; [exact K1|]. rewrite K2. unfold rem, images, Ts, g2. rewrite P. cbn [to_point move cur rest flat_map]. now rewrite Nat.sub_0_r.
        - set (g2 := with_r1 _ _). assert (E2 : r1 g2 = i_r1 (now g2)) by (unfold i_r1; now rewrite P).
          destruct (upd_fresh g2 (now g2) E2) as (A & B & C & D). rewrite P in *. right. split.
          + split; [unfold FpBonds.at_end; rewrite B; exact F|]. split; [|now rewrite P]. unfold now in *. rewrite B, C. exact A.
          + unfold rem, images, Ts. rewrite B, C, P. cbn [g2 with_r1 move cur rest flat_map]. now rewrite Nat.sub_0_r. }
      destruct (advance_at images _ A f ltac:(lia)) as (g' & E & A'). rewrite E. apply (collect_at (length images)); auto.
  Qed.
End Loop.
