(** Proofs for LatEdits.v. *)
From Coq Require Import Reals Lra Lia List.
From Verif Require Import RBase R3 Trig Sphere SphereSpec Lattice LatticeSpec LatticeProofs BondGen BondGenSpec BondGenProofs BondGenMain BondEditsProofs LatEdits LatEditsSpec.
Import ListNotations.
Open Scope R_scope.

Section Edits.
  Context (made : stru) (pts : lattice -> R -> R -> list (Z * Z * Z)).
  Context (OK : stru_ok GCrystal made) (SP : forall L, lattice_made L -> sphere_of L (pts L)).
  Notation B := ucMaxDiagonalLength.
  Notation lseen := (lseen made).
  Record lwinv (L Lc : lattice) (c : option lattice) (g : gen) (x : settings) : Prop := {
    l_anchor : match s_anchor x with
               | Some a => anchor g = a /\ r0 g = home GCrystal made a 0 /\ (a < length (spos made))%nat
               | None => True end;
    l_sel : sel g = s_sites x; l_rmin : rmin g = s_rmin x; l_rmax : rmax g = s_rmax x;
    l_in : Forall (fun i => i < length (spos made))%nat (sel g);
    l_sph : match msphere g with Some (a, b) => c = Some Lc /\ a = rmin g - B Lc /\ b = rmax g + B Lc | None => c = None end
  }.
  Lemma lwinv_cfg L Lc c g g' x : cfg g' = cfg g -> lwinv L Lc c g x -> lwinv L Lc c g' x.
  Proof. intros H []. unfold cfg in H. injection H as E1 E2 E3 E4 E5 E6. constructor; rewrite ?E1, ?E2, ?E3, ?E4, ?E5, ?E6; auto. Qed.
  Lemma gen0_lwinv L Lc : lwinv L Lc None (gen0 made) (settings0 made).
  Proof. constructor; cbn; auto. apply Forall_forall. intros i Hi. apply in_seq in Hi. unfold nsites in Hi. lia. Qed.
  Definition next_c (x : settings) (L : lattice) (c : option lattice) (o : gop) : option lattice :=
    match o with
    | SetRmin v => if Req_EM_T (s_rmin x) v then c else None
    | SetRmax v => if Req_EM_T (s_rmax x) v then c else None
    | Rewind => Some (match c with Some Lc => Lc | None => L end)
    | _ => c
    end.
  Lemma lwinv_sphered L Lc c g x : lwinv L Lc c g x -> lwinv L (sphere_lat L Lc g) (next_c x L c Rewind) (sphered GCrystal (lseen L) g) x.
  Proof.
    intros [W1 W2 W3 W4 W5 W6]. unfold sphered, sphere_lat. destruct (msphere g) as [[a b]|] eqn:E.
    - destruct W6 as (-> & W6). constructor; auto. rewrite E. cbn [next_c]. auto.
    - rewrite W6. constructor; cbn -[home]; auto.
  Qed.
  Lemma lwinv_step f L Lc c g o g' x : lwinv L Lc c g x -> gstep GCrystal (lseen L) (pts (sphere_lat L Lc g)) f g o = BDone g' ->
    lwinv L (sphere_lat L Lc g) (next_c x L c o) g' (set_step x o).
  Proof.
    intros W0 H. assert (W : lwinv L (sphere_lat L Lc g) c g x).
    { destruct W0 as [W1 W2 W3 W4 W5 W6]. constructor; auto. unfold sphere_lat. destruct (msphere g) as [[a b]|]; auto. }
    destruct o; cbn [gstep next_c] in *.
    - destruct (Nat.ltb_spec a (nsites (lseen L))) as [Ha|]; [|discriminate]. injection H as <-. destruct W as [W1 W2 W3 W4 W5 W6].
      constructor; cbn -[home]; auto.
    - destruct (forallb _ l) eqn:E; [|discriminate]. injection H as <-. destruct W as [W1 W2 W3 W4 W5 W6]. constructor; cbn; auto.
      rewrite forallb_forall in E. apply Forall_forall. intros i Hi. apply Nat.ltb_lt. exact (E i Hi).
    - destruct (Nat.leb_spec last (nsites (lseen L))) as [Hl|]; [|discriminate]. injection H as <-. destruct W as [W1 W2 W3 W4 W5 W6]. constructor; cbn; auto.
      apply Forall_forall. intros i Hi. apply in_seq in Hi. unfold nsites in Hl. cbn in Hl. lia.
    - injection H as <-. rewrite <- (l_rmin _ _ _ _ _ W). unfold setRmin, Reqb. destruct (Req_EM_T (rmin g) x0) as [E|E].
      + subst x0. rewrite with_lim_id. destruct W. constructor; auto.
      + destruct W. constructor; cbn; auto.
    - injection H as <-. rewrite <- (l_rmax _ _ _ _ _ W). unfold setRmax, Reqb. destruct (Req_EM_T (rmax g) x0) as [E|E].
      + subst x0. rewrite with_lim_id. destruct W. constructor; auto.
      + destruct W. constructor; cbn; auto.
    - destruct (rewind GCrystal (lseen L) _ f g) as [g1|] eqn:E; [|discriminate]. injection H as <-. rewrite rewind_base in E. apply cfg_base_rewind in E.
      eapply lwinv_cfg; [exact E|]. apply (lwinv_sphered L Lc c g x W0).
    - destruct (finished g); [discriminate|]. destruct (next GCrystal (lseen L) _ f g) as [g1|] eqn:E; [|discriminate]. injection H as <-.
      apply cfg_advance in E. rewrite cfg_getNextBond in E. eapply lwinv_cfg; [exact E|exact W].
  Qed.
  Lemma lwinv_run f ops : forall L Lc c g x L' Lc' g', lwinv L Lc c g x -> lrun made pts f L Lc g ops = LDone L' Lc' g' ->
    exists c', lwinv L' Lc' c' g' (fold_left set_step (lcalls ops) x) /\ L' = lat_after L ops /\
      chosen_with x L c ops = match c' with Some K => K | None => L' end.
  Proof.
    induction ops as [|o ops IH]; intros L Lc c g x L' Lc' g' W H; cbn [lrun lcalls flat_map fold_left lat_after chosen_with app] in *.
    - injection H as <- <- <-. exists c. auto.
    - destruct o as [L1|o]; cbn [lstep] in H.
      + refine (IH L1 _ c g x _ _ _ _ H). destruct W as [W1 W2 W3 W4 W5 W6]. constructor; auto. unfold sphere_lat. destruct (msphere g) as [[a b]|]; auto.
      + destruct (gstep GCrystal (lseen L) (pts (sphere_lat L Lc g)) f g o) as [g1| |] eqn:E; try discriminate.
        pose proof (lwinv_step _ _ _ _ _ _ _ _ W E) as W1. exact (IH _ _ _ _ _ _ _ _ W1 H).
  Qed.
End Edits.
