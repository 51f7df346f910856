(** Proofs for SphereCopy.v. *)
From Verif Require Import RBase Sphere SphereSpec SphereProofs SphereMain SphereCopy SphereCopySpec.
Open Scope R_scope.

(** *** Objects with their own references *)
Definition self (s : sph) : view := mkView s (mno s).
Lemma wm_mno p s : mno (with_mno p s) = p.
Proof. destruct p as [[a b] c]. reflexivity. Qed.
Lemma wm_self s : with_mno (mno s) s = s.
Proof. destruct s. reflexivity. Qed.
Lemma write_self f s : write true f (self s) = self (with_mno (f (mno s)) s).
Proof. unfold write, self. cbn [here there]. now rewrite wm_mno. Qed.
Section Self.
  Context (Rmin Rmax : R) (L : latpar).
  Lemma self_next_m s : vnext_m Rmax L true (self s) = self (next_m Rmax L s).
  Proof.
    unfold vnext_m. rewrite write_self. unfold next_m. cbn [here self mno add_m].
    unfold finished at 1. cbn [with_mno m hi_m]. destruct (negb (m s + 1 <? hi_m s)%Z); reflexivity.
  Qed.
  Lemma self_line s n' : vstart_line Rmin Rmax L true (self (set_n s n')) = self (start_line Rmin Rmax L s n').
  Proof. reflexivity. Qed.
  Lemma self_next_n f : forall s, vnext_n Rmin Rmax L true f (self s) = option_map self (next_n Rmin Rmax L f s).
  Proof.
    induction f as [|f IH]; intros s; cbn [vnext_n next_n]; [reflexivity|].
    rewrite write_self. change (with_mno (add_n (mno s)) s) with (set_n s (n s + 1)).
    cbn [here self set_n n hi_n]. fold (set_n s (n s + 1)). destruct (n s + 1 <? hi_n s)%Z.
    - cbn [option_map]. f_equal; apply self_line.
    - change (mkView (set_n s (n s + 1)) (mno (set_n s (n s + 1)))) with (self (set_n s (n s + 1))).
      rewrite self_next_m. cbn [here self]. destruct (finished _); [reflexivity|apply IH].
  Qed.
  Lemma self_next_o f : forall s, vnext_o Rmin Rmax L true f (self s) = option_map self (next_o Rmin Rmax L f s).
  Proof.
    induction f as [|f IH]; intros s; cbn [vnext_o next_o]; [reflexivity|].
    rewrite write_self. change (with_mno (add_o (mno s)) s) with (set_o s (o s + 1) (hi_o s)).
    cbn [here self set_o o hi_o outside_o]. fold (set_o s (o s + 1) (hi_o s)). destruct (o s + 1 <? hi_o s)%Z; [reflexivity|].
    destruct (negb (hi_o s =? outside_o s)%Z).
    - cbv zeta. unfold inside at 1. cbn [here there].
      assert (Q : forall v u, v = self u -> (if finished (here v) then Some v else vnext_o Rmin Rmax L true f v) =
        option_map self (if finished u then Some u else next_o Rmin Rmax L f u)).
      { intros v u ->. cbn [here self]. destruct (finished u); [reflexivity|apply IH]. }
      apply Q. reflexivity.
    - change (mkView (set_o s (o s + 1) (hi_o s)) (mno (set_o s (o s + 1) (hi_o s)))) with (self (set_o s (o s + 1) (hi_o s))).
      rewrite self_next_n. destruct (next_n _ _ _ _ _) as [s'|]; cbn [option_map]; [|reflexivity].
      cbn [here self]. destruct (finished s'); [reflexivity|apply IH].
  Qed.
  Lemma self_rewind f s : vrewind Rmin Rmax L true f (self s) = option_map self (rewind Rmin Rmax L f).
  Proof.
    unfold vrewind, rewind. rewrite write_self. cbv zeta. rewrite <- self_next_o. reflexivity.
  Qed.
End Self.

(** *** Copies *)
Section Other.
  Context (Rmin Rmax : R) (L : latpar).
  (** their own array stays *)
  Lemma stays_m v : mno (here (vnext_m Rmax L false v)) = mno (here v).
  Proof. unfold vnext_m. cbn [write here]. destruct (finished _); reflexivity. Qed.
  Lemma stays_n f : forall v v', vnext_n Rmin Rmax L false f v = Some v' -> mno (here v') = mno (here v).
  Proof.
    induction f as [|f IH]; intros v v' E; cbn [vnext_n] in E; [discriminate|].
    cbn [write here] in E. destruct (_ <? _)%Z; [injection E as <-; reflexivity|].
    match type of E with (if finished (here (vnext_m _ _ _ ?u)) then _ else _) = _ => pose proof (stays_m u) as M; set (v1 := vnext_m _ _ _ u) in * end.
    cbn [here] in M. destruct (finished _); [injection E as <-; exact M|]. rewrite (IH _ _ E). exact M.
  Qed.
  Lemma stays_o f : forall v v', vnext_o Rmin Rmax L false f v = Some v' -> mno (here v') = mno (here v).
  Proof.
    induction f as [|f IH]; intros v v' E; cbn [vnext_o] in E; [discriminate|].
    cbn [write here] in E. destruct (_ <? _)%Z; [injection E as <-; reflexivity|].
    destruct (negb _).
    - cbn [write inside here there] in E. destruct (finished _); [injection E as <-; reflexivity|]. rewrite (IH _ _ E). reflexivity.
    - destruct (vnext_n _ _ _ _ _ _) as [v1|] eqn:E1; [|discriminate]. apply stays_n in E1. cbn [here] in E1.
      destruct (finished _); [injection E as <-; exact E1|]. rewrite (IH _ _ E). exact E1.
  Qed.
  Lemma stays_rewind f v v' : vrewind Rmin Rmax L false f v = Some v' -> mno (here v') = mno (here v).
  Proof. unfold vrewind. intros E. apply stays_o in E. rewrite E. reflexivity. Qed.
  (** next() inside of a line only moves the other array *)
  Lemma next_other f v : (o (here v) < hi_o (here v))%Z -> vnext_o Rmin Rmax L false (S f) v = Some (mkView (here v) (add_o (there v))).
  Proof. intros H. cbn [vnext_o write here]. now rewrite (proj2 (Z.ltb_lt _ _) H). Qed.
  (** An iterator that is not finished is inside of a line. *)
  Lemma next_o_line f : forall s s', next_o Rmin Rmax L f s = Some s' -> finished s' = false -> (o s' < hi_o s')%Z.
  Proof.
    induction f as [|f IH]; intros s s' E F; cbn [next_o] in E; [discriminate|].
    destruct (Z.ltb_spec (o s + 1) (hi_o s)) as [H|H]; [injection E as <-; exact H|].
    destruct (negb _).
    - destruct (finished (set_o _ _ _)) eqn:F1; [injection E as <-; congruence|]. eapply IH; eauto.
    - destruct (next_n _ _ _ _ _) as [s1|]; [|discriminate]. destruct (finished s1) eqn:F1; [injection E as <-; congruence|]. eapply IH; eauto.
  Qed.
End Other.
