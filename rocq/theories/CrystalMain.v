(** The symmetry expansion groups the images of an atom. *)
From Coq Require Import String.
From Verif Require Import RBase R3 Trig Sphere Lattice LatticeSpec LatticeProofs Crystal CrystalSpec CrystalProofs.
Import ListNotations.
Open Scope R_scope.
Notation length := List.length.

Lemma find_some L eps l x k : consistent L -> fine L eps -> findEqualPosition L eps l x = Some k ->
  exists a, nth_error l k = Some a /\ near L eps (c_xyz a) x.
Proof.
  intros C F. revert k. induction l as [|a l IH]; cbn [findEqualPosition]; intros k; [discriminate|].
  destruct (Rleb _ _) eqn:E.
  - intros [= <-]. exists a. split; auto. apply Rleb_true in E. now apply near_round.
  - destruct (findEqualPosition L eps l x) as [j|]; [|discriminate]. intros [= <-]. destruct (IH _ eq_refl) as (b & H1 & H2). exists b. auto.
Qed.
Lemma find_none L eps l x : consistent L -> fine L eps -> findEqualPosition L eps l x = None ->
  forall a, In a l -> ~ near L eps (c_xyz a) x.
Proof.
  intros C F. induction l as [|a l IH]; cbn [findEqualPosition]; [intros _ ? []|].
  destruct (Rleb _ _) eqn:E; [discriminate|]. destruct (findEqualPosition L eps l x); [discriminate|].
  intros _ b [->|H] N; [|now apply (IH eq_refl b)]. apply Rleb_false in E. apply near_round in N; auto. lra.
Qed.

Lemma leader_lt g k f : leader g k f -> (f < length g)%nat.
Proof. intros [H _]. apply nth_error_Some. congruence. Qed.
Lemma leader_In g k f : leader g k f -> In k g.
Proof. intros [H _]. eapply nth_error_In; eauto. Qed.
Lemma leader_app g k f r : leader g k f -> leader (g ++ r) k f.
Proof.
  intros H. pose proof (leader_lt _ _ _ H). destruct H as [H K]. split.
  - rewrite nth_error_app1; auto.
  - intros j Hj. rewrite nth_error_app1 by lia. auto.
Qed.
Lemma leader_fun g k f f' : leader g k f -> leader g k f' -> f = f'.
Proof.
  intros [H K] [H' K']. destruct (Nat.lt_trichotomy f f') as [?|[?|?]]; auto; exfalso.
  - now apply (K' f).
  - now apply (K f').
Qed.
Lemma leader_snoc_inv g k f k' : leader (g ++ [k']) k f -> leader g k f \/ (f = length g /\ k = k' /\ ~ In k g).
Proof.
  intros H. pose proof (leader_lt _ _ _ H) as B. rewrite app_length in B. cbn in B. destruct H as [H K].
  destruct (Nat.eq_dec f (length g)) as [->|N].
  - right. rewrite nth_error_app2, Nat.sub_diag in H by lia. cbn in H. injection H as <-. repeat split; auto.
    intros X. apply In_nth_error in X. destruct X as (j & X). apply (K j); [apply nth_error_Some; congruence|].
    rewrite nth_error_app1; auto. apply nth_error_Some. congruence.
  - left. rewrite nth_error_app1 in H by lia. split; auto. intros j Hj X. apply (K j Hj). rewrite nth_error_app1; auto. lia.
Qed.
Lemma leader_new g k : ~ In k g -> leader (g ++ [k]) k (length g).
Proof.
  intros H. split.
  - rewrite nth_error_app2, Nat.sub_diag by lia. reflexivity.
  - intros j Hj X. rewrite nth_error_app1 in X by lia. apply H. eapply nth_error_In; eauto.
Qed.

Lemma combine_snoc {A B} (l : list A) (m : list B) x y : length l = length m -> combine (l ++ [x]) (m ++ [y]) = combine l m ++ [(x, y)].
Proof. revert m. induction l as [|a l IH]; intros [|b m] H; cbn in *; try lia; auto. f_equal. apply IH. lia. Qed.
Lemma members_snoc g k imgs k' u : length g = length imgs ->
  members (g ++ [k']) k (imgs ++ [u]) = members g k imgs ++ (if (k' =? k)%nat then [u] else []).
Proof.
  intros H. unfold members. rewrite combine_snoc, filter_app, map_app by auto. cbn. now destruct (k' =? k)%nat.
Qed.
Lemma members_In g k imgs u : In u (members g k imgs) <-> exists i, nth_error g i = Some k /\ nth_error imgs i = Some u.
Proof.
  unfold members. rewrite in_map_iff. split.
  - intros ((k' & u') & E & H). cbn in E. subst u'. apply filter_In in H. destruct H as [H E]. cbn in E. apply Nat.eqb_eq in E. subst k'.
    apply In_nth_error in H. destruct H as (i & H). exists i. revert imgs i H. induction g as [|a g IH]; intros [|b imgs] [|i] H; cbn in *; try discriminate; eauto.
    now injection H as -> ->.
  - intros (i & H1 & H2). exists (k, u). split; auto. apply filter_In. split; [|cbn; apply Nat.eqb_refl].
    apply (nth_error_In _ i). revert imgs i H1 H2. induction g as [|a g IH]; intros [|b imgs] [|i] H1 H2; cbn in *; try discriminate; auto. congruence.
Qed.
Lemma vsum_snoc l u : vsum (l ++ [u]) = vadd (vsum l) u.
Proof. unfold vsum. now rewrite fold_left_app. Qed.

Definition eq_atom (a0 : catom) (o : symop) : catom :=
  mkCA (op_image o (c_xyz a0)) (mm (op_R o) (mm (c_uij a0) (tr (op_R o)))) (c_type a0) (c_occ a0) (c_anis a0).

Record inv (L : lattice) (eps : R) (a0 : catom) (ops : list symop) (st : eqstate) (g : list nat) : Prop := {
  i_grp : grouping L eps (images ops (c_xyz a0)) g;
  i_len1 : length (eqsumpos st) = length (eqsites st);
  i_len2 : length (eqduplicity st) = length (eqsites st);
  i_num : forall k, (k < length (eqsites st))%nat <-> In k g;
  i_data : forall k, (k < length (eqsites st))%nat -> exists f o, leader g k f /\ nth_error ops f = Some o /\
     nth_error (eqsites st) k = Some (eq_atom a0 o) /\
     nth_error (eqsumpos st) k = Some (vsum (map ucvFractional (members g k (images ops (c_xyz a0))))) /\
     nth_error (eqduplicity st) k = Some (length (members g k (images ops (c_xyz a0))))
}.

Lemma images_len ops x : length (images ops x) = length ops. Proof. apply map_length. Qed.
Lemma images_snoc ops o x : images (ops ++ [o]) x = images ops x ++ [op_image o x].
Proof. unfold images. rewrite map_app. reflexivity. Qed.
Lemma images_nth ops x f o : nth_error ops f = Some o -> nth_error (images ops x) f = Some (op_image o x).
Proof. intros H. unfold images. rewrite nth_error_map, H. reflexivity. Qed.
Lemma nth_error_snoc {A} (l : list A) x : nth_error (l ++ [x]) (length l) = Some x.
Proof. rewrite nth_error_app2, Nat.sub_diag by lia. reflexivity. Qed.
Lemma nth_error_app_some {A} (l r : list A) i x : nth_error l i = Some x -> nth_error (l ++ r) i = Some x.
Proof. intros H. rewrite nth_error_app1; auto. apply nth_error_Some. congruence. Qed.
Lemma nth_error_snoc_inv {A} (l : list A) y i x : nth_error (l ++ [y]) i = Some x -> nth_error l i = Some x \/ (i = length l /\ x = y).
Proof.
  intros H. destruct (Nat.lt_ge_cases i (length l)) as [B|B].
  - left. now rewrite nth_error_app1 in H.
  - right. assert (B' : (i < length (l ++ [y]))%nat) by (apply nth_error_Some; congruence). rewrite app_length in B'. cbn in B'.
    assert (i = length l) by lia. subst i. rewrite nth_error_snoc in H. split; congruence.
Qed.

Lemma expand_inv L eps a0 ops : consistent L -> fine L eps ->
  exists g, inv L eps a0 ops (fold_left (expand_step L eps a0) ops (mkEq [] [] [])) g.
Proof.
  intros C F. induction ops as [|o ops IH] using rev_ind.
  - exists []. constructor; cbn; auto; try (intros; lia).
    split; [auto|]. split; intros; [destruct i; discriminate|]. destruct H as [H _]. destruct f; discriminate.
  - destruct IH as (g & [G1 G2 G3 G4 G5]). rewrite fold_left_app. cbn [fold_left].
    set (st := fold_left (expand_step L eps a0) ops (mkEq [] [] [])) in *.
    destruct G1 as (GL & GN & GF). rewrite images_len in GL.
    set (x := op_image o (c_xyz a0)). set (imgs := images ops (c_xyz a0)) in *.
    assert (LI : length g = length imgs) by (unfold imgs; now rewrite images_len).
    unfold expand_step. fold x. destruct (findEqualPosition L eps (eqsites st) x) as [k|] eqn:FE.
    + destruct (find_some _ _ _ _ _ C F FE) as (a & A1 & A2).
      assert (KB : (k < length (eqsites st))%nat) by (apply nth_error_Some; congruence).
      destruct (G5 k KB) as (f & o1 & D1 & D2 & D3 & D4 & D5). rewrite D3 in A1. injection A1 as <-.
      exists (g ++ [k]). constructor; rewrite ?images_snoc; fold x imgs; cbn [eqsites eqsumpos eqduplicity]; rewrite ?upd_length; auto.
      * split; [rewrite !app_length; cbn; lia|]. split.
        -- intros i u k' H1 H2. apply nth_error_snoc_inv in H1. apply nth_error_snoc_inv in H2.
           destruct H1 as [H1|[-> ->]], H2 as [H2|[E ->]].
           ++ destruct (GN _ _ _ H1 H2) as (f' & v & P1 & P2 & P3). exists f', v. split; [now apply leader_app|]. split; [now apply nth_error_app_some|auto].
           ++ exfalso. assert (i < length imgs)%nat by (apply nth_error_Some; congruence). lia.
           ++ exfalso. assert (length imgs < length g)%nat by (apply nth_error_Some; congruence). lia.
           ++ exists f, (op_image o1 (c_xyz a0)). split; [now apply leader_app|]. split; [apply nth_error_app_some; now apply images_nth|]. apply near_sym. exact A2.
        -- intros k1 f1 u1 k2 f2 u2 L1 E1 L2 E2 NE.
           assert (KIN : In k g) by (now apply G4).
           apply leader_snoc_inv in L1. destruct L1 as [L1|(_ & -> & X)]; [|contradiction].
           apply leader_snoc_inv in L2. destruct L2 as [L2|(_ & -> & X)]; [|contradiction].
           pose proof (leader_lt _ _ _ L1). pose proof (leader_lt _ _ _ L2).
           rewrite nth_error_app1 in E1, E2 by lia. exact (GF _ _ _ _ _ _ L1 E1 L2 E2 NE).
      * intros k'. rewrite in_app_iff, <- G4. cbn. split; [auto|]. intros [?|[<-|[]]]; auto.
      * intros k' B'. destruct (G5 k' B') as (f' & o' & P1 & P2 & P3 & P4 & P5). exists f', o'.
        split; [now apply leader_app|]. split; [now apply nth_error_app_some|]. split; [auto|].
        rewrite members_snoc by auto. rewrite !nth_error_upd. rewrite G2, G3.
        assert (KB2 : (k <? length (eqsites st))%nat = true) by (now apply Nat.ltb_lt). rewrite KB2.
        destruct (Nat.eqb_spec k k') as [->|N].
        -- rewrite (nth_error_nth _ _ _ P4), (nth_error_nth _ _ _ P5). rewrite map_app, app_length. cbn [map length]. rewrite vsum_snoc. auto.
        -- rewrite app_nil_r. auto.
    + pose proof (find_none _ _ _ _ C F FE) as FN.
      set (n := length (eqsites st)) in *.
      assert (NI : ~ In n g) by (rewrite <- G4; lia).
      exists (g ++ [n]). constructor; rewrite ?images_snoc; fold x imgs; cbn [eqsites eqsumpos eqduplicity]; rewrite ?upd_length, ?app_length; cbn [length]; try lia.
      * split; [rewrite !app_length; cbn; lia|]. split.
        -- intros i u k' H1 H2. apply nth_error_snoc_inv in H1. apply nth_error_snoc_inv in H2.
           destruct H1 as [H1|[-> ->]], H2 as [H2|[E ->]].
           ++ destruct (GN _ _ _ H1 H2) as (f' & v & P1 & P2 & P3). exists f', v. split; [now apply leader_app|]. split; [now apply nth_error_app_some|auto].
           ++ exfalso. assert (i < length imgs)%nat by (apply nth_error_Some; congruence). lia.
           ++ exfalso. assert (length imgs < length g)%nat by (apply nth_error_Some; congruence). lia.
           ++ exists (length g), x. split; [now apply leader_new|]. split; [rewrite LI; apply nth_error_snoc|]. apply same_near; [apply F|apply same_refl].
        -- assert (OLD : forall k1 f1 u1, leader g k1 f1 -> nth_error (imgs ++ [x]) f1 = Some u1 -> ~ near L eps u1 x).
           { intros k1 f1 u1 L1 E1. assert (B1 : (k1 < n)%nat) by (apply G4; eapply leader_In; eauto).
             destruct (G5 k1 B1) as (f' & o' & P1 & P2 & P3 & _). rewrite (leader_fun _ _ _ _ L1 P1) in E1.
             rewrite (nth_error_app_some _ _ _ _ (images_nth ops (c_xyz a0) _ _ P2)) in E1. injection E1 as <-.
             apply (FN (eq_atom a0 o')). eapply nth_error_In; eauto. }
           intros k1 f1 u1 k2 f2 u2 L1 E1 L2 E2 NE.
           apply leader_snoc_inv in L1. apply leader_snoc_inv in L2.
           destruct L1 as [L1|(-> & -> & X1)], L2 as [L2|(-> & -> & X2)].
           ++ pose proof (leader_lt _ _ _ L1). pose proof (leader_lt _ _ _ L2). rewrite nth_error_app1 in E1, E2 by lia. exact (GF _ _ _ _ _ _ L1 E1 L2 E2 NE).
           ++ rewrite LI, nth_error_snoc in E2. injection E2 as <-. eapply OLD; eauto.
           ++ rewrite LI, nth_error_snoc in E1. injection E1 as <-. intros N. apply near_sym in N. revert N. eapply OLD; eauto.
           ++ contradiction.
      * intros k'. rewrite in_app_iff, <- G4. cbn. fold n. lia.
      * intros k' B'. destruct (Nat.eq_dec k' n) as [->|N].
        -- exists (length g), o. split; [now apply leader_new|]. split; [rewrite GL; apply nth_error_snoc|].
           split; [apply nth_error_snoc|]. rewrite members_snoc, Nat.eqb_refl by auto.
           assert (ME : members g n imgs = []).
           { destruct (members g n imgs) as [|u l] eqn:EM; auto. exfalso. assert (X : In u (members g n imgs)) by (rewrite EM; now left).
             apply members_In in X. destruct X as (i & X & _). apply NI. eapply nth_error_In; eauto. }
           rewrite ME, !nth_error_upd, Nat.eqb_refl, !app_length, G2, G3. fold n. cbn [length].
           assert (KB2 : (n <? n + 1)%nat = true) by (apply Nat.ltb_lt; lia). rewrite KB2. cbn [app map length].
           rewrite !app_nth2, G2, G3 by (rewrite ?G2, ?G3; fold n; lia). fold n. rewrite Nat.sub_diag. cbn [nth]. split; reflexivity.
        -- assert (B2 : (k' < n)%nat) by (cbn [length] in B'; lia).
           destruct (G5 k' B2) as (f' & o' & P1 & P2 & P3 & P4 & P5). exists f', o'.
           split; [now apply leader_app|]. split; [now apply nth_error_app_some|]. split; [now apply nth_error_app_some|].
           rewrite members_snoc by auto. rewrite !nth_error_upd.
           destruct (Nat.eqb_spec n k') as [->|_]; [lia|]. rewrite app_nil_r. split; now apply nth_error_app_some.
Qed.
