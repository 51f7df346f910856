(** Concrete cases and counterexamples for bond valence sums. *)
From Coq Require Import Ascii String.
From Verif Require Import RBase Sums Bvs BvsSpec BvsProofs BvsTable BvsMain.
Open Scope R_scope.
Open Scope list_scope.

Lemma valence_of_formula sym iso ch k sg : symbol sym -> (forall z, head (rev sym) = Some z -> ~ In z ("010" :: "011" :: "012" :: "013" :: nil)%char) ->
  is_sign sg -> (k <= 8)%nat -> Forall prefix_char iso ->
  (ch = [sg] -> atomBareSymbol (iso ++ sym ++ ch) = sym /\ atomValence (iso ++ sym ++ ch) = sign_value sg) /\
  (ch = [charge_digit k; sg] -> atomBareSymbol (iso ++ sym ++ ch) = sym /\ atomValence (iso ++ sym ++ ch) = (sign_value sg * Z.of_nat k)%Z) /\
  (ch = [] -> atomBareSymbol (iso ++ sym ++ ch) = sym /\ atomValence (iso ++ sym ++ ch) = 0%Z).
Proof.
  intros Hs Hz Hsg Hk Hi.
  assert (Hsf : suffix_char sg) by (apply trail_spec; destruct Hsg as [-> | ->]; reflexivity).
  assert (Hdf : suffix_char (charge_digit k)) by (apply trail_spec; do 9 (destruct k as [|k]; [reflexivity|]); lia).
  destruct (Hs) as (a & z & Ha & Hz' & Hpa & Hsz). specialize (Hz z Hz').
  assert (Es : exists t, sym = t ++ [z]).
  { destruct (rev sym) as [|q r] eqn:Er; [discriminate|]. injection Hz' as ->. exists (rev r).
    rewrite <- (rev_involutive sym), Er. reflexivity. }
  destruct Es as (t & Es).
  assert (Hzs : isspace z = false).
  { destruct (isspace z) eqn:E; [|reflexivity]. exfalso. rewrite space_spec in E. unfold space_dec in E.
    destruct (in_dec _ _ _) as [Hin|]; [|discriminate]. cbn in Hin. destruct Hin as [<-|Hin]; [apply Hsz; now left|].
    cbn in Hz. destruct Hin as [Hin|[Hin|[Hin|[Hin|[<-|[]]]]]]; try tauto. apply Hsz. apply trail_spec. reflexivity. }
  assert (Hns : forall u w, nospace (u ++ w) = nospace u ++ nospace w) by (intros; unfold nospace; apply filter_app).
  assert (Hz1 : nospace [z] = [z]).
  { unfold nospace. cbn [filter]. pose proof (space_spec z) as Hq. unfold space_dec in Hq. destruct (in_dec _ _ _); [congruence|reflexivity]. }
  assert (Hsg1 : nospace [sg] = [sg]) by (destruct Hsg as [-> | ->]; reflexivity).
  assert (Hdg : nospace [charge_digit k; sg] = [charge_digit k; sg]).
  { change [charge_digit k; sg] with ([charge_digit k] ++ [sg]). rewrite Hns, Hsg1. f_equal. do 9 (destruct k as [|k]; [reflexivity|]). lia. }
  assert (Hall : nospace (iso ++ sym) = nospace (iso ++ t) ++ [z]).
  { rewrite Es, app_assoc, Hns, Hz1. reflexivity. }
  repeat split; subst ch.
  - apply bare_decomp; auto.
  - apply (val_sign _ (nospace (iso ++ sym))); auto.
    + rewrite app_assoc, Hns, Hsg1. reflexivity.
    + intros u j Hj E. rewrite Hall in E. apply app_inj_tail in E as [_ ->]. apply Hsz, trail_spec.
      do 9 (destruct j as [|j]; [reflexivity|]). lia.
  - apply bare_decomp; auto.
  - apply (val_charge _ (nospace (iso ++ sym)) k); auto. rewrite app_assoc, Hns, Hdg. reflexivity.
  - apply bare_decomp; auto.
  - apply val_none. intros u s' Hs' E. rewrite app_nil_r, Hall in E. apply app_inj_tail in E as [_ ->].
    apply Hsz, trail_spec. destruct Hs' as [-> | ->]; reflexivity.
Qed.
Lemma newline_bad : exists s, In "010"%char s /\ atomValence s = 1%Z /\ atomBareSymbol s = s /\ s = chars "Na+" ++ ["010"%char].
Proof. exists (chars "Na+" ++ ["010"%char]). repeat split; try reflexivity. cbn. tauto. Qed.
Lemma nine_bad : atomBareSymbol (chars "9 +") = chars "+" /\ atomBareSymbol (atomBareSymbol (chars "9 +")) = [] /\
  atomBareSymbol (chars "Xx9+") = chars "Xx9" /\ atomValence (chars "Xx9+") = 1%Z.
Proof. repeat split; reflexivity. Qed.
Lemma symbol_example : symbol (chars "Na") /\ atomBareSymbol (chars "23Na1+") = chars "Na" /\ atomValence (chars "23Na1+") = 1%Z /\
  atomValence (chars "S2-") = (-2)%Z.
Proof.
  split; [|repeat split; reflexivity]. exists "N"%char, "a"%char. repeat split; intros H.
  - apply lead_spec in H. discriminate H.
  - apply trail_spec in H. discriminate H.
Qed.
Lemma order_bad : exists ops std a0 a1 v, lookup (trun ops (newTable std)) a0 v a1 v <> None /\ lookup (trun ops (newTable std)) a1 v a0 v = None.
Proof. exists [TSet (chars "A") 0 (chars "B") 0 1 1], [], (chars "A"), (chars "B"), 0%Z. split; [discriminate|reflexivity]. Qed.

(** *** a cation and an anion *)
Definition NaCl : bvparam := mkBV (chars "Na") 1 (chars "Cl") (-1) 1 1.
Definition ex_tab : bvtable := trun [TSet (chars "Na") 1 (chars "Cl") (-1) 1 1] (newTable []).
Definition ex_c (rmin : R) : bvs := {| btab := ex_tab; bprec := exp (-2); brmin := rmin; brmax := 10 |}.
Definition ex_s (d01 d10 : list R) (m1 : nat) : bstru :=
  {| bn := 2; btype := fun i => match i with O => chars "Na+" | _ => chars "Cl-" end; bocc := fun _ => 1;
     bmult := fun i => match i with O => 1%nat | _ => m1 end;
     bdist := fun i j => match i, j with O, 1%nat => d01 | 1%nat, O => d10 | _, _ => [] end |}.
Definition ex_ord : list (str * Z) := [(chars "Na", 1%Z); (chars "Cl", (-1)%Z)].
Lemma ex_lookup rmin s : btype s = btype (ex_s [] [] 1) ->
  lookup (btab (ex_c rmin)) (baresymbol (ex_c rmin) s 0) (valence (ex_c rmin) s 0) (baresymbol (ex_c rmin) s 1) (valence (ex_c rmin) s 1) = Some NaCl.
Proof. unfold baresymbol, valence. intros ->. exact (set_lookup [] [] (chars "Na") 1 (chars "Cl") (-1) 1 1). Qed.
Lemma ex_ordered rmin d01 d10 m1 i j : (i < 2)%nat -> (j < 2)%nat -> ordered_pair (ex_c rmin) (ex_s d01 d10 m1) i j.
Proof.
  intros Hi Hj. destruct i as [|[|i]], j as [|[|j]]; try lia; [now right|left|left|now right].
  - change (1 <> -1)%Z. lia.
  - change (-1 <> 1)%Z. lia.
Qed.
Lemma ex_enum rmin d01 d10 m1 : enumerates (ex_c rmin) (ex_s d01 d10 m1) ex_ord.
Proof.
  intros e. split.
  - intros [<-|[<-|[]]]; [exists 0%nat|exists 1%nat]; (split; [cbn; lia|reflexivity]).
  - intros (i & Hi & ->). cbn in Hi. destruct i as [|[|i]]; [now left|right; now left|lia].
Qed.
Lemma ex_rmax rmin : 3 <= getRmaxUsed (ex_c rmin) ex_ord.
Proof.
  unfold getRmaxUsed. apply Rmin_glb; [cbn; lra|].
  apply Rle_trans with (bondvalenceToDistance NaCl (exp (-2))).
  - unfold bondvalenceToDistance. rewrite ln_exp. change (mRo NaCl) with 1. change (mB NaCl) with 1. lra.
  - unfold rmaxFromPrecision. apply rmax_fold. unfold bpused.
    destruct (used_spec (btab (ex_c rmin)) (pairs_from ex_ord) []) as (_ & _ & HU); [intros q []|].
    apply (HU (chars "Na") 1%Z (chars "Cl") (-1)%Z).
    + cbn. auto.
    + exact (set_lookup [] [] (chars "Na") 1 (chars "Cl") (-1) 1 1).
    + left. discriminate.
Qed.
Lemma ex_bond rmin d01 d10 m1 d : bond (ex_c rmin) (ex_s d01 d10 m1) 0 1 d = exp (1 - d) /\ bond (ex_c rmin) (ex_s d01 d10 m1) 1 0 d = exp (1 - d).
Proof.
  assert (Hb : bondvalence NaCl d = exp (1 - d)).
  { unfold bondvalence. change (mB NaCl) with 1. change (mRo NaCl) with 1. rewrite (proj2 (Rltb_true 0 1)) by lra. f_equal. field. }
  split; unfold bond.
  - rewrite ex_lookup by reflexivity. exact Hb.
  - rewrite lookup_sym; [|left; change (-1 <> 1)%Z; lia]. rewrite ex_lookup by reflexivity. exact Hb.
Qed.
Lemma ex_value rmin d01 d10 m1 full : lengths_ok (ex_s d01 d10 m1) -> (forall d, In d (d01 ++ d10) -> d = 1) ->
  nth 0 (bvs_eval (ex_c rmin) ex_ord (ex_s d01 d10 m1) full) 0 = weight full 0 1 * INR (length d01) + weight full 1 0 * INR (length d10) /\
  site_bvs (ex_c rmin) (ex_s d01 d10 m1) (getRmaxUsed (ex_c rmin) ex_ord) 0 = INR (length d01).
Proof.
  intros Hl Hd. pose proof (ex_rmax rmin) as Hr.
  assert (H01 : bonds_upto (ex_c rmin) (ex_s d01 d10 m1) (getRmaxUsed (ex_c rmin) ex_ord) 0 1 = INR (length d01)).
  { unfold bonds_upto. change (bdist (ex_s d01 d10 m1) 0 1) with d01. rewrite (sumf_ext _ (fun _ => 1)), sumf_const; [ring|].
    intros d Hin. rewrite (Hd d) by (apply in_or_app; now left). destruct (Rle_dec _ _); [|lra]. rewrite (proj1 (ex_bond rmin d01 d10 m1 1)).
    replace (1 - 1) with 0 by ring. apply exp_0. }
  assert (H10 : bonds_upto (ex_c rmin) (ex_s d01 d10 m1) (getRmaxUsed (ex_c rmin) ex_ord) 1 0 = INR (length d10)).
  { unfold bonds_upto. change (bdist (ex_s d01 d10 m1) 1 0) with d10. rewrite (sumf_ext _ (fun _ => 1)), sumf_const; [ring|].
    intros d Hin. rewrite (Hd d) by (apply in_or_app; now right). destruct (Rle_dec _ _); [|lra]. rewrite (proj2 (ex_bond rmin d01 d10 m1 1)).
    replace (1 - 1) with 0 by ring. apply exp_0. }
  assert (H00 : bonds_upto (ex_c rmin) (ex_s d01 d10 m1) (getRmaxUsed (ex_c rmin) ex_ord) 0 0 = 0) by reflexivity.
  assert (Hv : sgn (valence (ex_c rmin) (ex_s d01 d10 m1) 0) = 1) by reflexivity.
  split.
  - rewrite eval_general by (auto; cbn; lia). rewrite Hv. change (bn (ex_s d01 d10 m1)) with 2%nat. cbn [seq].
    rewrite !sumf_cons, sumf_nil, H01, H10, H00. change (bocc (ex_s d01 d10 m1) 0) with 1. change (bocc (ex_s d01 d10 m1) 1) with 1. ring.
  - unfold site_bvs. rewrite Hv. change (bn (ex_s d01 d10 m1)) with 2%nat. cbn [seq]. rewrite !sumf_cons, sumf_nil, H01, H00.
    change (bocc (ex_s d01 d10 m1) 0) with 1. change (bocc (ex_s d01 d10 m1) 1) with 1. ring.
Qed.
Lemma ex_lengths d01 d10 m1 : (forall d, In d (d01 ++ d10) -> d = 1) -> lengths_ok (ex_s d01 d10 m1).
Proof.
  intros Hd i j d. destruct i as [|[|i]], j as [|[|j]]; cbn; try easy; intros Hin; rewrite (Hd d) by (apply in_or_app; auto); lra.
Qed.
Lemma ones l : (forall d, In d l -> d = 1) <-> Forall (eq 1) l.
Proof. rewrite Forall_forall. split; intros H d Hd; symmetry; auto. Qed.
Lemma rmin_ignored : exists c ord s, enumerates c s ord /\ (forall i j d, In d (bdist s i j) -> d < brmin c) /\ nth 0 (bvs_eval c ord s true) 0 = 1.
Proof.
  exists (ex_c 2), ex_ord, (ex_s [1] [1] 1). split; [apply ex_enum|]. split.
  - intros i j d. destruct i as [|[|i]], j as [|[|j]]; cbn; try easy; intros [<-|[]]; lra.
  - assert (H : forall d, In d ([1] ++ [1]) -> d = 1) by (apply ones; repeat constructor).
    rewrite (proj1 (ex_value 2 [1] [1] 1 true (ex_lengths _ _ _ H) H)). cbn. lra.
Qed.
Lemma mult_bad : exists c ord s, enumerates c s ord /\ lengths_ok s /\ (forall i j, (i < bn s)%nat -> (j < bn s)%nat -> ordered_pair c s i j) /\
  (forall i j, (i < bn s)%nat -> (j < bn s)%nat -> Permutation (concat (repeat (bdist s i j) (bmult s i))) (concat (repeat (bdist s j i) (bmult s j)))) /\
  forall full, nth 0 (bvs_eval c ord s full) 0 <> site_bvs c s (getRmaxUsed c ord) 0.
Proof.
  assert (H : forall d, In d ([1; 1] ++ [1]) -> d = 1) by (apply ones; repeat constructor).
  exists (ex_c 0), ex_ord, (ex_s [1; 1] [1] 2). split; [apply ex_enum|]. split; [now apply ex_lengths|].
  split; [intros i j; apply ex_ordered|]. split.
  - intros i j Hi Hj. cbn in Hi, Hj. destruct i as [|[|i]], j as [|[|j]]; try lia; apply Permutation_refl.
  - intros full. destruct (ex_value 0 [1; 1] [1] 2 full (ex_lengths _ _ _ H) H) as [-> ->]. destruct full; cbn; lra.
Qed.
Lemma ex_equal : lengths_ok (ex_s [1] [1] 1) /\ equal_counts (ex_s [1] [1] 1) /\
  (forall i j, (i < 2)%nat -> (j < 2)%nat -> ordered_pair (ex_c 0) (ex_s [1] [1] 1) i j) /\
  site_bvs (ex_c 0) (ex_s [1] [1] 1) (getRmaxUsed (ex_c 0) ex_ord) 0 = 1.
Proof.
  assert (H : forall d, In d ([1] ++ [1]) -> d = 1) by (apply ones; repeat constructor).
  split; [now apply ex_lengths|]. split.
  { intros i j Hi Hj. cbn in Hi, Hj. destruct i as [|[|i]], j as [|[|j]]; try lia; apply Permutation_refl. }
  split; [intros i j; apply ex_ordered|].
  rewrite (proj2 (ex_value 0 [1] [1] 1 true (ex_lengths _ _ _ H) H)). reflexivity.
Qed.
