(** Proofs for the atom symbols, bond valence parameters and their table. *)
From Coq Require Import Ascii String.
From Verif Require Import RBase Sums Bvs BvsSpec.
Open Scope R_scope.
Open Scope list_scope.

(** *** BVParam *)
Lemma bv_inverse p : 0 < mB p ->
  (forall d, bondvalenceToDistance p (bondvalence p d) = d) /\ (forall v, 0 < v -> bondvalence p (bondvalenceToDistance p v) = v).
Proof.
  intros HB. unfold bondvalence, bondvalenceToDistance. rewrite (proj2 (Rltb_true _ _) HB). split; intros.
  - rewrite ln_exp. field. lra.
  - replace ((mRo p - (mRo p - mB p * ln v)) / mB p) with (ln v) by (field; lra). now apply exp_ln.
Qed.
Lemma bv_monotone p d e : 0 < mB p -> d < e -> 0 < bondvalence p e < bondvalence p d.
Proof.
  intros HB H. unfold bondvalence. rewrite (proj2 (Rltb_true _ _) HB). split; [apply exp_pos|]. apply exp_increasing.
  apply Rmult_lt_compat_r; [now apply Rinv_0_lt_compat|lra].
Qed.
Lemma bv_cut p eps d : 0 < eps -> bondvalenceToDistance p eps < d -> bondvalence p d < eps.
Proof.
  intros He H. destruct (Rltb 0 (mB p)) eqn:E.
  - apply Rltb_true in E. rewrite <- (proj2 (bv_inverse p E) eps He). now apply bv_monotone.
  - unfold bondvalence. now rewrite E.
Qed.

(** *** Characters *)
Ltac all_chars c := destruct c as [[] [] [] [] [] [] [] []]; split; vm_compute; intros H;
  first [discriminate H|reflexivity|tauto|exfalso; repeat (destruct H as [H|H]; [discriminate H|]); exact H].
Lemma lead_spec c : lead_char c = true <-> prefix_char c. Proof. all_chars c. Qed.
Lemma trail_spec c : trail_char c = true <-> suffix_char c. Proof. all_chars c. Qed.
Definition space_dec (c : ascii) : bool := if in_dec ascii_dec c (tab :: "010" :: "011" :: "012" :: "013" :: chars " ")%char then true else false.
Lemma space_spec c : isspace c = space_dec c. Proof. destruct c as [[] [] [] [] [] [] [] []]; vm_compute; reflexivity. Qed.
Lemma digit_spec c : (((48 <=? nat_of_ascii c) && (nat_of_ascii c <=? 56))%nat = true) <-> exists k, (k <= 8)%nat /\ c = charge_digit k.
Proof.
  split.
  - intros H. exists (nat_of_ascii c - 48)%nat. apply andb_true_iff in H as [H1 H2]. apply Nat.leb_le in H1, H2. split; [lia|].
    rewrite <- (ascii_nat_embedding c) at 1. replace (nat_of_ascii c) with (48 + (nat_of_ascii c - 48))%nat at 1 by lia.
    set (n := (nat_of_ascii c - 48)%nat) in *. assert (Hn : (n <= 8)%nat) by lia. clearbody n.
    do 9 (destruct n as [|n]; [reflexivity|]). lia.
  - intros (k & Hk & ->). do 9 (destruct k as [|k]; [reflexivity|]). lia.
Qed.
Lemma digit_value k : (k <= 8)%nat -> nat_of_ascii (charge_digit k) = (48 + k)%nat.
Proof. intros Hk. do 9 (destruct k as [|k]; [reflexivity|]). lia. Qed.

(** *** find_first_not *)
Lemma ffn_app p u c r : Forall (fun x => p x = true) u -> p c = false -> find_first_not p (u ++ c :: r) = Some (length u).
Proof. induction 1; cbn; intros Hc; [now rewrite Hc|]. rewrite H, IHForall; auto. Qed.
Lemma ffn_split p s : (exists u c r, s = u ++ c :: r /\ Forall (fun x => p x = true) u /\ p c = false) \/
  (Forall (fun x => p x = true) s /\ find_first_not p s = None).
Proof.
  induction s as [|c r [(u & d & r' & -> & Hu & Hd)|[Hr Hn]]].
  - right. now split; [constructor|].
  - destruct (p c) eqn:Hc; left; [exists (c :: u), d, r'|exists [], c, (u ++ d :: r')]; repeat split; auto.
  - destruct (p c) eqn:Hc; [right|left].
    + split; [now constructor|]. cbn. now rewrite Hc, Hn.
    + exists [], c, r. auto.
Qed.
Lemma fln_app p u c r : Forall (fun x => p x = true) r -> p c = false -> find_last_not p (u ++ c :: r) = Some (length u).
Proof.
  intros Hr Hc. unfold find_last_not. rewrite rev_app_distr. cbn [rev]. rewrite <- app_assoc. cbn [app].
  rewrite ffn_app; [|now apply Forall_rev|easy]. cbn [option_map]. rewrite rev_length, app_length. cbn. f_equal. lia.
Qed.

Lemma bare_decomp iso sym ch : Forall prefix_char iso -> Forall suffix_char ch -> symbol sym -> atomBareSymbol (iso ++ sym ++ ch) = sym.
Proof.
  intros Hi Hc (a & z & Ha & Hz & Hpa & Hsz).
  destruct sym as [|a' t]; [discriminate|]. injection Ha as ->.
  destruct (@exists_last _ (a :: t)) as (t' & z' & E); [discriminate|].
  rewrite E, rev_app_distr in Hz. cbn in Hz. injection Hz as ->.
  assert (Hl : length t = length t').
  { apply (f_equal (@length _)) in E. rewrite app_length in E. cbn in E. lia. }
  unfold atomBareSymbol. change (iso ++ (a :: t) ++ ch) with (iso ++ a :: (t ++ ch)).
  rewrite ffn_app.
  2:{ eapply Forall_impl; [|exact Hi]. intros. now apply lead_spec. }
  2:{ destruct (lead_char a) eqn:E'; [|easy]. now apply lead_spec in E'. }
  assert (Hs : iso ++ a :: t ++ ch = (iso ++ t') ++ z :: ch).
  { change (a :: t ++ ch) with ((a :: t) ++ ch). rewrite E, <- !app_assoc. reflexivity. }
  rewrite Hs, fln_app.
  2:{ eapply Forall_impl; [|exact Hc]. intros. now apply trail_spec. }
  2:{ destruct (trail_char z) eqn:E'; [|easy]. now apply trail_spec in E'. }
  rewrite app_length. destruct (Nat.leb_spec (length iso) (length iso + length t' + 1)); [|lia].
  rewrite <- Hs, skipn_app, skipn_all, Nat.sub_diag. cbn [skipn app].
  replace (length iso + length t' + 1 - length iso)%nat with (length (a :: t) + 0)%nat by (cbn; lia).
  change (a :: t ++ ch) with ((a :: t) ++ ch). rewrite firstn_app_2. cbn [firstn]. now rewrite app_nil_r.
Qed.
(** every string with a character that belongs to neither prefix nor suffix splits *)
Lemma bare_total s : (exists c, In c s /\ ~ prefix_char c /\ ~ suffix_char c) ->
  exists iso ch, s = iso ++ atomBareSymbol s ++ ch /\ Forall prefix_char iso /\ Forall suffix_char ch /\ symbol (atomBareSymbol s).
Proof.
  intros (c & Hc & Hp & Hq).
  destruct (ffn_split lead_char s) as [(u & a & r & E & Hu & Ha)|[Hall _]].
  2:{ rewrite Forall_forall in Hall. apply Hall, lead_spec in Hc. tauto. }
  destruct (ffn_split trail_char (rev (a :: r))) as [(w & z & r' & E' & Hw & Hz)|[Hall _]].
  - assert (Hs : a :: r = rev r' ++ z :: rev w).
    { apply (f_equal (@rev _)) in E'. rewrite rev_involutive, rev_app_distr in E'. cbn in E'. rewrite <- app_assoc in E'. exact E'. }
    assert (Hsym : symbol (rev r' ++ [z])).
    { destruct (rev r') as [|b q] eqn:Er.
      - cbn in Hs. injection Hs as -> ->. exists z, z. cbn. repeat split; auto.
        + intros H. apply lead_spec in H. congruence.
        + intros H. apply trail_spec in H. congruence.
      - cbn in Hs. injection Hs as -> ->. exists b, z. rewrite rev_app_distr. cbn. repeat split; auto.
        + intros H. apply lead_spec in H. congruence.
        + intros H. apply trail_spec in H. congruence. }
    assert (Hi : Forall prefix_char u) by (eapply Forall_impl; [|exact Hu]; intros; now apply lead_spec).
    assert (Ht : Forall suffix_char (rev w)) by (apply Forall_rev; eapply Forall_impl; [|exact Hw]; intros; now apply trail_spec).
    assert (Es : s = u ++ (rev r' ++ [z]) ++ rev w) by (rewrite E, Hs, <- !app_assoc; reflexivity).
    exists u, (rev w). rewrite Es, bare_decomp by auto. auto.
  - exfalso. apply Forall_rev in Hall. rewrite rev_involutive in Hall. rewrite E in Hc. apply in_app_or in Hc as [H|H].
    + rewrite Forall_forall in Hu. apply Hu, lead_spec in H. tauto.
    + rewrite Forall_forall in Hall. apply Hall, trail_spec in H. tauto.
Qed.
Lemma bare_idem s : (exists c, In c s /\ ~ prefix_char c /\ ~ suffix_char c) -> atomBareSymbol (atomBareSymbol s) = atomBareSymbol s.
Proof.
  intros H. destruct (bare_total s H) as (u & w & _ & _ & _ & Hs).
  rewrite <- (app_nil_r (atomBareSymbol s)) at 1. change (atomBareSymbol s ++ []) with ([] ++ atomBareSymbol s ++ []).
  now apply bare_decomp.
Qed.

(** *** valence *)
Lemma loop_nospace s : forall rv, valence_loop rv s = valence_loop rv (nospace s).
Proof.
  induction s as [|c r IH]; [reflexivity|]. intros rv. cbn [valence_loop nospace filter].
  pose proof (space_spec c) as Hs. unfold space_dec in Hs.
  destruct (in_dec ascii_dec c _) as [Hi|Hi]; [now rewrite Hs; apply IH|].
  fold (nospace r). cbn [valence_loop]. rewrite Hs. now rewrite !IH.
Qed.
Lemma filter_rev {A} (p : A -> bool) l : filter p (rev l) = rev (filter p l).
Proof. induction l as [|x l IH]; [reflexivity|]. cbn. rewrite filter_app, IH. cbn. destruct (p x); [reflexivity|now rewrite app_nil_r]. Qed.
Lemma nospace_In c s : In c (nospace s) -> isspace c = false.
Proof. unfold nospace. rewrite filter_In. intros [_ H]. rewrite space_spec. unfold space_dec. now destruct (in_dec _ _ _). Qed.
Lemma val_charge s t k sg : nospace s = t ++ [charge_digit k; sg] -> (k <= 8)%nat -> sg = "+"%char \/ sg = "-"%char ->
  atomValence s = (sign_value sg * Z.of_nat k)%Z.
Proof.
  intros E Hk Hsg. unfold atomValence. rewrite loop_nospace. unfold nospace. rewrite filter_rev. fold (nospace s). rewrite E, rev_app_distr.
  cbn [rev app valence_loop].
  destruct Hsg as [-> | ->]; do 9 (destruct k as [|k]; [reflexivity|]); lia.
Qed.
Lemma loop_nz rv c r : rv <> 0%Z -> isspace c = false -> ((48 <=? nat_of_ascii c) && (nat_of_ascii c <=? 56))%nat = false ->
  valence_loop rv (c :: r) = rv.
Proof. intros H1 H2 H3. cbn [valence_loop]. rewrite H2, H3. now destruct (Z.eqb_spec rv 0). Qed.
Lemma val_sign s t sg : nospace s = t ++ [sg] -> sg = "+"%char \/ sg = "-"%char ->
  (forall u k, (k <= 8)%nat -> t <> u ++ [charge_digit k]) -> atomValence s = sign_value sg.
Proof.
  intros E Hsg Hno. unfold atomValence. rewrite loop_nospace. unfold nospace. rewrite filter_rev. fold (nospace s). rewrite E, rev_app_distr.
  cbn [rev app valence_loop].
  destruct (rev t) as [|c r] eqn:Er.
  - destruct Hsg as [-> | ->]; reflexivity.
  - assert (Et : t = rev r ++ [c]) by (apply (f_equal (@rev _)) in Er; rewrite rev_involutive in Er; exact Er).
    assert (Hc : isspace c = false) by (eapply (nospace_In _ s); rewrite E, Et; apply in_or_app; left; apply in_or_app; right; now left).
    assert (Hg : (((48 <=? nat_of_ascii c) && (nat_of_ascii c <=? 56))%nat = false)).
    { destruct (_ && _)%bool eqn:Eg; [|reflexivity]. apply digit_spec in Eg as (k & Hk & ->). now apply Hno in Et. }
    change (isspace "+") with false. destruct Hsg as [-> | ->]; [change (valence_loop 1 (c :: r) = 1%Z)|change (valence_loop (-1) (c :: r) = (-1)%Z)]; apply loop_nz; auto; lia.
Qed.
Lemma val_none s : (forall t sg, sg = "+"%char \/ sg = "-"%char -> nospace s <> t ++ [sg]) -> atomValence s = 0%Z.
Proof.
  intros Hno. unfold atomValence. rewrite loop_nospace. unfold nospace. rewrite filter_rev. fold (nospace s).
  destruct (rev (nospace s)) as [|c r] eqn:Er; [reflexivity|].
  assert (Et : nospace s = rev r ++ [c]) by (apply (f_equal (@rev _)) in Er; rewrite rev_involutive in Er; exact Er).
  assert (Hc : isspace c = false) by (eapply (nospace_In _ s); rewrite Et; apply in_or_app; right; now left).
  cbn [valence_loop]. rewrite Hc. cbn.
  destruct (Ascii.eqb_spec c "+"); [exfalso; apply (Hno (rev r) c); auto|]. destruct (Ascii.eqb_spec c "-"); [exfalso; apply (Hno (rev r) c); auto|]. reflexivity.
Qed.
Lemma val_range s : (-8 <= atomValence s <= 8)%Z.
Proof.
  destruct (rev (nospace s)) as [|c r] eqn:Er.
  - rewrite val_none; [lia|]. intros t sg _ E. rewrite E, rev_app_distr in Er. discriminate.
  - assert (Et : nospace s = rev r ++ [c]) by (apply (f_equal (@rev _)) in Er; rewrite rev_involutive in Er; exact Er).
    destruct (ascii_dec c "+") as [Hp|Hp]; [|destruct (ascii_dec c "-") as [Hm|Hm]].
    3:{ rewrite val_none; [lia|]. intros t sg Hsg E. rewrite Et in E. apply app_inj_tail in E as [_ ->]. tauto. }
    all: destruct r as [|d r]; [rewrite (val_sign s [] c); auto; [unfold sign_value; destruct (ascii_dec _ _); lia|intros u k _ E; now destruct u]|].
    all: destruct (((48 <=? nat_of_ascii d) && (nat_of_ascii d <=? 56))%nat) eqn:Ed.
    1,3: apply digit_spec in Ed as (k & Hk & ->); cbn [rev] in Et; rewrite <- app_assoc in Et; rewrite (val_charge s (rev r) k c); auto;
      unfold sign_value; destruct (ascii_dec _ _); lia.
    all: rewrite (val_sign s (rev (d :: r)) c); auto; [unfold sign_value; destruct (ascii_dec _ _); lia|].
    all: intros u k Hk E; cbn [rev] in E; apply app_inj_tail in E as [_ ->]; rewrite (proj2 (digit_spec _)) in Ed; [discriminate|eauto].
Qed.
