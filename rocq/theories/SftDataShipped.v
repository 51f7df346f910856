(** The files in the source tree agree with each other (C99). *)
From Coq Require Import Ascii String.
From Verif Require Import Base AList RBase Trig Sums Bvs BvsSpec BvsProofs Tables TablesSpec TablesProofs Data DataSpec DataText DataIons DataWk DataNsf DataHist DataExample DataShipped DataShippedProofs DataProps SftData SftDataSpec SftDataProofs.
Open Scope R_scope.
Open Scope list_scope.
Notation length := List.length.

(** *** decimal numbers *)
Fixpoint split_dot (w : str) : option (str * str) :=
  match w with
  | [] => None
  | c :: r => if (c =? ".")%char then Some ([], r) else match split_dot r with Some (a, b) => Some (c :: a, b) | None => None end
  end.
Definition read_unsigned (w : str) : option (Z * nat) :=
  match split_dot w with
  | Some (a, b) => match a, digits_of a, digits_of b with _ :: _, Some ds, Some es => Some (decimal (ds ++ es), length es) | _, _, _ => None end
  | None => None
  end.
Definition read_decimal (w : str) : option (Z * nat) :=
  match w with
  | [] => None
  | c :: r => if (c =? "-")%char then match read_unsigned r with Some (z, k) => Some ((- z)%Z, k) | None => None end else read_unsigned w
  end.
Definition decimal_value (p : Z * nat) : R := IZR (fst p) / 10 ^ snd p.
Definition plain_num (w : str) : option R := option_map decimal_value (read_decimal w).
Lemma split_dot_sound w : forall a b, split_dot w = Some (a, b) -> w = a ++ "."%char :: b.
Proof.
  induction w as [|c w IH]; intros a b E; [discriminate|]. cbn [split_dot] in E. destruct (Ascii.eqb_spec c "."%char) as [->|_]; [injection E as <- <-; reflexivity|].
  destruct (split_dot w) as [[a' b']|]; [|discriminate]. injection E as <- <-. now rewrite (IH a' b' eq_refl).
Qed.
Lemma digits_length w : forall ds, digits_of w = Some ds -> length ds = length w.
Proof. induction w as [|c w IH]; intros ds E; cbn [digits_of] in E; [injection E as <-; reflexivity|]. destruct (digit_of c); [|discriminate]. destruct (digits_of w); [|discriminate]. injection E as <-. cbn. now rewrite (IH l eq_refl). Qed.
Lemma read_unsigned_sound w z k : read_unsigned w = Some (z, k) -> exists ds es, ds <> [] /\ Forall (fun d => d < 10)%nat ds /\ Forall (fun d => d < 10)%nat es /\
  w = digits_text ds ++ "."%char :: digits_text es /\ z = decimal (ds ++ es) /\ k = length es.
Proof.
  unfold read_unsigned. destruct (split_dot w) as [[a b]|] eqn:ES; [|discriminate]. destruct a as [|c a]; [discriminate|]. destruct (digits_of (c :: a)) as [ds|] eqn:E1; [|discriminate]. destruct (digits_of b) as [es|] eqn:E2; [|discriminate].
  intros E. injection E as <- <-. exists ds, es. pose proof (digits_length _ _ E1) as L. apply digits_of_sound in E1 as [E1 F1]. apply digits_of_sound in E2 as [E2 F2]. split; [intros ->; discriminate L|]. split; [exact F1|]. split; [exact F2|].
  rewrite <- E1, <- E2. split; [now apply split_dot_sound|auto].
Qed.
Lemma read_decimal_sound w p : read_decimal w = Some p -> decimal_word (decimal_value p) w.
Proof.
  destruct p as [z k]. unfold read_decimal. destruct w as [|c w]; [discriminate|]. destruct (Ascii.eqb_spec c "-"%char) as [->|_].
  - destruct (read_unsigned w) as [[z' k']|] eqn:E; [|discriminate]. intros E2. injection E2 as <- <-. apply read_unsigned_sound in E as (ds & es & H1 & H2 & H3 & -> & -> & ->).
    exists ds, es. repeat (split; [assumption|]). cbv zeta. right. split; [reflexivity|]. unfold decimal_value. cbn [fst snd]. rewrite opp_IZR. unfold Rdiv. ring.
  - intros E. apply read_unsigned_sound in E as (ds & es & H1 & H2 & H3 & E & -> & ->). exists ds, es. repeat (split; [assumption|]). cbv zeta. left. split; [exact E|reflexivity].
Qed.
(** every digit is read, and is neither the point nor the sign *)
Lemma digit_read d : (d < 10)%nat -> digit_of (nth d (chars "0123456789") "0"%char) = Some d /\ (nth d (chars "0123456789") "0"%char =? ".")%char = false /\ (nth d (chars "0123456789") "0"%char =? "-")%char = false.
Proof. intros H. do 10 (destruct d as [|d]; [repeat split|]). exfalso. lia. Qed.
Lemma digits_read ds : Forall (fun d => d < 10)%nat ds -> digits_of (digits_text ds) = Some ds.
Proof. induction 1 as [|d ds Hd H IH]; [reflexivity|]. cbn [digits_text map digits_of]. rewrite (proj1 (digit_read d Hd)). unfold digits_text in IH. now rewrite IH. Qed.
Lemma split_read ds rest : Forall (fun d => d < 10)%nat ds -> split_dot (digits_text ds ++ "."%char :: rest) = Some (digits_text ds, rest).
Proof. induction 1 as [|d ds Hd H IH]; [reflexivity|]. cbn [digits_text map app split_dot]. rewrite (proj1 (proj2 (digit_read d Hd))). unfold digits_text in IH. now rewrite IH. Qed.
Lemma plain_reads : reads_decimals plain_num.
Proof.
  intros x w (ds & es & Hn & H1 & H2 & H). cbv zeta in H.
  assert (U : read_unsigned (digits_text ds ++ "."%char :: digits_text es) = Some (decimal (ds ++ es), length es)).
  { unfold read_unsigned. rewrite (split_read ds _ H1). pose proof (digits_read ds H1) as E1. pose proof (digits_read es H2) as E2. assert (E3 : digits_text ds <> []) by (destruct ds; [congruence|discriminate]). destruct (digits_text ds); [congruence|]. rewrite E1, E2. reflexivity. }
  unfold plain_num, read_decimal. destruct H as [[-> ->]|[-> ->]].
  - assert (X : exists c w, digits_text ds ++ "."%char :: digits_text es = c :: w /\ (c =? "-")%char = false).
    { destruct ds as [|d ds]; [congruence|]. inversion H1 as [|? ? Hd H1']; subst. eexists. eexists. split; [reflexivity|]. exact (proj2 (proj2 (digit_read d Hd))). }
    destruct X as (c & w & E & F). rewrite E in *. rewrite F, U. reflexivity.
  - change (("-" =? "-")%char) with true. cbv iota. rewrite U. cbn [option_map]. f_equal. unfold decimal_value. cbn [fst snd]. replace (IZR (- decimal (ds ++ es))) with (- IZR (decimal (ds ++ es))) by now rewrite opp_IZR. unfold Rdiv. ring.
Qed.

(** *** the check *)
Definition en_shipped : entable := match read_ions [] ion_lines with Ok t => t | _ => [] end.
Lemma en_read : read_ions [] ion_lines = Ok en_shipped. Proof. vm_compute. reflexivity. Qed.
Definition millionths (w : string) : option Z := match read_decimal (chars w) with Some (z, 6%nat) => Some z | _ => None end.
Fixpoint sum_millionths (ws : list string) : option Z :=
  match ws with [] => Some 0%Z | w :: r => match millionths w, sum_millionths r with Some z, Some s => Some (z + s)%Z | _, _ => None end end.
Definition numberless : list string := ["Cval"; "Siva"; "Pr4+"; "Ir3+"; "Ra2+"]%string.
Definition charge_with (o : option Z) (r : string * list string) : bool :=
  match sum_millionths (firstn 6 (snd r)) with
  | Some s => match o with Some n => (Z.abs (s - n * 1000000) <=? 40000)%Z | None => existsb (String.eqb (fst r)) numberless end
  | None => false
  end && forallb (fun w => match millionths w with Some _ => true | None => false end) (snd r) && (length (snd r) =? 11)%nat.
Definition charge_ok (r : string * list string) : bool := charge_with (find_en en_shipped (chars (fst r))) r.
Lemma charges_ok : forallb charge_ok shipped_formulas = true. Proof. vm_compute. reflexivity. Qed.
Lemma numberless_ok : forall s, In s numberless -> find_en en_shipped (chars s) = None.
Proof. intros s H. cbn in H. decompose [or] H; subst; try contradiction; vm_compute; reflexivity. Qed.

Lemma charge_ok_with sym ws : In (sym, ws) shipped_formulas -> exists o, o = find_en en_shipped (chars sym) /\ charge_with o (sym, ws) = true.
Proof. intros H. pose proof charges_ok as C. rewrite forallb_forall in C. exact (ex_intro _ _ (conj eq_refl (C _ H))). Qed.
Lemma and3 a b c : a && b && c = true -> (a = true /\ b = true) /\ c = true. Proof. destruct a, b, c; auto. Qed.
Section Num.
  Variable num : str -> option R.
  Hypothesis HN : reads_decimals num.
  Lemma millionths_value w z : millionths w = Some z -> num (chars w) = Some (IZR z / 1000000).
  Proof.
    unfold millionths. destruct (read_decimal (chars w)) as [[z' k]|] eqn:E; [|discriminate]. do 7 (destruct k as [|k]; try discriminate). intros E2. injection E2 as <-. apply read_decimal_sound in E. rewrite (HN _ _ E).
    unfold decimal_value. cbn [fst snd]. f_equal. f_equal. lra.
  Qed.
  Lemma sum_value ws : forall s, sum_millionths ws = Some s -> fold_right Rplus 0 (vals num ws) = IZR s / 1000000.
  Proof.
    induction ws as [|w ws IH]; intros s E; cbn [sum_millionths] in E; [injection E as <-; cbn; lra|]. destruct (millionths w) as [z|] eqn:Ez; [|discriminate]. destruct (sum_millionths ws) as [s'|]; [|discriminate]. injection E as <-.
    cbn [vals map fold_right]. fold (vals num ws). rewrite (IH s' eq_refl). unfold value. rewrite (millionths_value w z Ez), plus_IZR. lra.
  Qed.
  Lemma all_words : readable_words num shipped_formulas.
  Proof.
    intros r w Hr Hw. destruct r as [sym ws]. destruct (charge_ok_with sym ws Hr) as (o & _ & H). apply and3 in H. destruct H as [[_ H] _]. rewrite forallb_forall in H. specialize (H w Hw).
    destruct (millionths w) as [z|] eqn:E; [|discriminate]. rewrite (millionths_value w z E). discriminate.
  Qed.
  Lemma at_zero sym ws : In (sym, ws) shipped_formulas -> five_gaussians (wrec_of num (sym, ws)) 0 = fold_right Rplus 0 (vals num (firstn 6 ws)).
  Proof.
    intros Hin. destruct (charge_ok_with sym ws Hin) as (o & Eo & H). apply and3 in H. destruct H as [_ H]. apply Nat.eqb_eq in H. cbn [snd] in H.
    unfold wrec_of, five_gaussians. cbn [fst snd]. unfold vals. rewrite <- firstn_map. set (v := map (value num) ws). assert (LV : length v = 11%nat) by (unfold v; now rewrite map_length).
    do 6 (destruct v as [|? v]; [discriminate|]). cbn [firstn nth skipn fold_right seq]. unfold sumf. cbn [map fold_right nth]. replace (0²) with 0 by (unfold Rsqr; ring). rewrite !Rmult_0_r, exp_0. ring.
  Qed.
  Lemma near_number sym ws : In (sym, ws) shipped_formulas -> exists o, o = find_en en_shipped (chars sym) /\ match o with Some n => Rabs (five_gaussians (wrec_of num (sym, ws)) 0 - IZR n) <= 4 / 100 | None => In sym numberless end.
  Proof.
    intros Hin. destruct (charge_ok_with sym ws Hin) as (o & Eo & H). exists o. split; [exact Eo|]. clear Eo. rewrite (at_zero sym ws Hin). apply and3 in H. destruct H as [[H _] _]. cbn [fst snd] in H.
    destruct (sum_millionths (firstn 6 ws)) as [s|] eqn:Es; [|discriminate]. rewrite (sum_value _ _ Es). destruct o as [n|].
    - apply Z.leb_le in H. apply Rabs_le. assert (-40000 <= s - n * 1000000 <= 40000)%Z as [A B] by lia. apply IZR_le in A, B. rewrite minus_IZR, mult_IZR in A, B. lra.
    - apply existsb_exists in H as (s' & H1 & H2). apply String.eqb_eq in H2. now subst.
  Qed.
  Lemma number_is sym : fresh_answer num ion_lines (CNumber (chars sym)) = or_invalid (option_map AInt (find_en en_shipped (chars sym))).
  Proof. unfold fresh_answer, run_call, get_en. cbn [l_rt l_en lib0]. rewrite fresh_load. cbv zeta. rewrite en_read. cbn [snd andThen]. generalize (find_en en_shipped (chars sym)). now intros [z|]. Qed.
  Lemma xray_is sym ws q : In (sym, ws) shipped_formulas -> fresh_answer num wk_lines_shipped (CXray (chars sym) q) = Val (AReal (five_gaussians (wrec_of num (sym, ws)) (q_to_s q))) /\
    (Rabs (q_to_s q) <= SQRT_DOUBLE_EPS -> fresh_answer num wk_lines_shipped (CElectron (chars sym) q) = Val AHuge) /\
    (SQRT_DOUBLE_EPS < Rabs (q_to_s q) -> exists Z : Z, Rabs (IZR Z - five_gaussians (wrec_of num (sym, ws)) 0) <= 1 / 2 /\
      fresh_answer num wk_lines_shipped (CElectron (chars sym) q) = Val (AReal (0.023934 * (IZR Z - five_gaussians (wrec_of num (sym, ws)) (q_to_s q)) / (q_to_s q)²))).
  Proof.
    intros Hin. assert (Hr : In (wrec_of num (sym, ws)) (wk_records num)) by now apply in_map. pose proof (wk_shipped num all_words) as HF. pose proof (wk_good_shipped num) as HG.
    destruct (proj2 HG _ Hr) as (el & v & He & Hs). cbn [wk_name wrec_of fst] in Hs. change (wk_name (wrec_of num (sym, ws))) with (chars sym) in *.
    assert (X : exists ch, charge_text v ch /\ chars sym = [] ++ el ++ ch).
    { clear - Hs. destruct Hs as [[-> Hs]|(sg & k & Hsg & Hk & Hs & Hv)]; [exists []; split; [now left|now rewrite app_nil_r]|exists [charge_digit k; sg]; split; [right; right; exists sg, k; repeat split; auto; lia|exact Hs]]. }
    destruct X as (ch & Hc & E). pose proof (xray_named num _ _ _ el v [] ch q HF HG Hr He Hs) as H1. pose proof (electron_named num _ _ _ el v [] ch q HF HG Hr He Hs) as H2. rewrite <- E in H1, H2.
    specialize (H1 (Forall_nil _) Hc (or_intror eq_refl)). destruct (H2 (Forall_nil _) Hc (or_intror eq_refl)) as [H3 H4]. auto.
  Qed.
End Num.
