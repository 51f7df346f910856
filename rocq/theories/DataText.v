(** The readers of text agree with the specification of lines and numbers. *)
From Coq Require Import Ascii String.
From Verif Require Import Base AList RBase Trig Sums Bvs BvsSpec BvsProofs Tables Data DataSpec.
Open Scope R_scope.
Open Scope list_scope.
Notation length := List.length.

Ltac all_ascii c := destruct c as [[] [] [] [] [] [] [] []].
Definition blank_dec (c : ascii) : {blank c} + {~ blank c} := in_dec ascii_dec c _.
Lemma blank_space c : isspace c = if blank_dec c then true else false.
Proof. all_ascii c; vm_compute; reflexivity. Qed.
Lemma blank_true c : blank c -> isspace c = true.
Proof. intros H. rewrite blank_space. destruct (blank_dec c); tauto. Qed.
Lemma blank_false c : ~ blank c -> isspace c = false.
Proof. intros H. rewrite blank_space. destruct (blank_dec c); tauto. Qed.
Lemma space_blank c : isspace c = true -> blank c.
Proof. rewrite blank_space. destruct (blank_dec c); [auto|discriminate]. Qed.

(** [s] is empty or starts with white space *)
Definition stop (s : str) : Prop := s = [] \/ exists c r, s = c :: r /\ blank c.

Lemma skip_blank sp s : Forall blank sp -> skip_spaces (sp ++ s) = skip_spaces s.
Proof. induction 1 as [|c sp Hc H IH]; cbn; auto. rewrite blank_true; auto. Qed.
Lemma skip_word w s : w <> [] -> Forall (fun c => ~ blank c) w -> skip_spaces (w ++ s) = w ++ s.
Proof. destruct w as [|c w]; [congruence|]. intros _ H. inversion H; subst. cbn. rewrite blank_false; auto. Qed.
Lemma take_word_app w s : Forall (fun c => ~ blank c) w -> stop s -> take_word (w ++ s) = (w, s).
Proof.
  induction 1 as [|c w Hc H IH]; cbn; intros Hs.
  - destruct Hs as [->|(c & r & -> & Hb)]; cbn; auto. rewrite blank_true; auto.
  - rewrite blank_false, IH; auto.
Qed.
Lemma words_from_word acc w s : Forall (fun c => ~ blank c) w -> stop s -> (acc <> [] \/ w <> []) ->
  words_from acc (w ++ s) = (rev acc ++ w) :: words s.
Proof.
  intros H. revert acc. induction H as [|c w Hc H IH]; cbn; intros acc Hs Ha.
  - destruct Ha as [Ha|Ha]; [|congruence]. rewrite app_nil_r. destruct Hs as [->|(c & r & -> & Hb)]; cbn.
    + destruct acc; [congruence|]. reflexivity.
    + rewrite (blank_true c Hb). destruct acc; [congruence|]. reflexivity.
  - rewrite blank_false by auto. rewrite IH; auto. 2: left; discriminate. cbn. now rewrite <- app_assoc.
Qed.
Lemma words_blank sp s : Forall blank sp -> words (sp ++ s) = words s.
Proof. unfold words. induction 1 as [|c sp Hc H IH]; cbn; auto. rewrite blank_true; auto. Qed.
Lemma words_line ws l : is_line ws l -> words l = ws.
Proof.
  induction 1 as [s H|sp w s ws Hsp Hw Hn Hs H IH].
  - rewrite <- (app_nil_r s), words_blank; auto.
  - rewrite words_blank by auto. unfold words. rewrite words_from_word; auto. cbn. now rewrite IH.
Qed.
Lemma split_blank s : exists sp r, s = sp ++ r /\ Forall blank sp /\ (r = [] \/ exists c t, r = c :: t /\ ~ blank c).
Proof.
  induction s as [|c s (sp & r & -> & Hs & Hr)]; [exists [], []; auto|].
  destruct (blank_dec c); [exists (c :: sp), r; auto|exists [], (c :: sp ++ r); repeat split; eauto 6].
Qed.
Lemma split_word s : exists w r, s = w ++ r /\ Forall (fun c => ~ blank c) w /\ stop r.
Proof.
  induction s as [|c s (w & r & -> & Hw & Hr)]; [exists [], []; repeat split; auto; now left|].
  destruct (blank_dec c); [exists [], (c :: w ++ r); repeat split; auto; right; eauto|exists (c :: w), r; auto].
Qed.
Lemma line_words_n n : forall l, (length l <= n)%nat -> exists ws, is_line ws l.
Proof.
  induction n as [|n IH]; intros l Hl.
  - destruct l; [|cbn in Hl; lia]. exists []. constructor. constructor.
  - destruct (split_blank l) as (sp & r & -> & Hsp & [->|(c & t & -> & Hc)]).
    + exists []. rewrite app_nil_r. now constructor.
    + destruct (split_word (c :: t)) as (w & r & E & Hw & Hr).
      destruct w as [|c' w]. { destruct Hr as [->|(c'' & r' & -> & Hb)]; [discriminate|]. cbn in E. injection E as <- ->. tauto. }
      destruct (IH r) as (ws & Hws).
      { rewrite E in Hl. rewrite !app_length in Hl. cbn in Hl. lia. }
      rewrite E. exists ((c' :: w) :: ws). constructor; auto. discriminate.
Qed.
Lemma line_words l : is_line (words l) l.
Proof. destruct (line_words_n (length l) l (le_n _)) as (ws & H). now rewrite (words_line _ _ H). Qed.
Lemma line_unique ws ws' l : is_line ws l -> is_line ws' l -> ws = ws'.
Proof. intros H H'. apply words_line in H, H'. congruence. Qed.

Lemma read_word_line w ws l : is_line (w :: ws) l -> exists s, read_word l = Some (w, s) /\ is_line ws s /\ (length s < length l)%nat.
Proof.
  intros H. inversion H as [|sp w' s ws' Hsp Hw Hn Hs Hl]; subst. exists s. unfold read_word.
  rewrite skip_blank, skip_word, take_word_app by auto. destruct w; [congruence|]. repeat split; auto.
  rewrite !app_length; cbn; lia.
Qed.
Lemma read_word_end l : is_line [] l -> read_word l = None.
Proof. intros H. inversion H as [s Hs|]; subst. unfold read_word. rewrite <- (app_nil_r l), skip_blank by auto. reflexivity. Qed.

(** numbers *)
Lemma nth_digit d : (d < 10)%nat -> digit_value (nth d (chars "0123456789") "0"%char) = Some (Z.of_nat d).
Proof. intros H. do 10 (destruct d as [|d]; [reflexivity|]). lia. Qed.
Lemma digit_not_blank d : (d < 10)%nat -> ~ blank (nth d (chars "0123456789") "0"%char).
Proof.
  intros H B. apply blank_true in B. revert B.
  do 10 (destruct d as [|d]; [discriminate|]). lia.
Qed.
Lemma stop_digit s : stop s -> forall acc, take_digits acc s = (acc, s).
Proof.
  intros [->|(c & r & -> & H)] acc; auto. cbn.
  destruct H as [<-|[<-|[<-|[<-|[<-|[<-|[]]]]]]]; reflexivity.
Qed.
Lemma take_digits_text ds s : Forall (fun d => d < 10)%nat ds -> stop s -> forall acc,
  take_digits acc (digits_text ds ++ s) = (fold_left (fun a d => 10 * a + Z.of_nat d)%Z ds acc, s).
Proof.
  intros H Hs. induction H as [|d ds Hd H IH]; intros acc; cbn [digits_text map app fold_left].
  - now apply stop_digit.
  - cbn [take_digits]. rewrite nth_digit by auto. apply IH.
Qed.
Lemma read_nat_text ds s : ds <> [] -> Forall (fun d => d < 10)%nat ds -> stop s -> read_nat (digits_text ds ++ s) = Some (decimal ds, s).
Proof.
  destruct ds as [|d ds]; [congruence|]. intros _ H Hs. inversion H; subst. cbn [digits_text map app]. unfold read_nat.
  rewrite nth_digit by auto. f_equal. fold (digits_text ds). rewrite take_digits_text by auto. reflexivity.
Qed.
Lemma digits_words ds : Forall (fun d => d < 10)%nat ds -> Forall (fun c => ~ blank c) (digits_text ds).
Proof. induction 1; cbn; constructor; auto. now apply digit_not_blank. Qed.
Lemma digits_sign d r : (d < 10)%nat -> nth d (chars "0123456789") "0"%char :: r <> [] /\
  (nth d (chars "0123456789") "0"%char =? "+")%char = false /\ (nth d (chars "0123456789") "0"%char =? "-")%char = false.
Proof. intros H. do 10 (destruct d as [|d]; [repeat split; discriminate|]). lia. Qed.
Lemma number_words v w : number_text v w -> w <> [] /\ Forall (fun c => ~ blank c) w.
Proof.
  intros (ds & Hne & Hd & H). pose proof (digits_words ds Hd) as Hb.
  destruct H as [[-> _]|[[-> _]|[-> _]]].
  - split; auto. destruct ds; [congruence|]. discriminate.
  - split; [discriminate|]. constructor; auto. intros B. apply blank_true in B. discriminate.
  - split; [discriminate|]. constructor; auto. intros B. apply blank_true in B. discriminate.
Qed.
Lemma read_int_line v w ws l : is_line (w :: ws) l -> number_text v w ->
  exists s, read_int l = Some (v, s) /\ is_line ws s /\ (length s < length l)%nat.
Proof.
  intros H Hv. inversion H as [|sp w' s ws' Hsp Hw Hn Hs Hl]; subst. exists s. unfold read_int.
  rewrite skip_blank, skip_word by auto.
  assert (length s < length (sp ++ w ++ s))%nat. { rewrite !app_length. destruct w; [congruence|cbn; lia]. }
  destruct Hv as (ds & Hne & Hd & [[-> ->]|[[-> ->]|[-> ->]]]).
  - destruct ds as [|d ds]; [congruence|]. inversion Hd; subst. destruct (digits_sign d [] ltac:(auto)) as (_ & E1 & E2).
    cbn [digits_text map app]. rewrite E1, E2.
    change (nth d (chars "0123456789") "0"%char :: map (fun d => nth d (chars "0123456789") "0"%char) ds ++ s) with (digits_text (d :: ds) ++ s).
    rewrite read_nat_text by auto. auto.
  - cbn [app]. rewrite Ascii.eqb_refl. rewrite read_nat_text by auto. auto.
  - cbn [app]. replace ("-" =? "+")%char with false by reflexivity. rewrite Ascii.eqb_refl. rewrite read_nat_text by auto. auto.
Qed.
Lemma read_int_end l : is_line [] l -> read_int l = None.
Proof. intros H. inversion H as [s Hs|]; subst. unfold read_int. rewrite <- (app_nil_r l), skip_blank by auto. reflexivity. Qed.
Lemma read_ints_line vs ws : Forall2 number_text vs ws -> forall l fuel, is_line ws l -> (length l <= fuel)%nat -> read_ints fuel l = vs.
Proof.
  induction 1 as [|v w vs ws Hv H IH]; intros l fuel Hl Hf.
  - destruct fuel; cbn; auto. now rewrite read_int_end.
  - destruct (read_int_line _ _ _ _ Hl Hv) as (s & E & Hs & Hlt). destruct fuel; [lia|]. cbn. rewrite E. f_equal. apply IH; auto. lia.
Qed.
(** comments *)
Lemma starts_spec p w : starts p w = true <-> exists r, w = p ++ r.
Proof.
  unfold starts. destruct (str_dec _ _) as [E|E]; split; intros H; try discriminate; auto.
  - exists (skipn (length p) w). rewrite <- E at 1. symmetry. apply firstn_skipn.
  - destruct H as (r & ->). exfalso. apply E. rewrite firstn_app, Nat.sub_diag, firstn_all. cbn. apply app_nil_r.
Qed.
Lemma skipped_spec l : skipped l <-> isignored (words l) = true.
Proof.
  split.
  - intros [H|(w & ws & H)]; rewrite (words_line _ _ H); auto.
  - intros H. pose proof (line_words l) as Hl. destruct (words l) as [|w ws]; [now left|]. right. cbn in H. apply starts_spec in H as (r & ->).
    exists r, ws. exact Hl.
Qed.
