(** The shipped data files satisfy the specification of their format; the checks are run by the kernel on the whole text. *)
From Coq Require Import Ascii String.
From Verif Require Import Base AList RBase Trig Sums Bvs BvsSpec Tables Data DataSpec DataText DataIons DataWk DataNsf DataHist DataExample DataShipped.
Open Scope R_scope.
Open Scope list_scope.
Notation length := List.length.

Definition ion_lines : list str := map chars ionlist_dat.
Definition nsf_lines_shipped : list str := map chars nsftable_dat.
Definition wk_lines_shipped : list str := map chars waaskirf_dat.

Definition eqs (a b : str) : bool := if str_dec a b then true else false.
Lemma eqs_true a b : eqs a b = true -> a = b.
Proof. unfold eqs. destruct (str_dec a b); auto. discriminate. Qed.
Fixpoint eql (a b : list str) : bool := match a, b with [], [] => true | x :: a, y :: b => eqs x y && eql a b | _, _ => false end.
Lemma eql_true a : forall b, eql a b = true -> a = b.
Proof. induction a as [|x a IH]; intros [|y b]; cbn; try discriminate; auto. intros H. apply andb_true_iff in H as [H1 H2]. apply eqs_true in H1. apply IH in H2. congruence. Qed.

(** *** numbers and names *)
Definition digit_of (c : ascii) : option nat := find (fun d => (nth d (chars "0123456789") "0"%char =? c)%char) (seq 0 10).
Fixpoint digits_of (w : str) : option (list nat) :=
  match w with [] => Some [] | c :: r => match digit_of c, digits_of r with Some d, Some ds => Some (d :: ds) | _, _ => None end end.
Lemma digits_of_sound w : forall ds, digits_of w = Some ds -> w = digits_text ds /\ Forall (fun d => (d < 10)%nat) ds.
Proof.
  induction w as [|c w IH]; intros ds E; cbn [digits_of] in E. { injection E as <-. auto. }
  destruct (digit_of c) as [d|] eqn:Ed; [|discriminate]. destruct (digits_of w) as [ds'|]; [|discriminate]. injection E as <-. destruct (IH ds' eq_refl) as [-> Hf].
  unfold digit_of in Ed. apply find_some in Ed as [Hin Hc]. apply in_seq in Hin. apply Ascii.eqb_eq in Hc. split; [|constructor; auto; lia]. cbn [digits_text map]. now rewrite Hc.
Qed.
Definition natb (v : Z) (w : str) : bool := match w with [] => false | _ => match digits_of w with Some ds => (decimal ds =? v)%Z | None => false end end.
Definition numberb (v : Z) (w : str) : bool :=
  match w with
  | [] => false
  | c :: r => if (c =? "+")%char then natb v r else if (c =? "-")%char then natb (- v) r else natb v w
  end.
Lemma natb_sound v w : natb v w = true -> exists ds, ds <> [] /\ Forall (fun d => (d < 10)%nat) ds /\ w = digits_text ds /\ v = decimal ds.
Proof.
  unfold natb. destruct w as [|c r]; [discriminate|]. destruct (digits_of (c :: r)) as [ds|] eqn:E; [|discriminate]. intros H. apply Z.eqb_eq in H.
  apply digits_of_sound in E as [E Hf]. exists ds. repeat split; auto. intros ->. discriminate.
Qed.
Lemma numberb_sound v w : numberb v w = true -> number_text v w.
Proof.
  unfold numberb. destruct w as [|c r]; [discriminate|]. destruct (Ascii.eqb_spec c "+"%char) as [->|_]; [|destruct (Ascii.eqb_spec c "-"%char) as [->|_]]; intros H; apply natb_sound in H as (ds & Hn & Hf & Hw & Hv); exists ds; (split; [auto|split; [auto|]]).
  - right; left. now subst.
  - right; right. split; [now rewrite Hw|lia].
  - left. auto.
Qed.
Fixpoint forall2b {A B} (f : A -> B -> bool) (l : list A) (m : list B) : bool :=
  match l, m with [], [] => true | a :: l, b :: m => f a b && forall2b f l m | _, _ => false end.
Lemma forall2b_sound {A B} (f : A -> B -> bool) (P : A -> B -> Prop) : (forall a b, f a b = true -> P a b) -> forall l m, forall2b f l m = true -> Forall2 P l m.
Proof. intros H. induction l as [|a l IH]; intros [|b m]; cbn; try discriminate; [constructor|]. intros E. apply andb_true_iff in E as [E1 E2]. constructor; auto. Qed.
Definition letterb (c : ascii) : bool := existsb (Ascii.eqb c) (chars "ABCDEFGHIJKLMNOPQRSTUVWXYZabcdefghijklmnopqrstuvwxyz").
Definition elementb (s : str) : bool := match s with [] => false | _ => forallb letterb s end.
Lemma elementb_sound s : elementb s = true -> element s.
Proof.
  intros H. split; [intros ->; discriminate|]. assert (H' : forallb letterb s = true) by (destruct s; [discriminate|exact H]). rewrite forallb_forall in H'. apply Forall_forall. intros c Hc.
  specialize (H' c Hc). unfold letterb in H'. apply existsb_exists in H' as (x & Hx & E). apply Ascii.eqb_eq in E. now subst.
Qed.
Fixpoint nodupb {A} (eqb : A -> A -> bool) (l : list A) : bool := match l with [] => true | x :: l => negb (existsb (eqb x) l) && nodupb eqb l end.
Lemma nodupb_sound {A} (eqb : A -> A -> bool) : (forall a, eqb a a = true) -> forall l, nodupb eqb l = true -> NoDup l.
Proof.
  intros Hr. induction l as [|x l IH]; cbn; [constructor|]. intros H. apply andb_true_iff in H as [H1 H2]. constructor; auto. intros Hin. apply negb_true_iff in H1.
  assert (existsb (eqb x) l = true) by (apply existsb_exists; eauto). congruence.
Qed.
Lemma eqs_refl a : eqs a a = true. Proof. unfold eqs. destruct (str_dec a a); auto. Qed.

(** *** ionlist.dat *)
Definition ion_of (r : string * Z * list Z) : ion := let '(el, z, vs) := r in (chars el, z, vs).
Definition ion_records : list ion := map ion_of shipped_ions.
Fixpoint ion_fileb (recs : list ion) (lines : list str) : bool :=
  match lines with
  | [] => match recs with [] => true | _ => false end
  | l :: rest =>
    match words l with
    | [] => ion_fileb recs rest
    | w :: ws =>
      if starts (lit "#") w then ion_fileb recs rest
      else match ws, recs with
           | zt :: vts, (el, z, vs) :: recs' => eqs el w && numberb z zt && forall2b numberb vs vts && ion_fileb recs' rest
           | _, _ => false
           end
    end
  end.
Lemma ion_fileb_sound lines : forall recs, ion_fileb recs lines = true -> ion_file recs lines.
Proof.
  induction lines as [|l rest IH]; intros recs H; cbn [ion_fileb] in H. { destruct recs; [constructor|discriminate]. }
  pose proof (line_words l) as HL. destruct (words l) as [|w ws]. { apply ions_skip; [now left|auto]. }
  destruct (starts (lit "#") w) eqn:ES. { apply ions_skip; [|auto]. right. apply starts_spec in ES as (r & ->). exists r, ws. exact HL. }
  destruct ws as [|zt vts]; [discriminate|]. destruct recs as [|[[el z] vs] recs']; [discriminate|].
  apply andb_true_iff in H as [H H4]. apply andb_true_iff in H as [H H3]. apply andb_true_iff in H as [H1 H2]. apply eqs_true in H1 as ->.
  eapply ions_line; [exact HL|now apply numberb_sound|exact (forall2b_sound _ _ numberb_sound _ _ H3)|auto].
Qed.
Lemma ions_shipped : ion_file ion_records ion_lines.
Proof. apply ion_fileb_sound. vm_compute. reflexivity. Qed.
Definition goodb (r : ion) : bool :=
  elementb (ion_name r) && nodupb Z.eqb (ion_charges r) && forallb (fun v => negb (v =? 0)%Z && (-8 <=? v)%Z && (v <=? 8)%Z) (ion_charges r).
Lemma ions_good : good_ions ion_records /\ listed ion_records = 447%nat.
Proof.
  split; [|vm_compute; reflexivity]. split.
  - apply (nodupb_sound eqs eqs_refl). vm_compute. reflexivity.
  - assert (H : forallb goodb ion_records = true) by (vm_compute; reflexivity). rewrite forallb_forall in H. intros r Hr. specialize (H r Hr). unfold goodb in H.
    apply andb_true_iff in H as [H H3]. apply andb_true_iff in H as [H1 H2]. split; [now apply elementb_sound|]. split; [now apply (nodupb_sound Z.eqb Z.eqb_refl)|].
    rewrite forallb_forall in H3. intros v Hv. specialize (H3 v Hv). apply andb_true_iff in H3 as [H3 Hb]. apply andb_true_iff in H3 as [Hn Ha]. apply negb_true_iff, Z.eqb_neq in Hn. lia.
Qed.

(** *** nsftable.dat *)
Section Nsf.
  Variable num : str -> option R.
  Definition value (w : string) : R := match num (chars w) with Some b => b | None => 0 end.
  Definition nrec_of (r : string * string * option (string * string) * string) : nrec :=
    let '(Z, el, iso, w) := r in match iso with None => Element (chars Z) (chars el) (value w) | Some (A, life) => Isotope (chars Z) (chars el) (chars A) (chars life) (value w) end.
  Definition nsf_records : list nrec := map nrec_of shipped_neutrons.
  Definition digitsb (s : str) : bool := match s with [] => false | _ => forallb (fun c => existsb (Ascii.eqb c) (chars "0123456789")) s end.
  Lemma digitsb_sound s : digitsb s = true -> is_digits s.
  Proof.
    intros H. split; [intros ->; discriminate|]. assert (H' : forallb (fun c => existsb (Ascii.eqb c) (chars "0123456789")) s = true) by (destruct s; [discriminate|exact H]). rewrite forallb_forall in H'. apply Forall_forall. intros c Hc.
    specialize (H' c Hc). apply existsb_exists in H' as (x & Hx & E). apply Ascii.eqb_eq in E. now subst.
  Qed.
  Definition itemsb (ws : list str) (l : str) : bool :=
    (length ws =? 11)%nat && forallb (fun w => negb (existsb (Ascii.eqb ","%char) w)) ws && negb (eqs (last ws []) []) && eqs l (joined ws).
  Lemma itemsb_sound ws l : itemsb ws l = true -> items ws l.
  Proof.
    intros H. apply andb_true_iff in H as [H H4]. apply andb_true_iff in H as [H H3]. apply andb_true_iff in H as [H1 H2]. split; [now apply Nat.eqb_eq|]. split; [|split].
    - rewrite forallb_forall in H2. apply Forall_forall. intros w Hw Hin. specialize (H2 w Hw). apply negb_true_iff in H2. assert (existsb (Ascii.eqb ","%char) w = true) by (apply existsb_exists; exists ","%char; auto). congruence.
    - intros E. rewrite E in H3. discriminate.
    - now apply eqs_true.
  Qed.
  Definition hash (w : str) : bool := match w with c :: _ => (c =? "#")%char | [] => false end.
  Definition srec := (string * string * option (string * string) * string)%type.
  Definition matchb (r : srec) (ws : list str) : bool :=
    let '(Z, el, iso, w) := r in digitsb (chars Z) && elementb (chars el) && eqs (nth 3 ws []) (chars w) &&
    match iso with
    | None => eqs (nth 0 ws []) (chars Z ++ "-"%char :: chars el)
    | Some (A, life) => digitsb (chars A) && eqs (nth 0 ws []) (chars Z ++ "-"%char :: chars el ++ "-"%char :: chars A) && eqs (nth 1 ws []) (chars life)
    end.
  Fixpoint nsf_fileb (recs : list srec) (lines : list str) : bool :=
    match lines with
    | [] => match recs with [] => true | _ => false end
    | l :: rest =>
      match l with
      | [] => nsf_fileb recs rest
      | _ => if hash l then nsf_fileb recs rest else
        let ws := split "," l in
        itemsb ws l && (if eqs (nth 3 ws []) [] then negb (hash (nth 0 ws [])) && nsf_fileb recs rest
                        else match recs with r :: recs' => matchb r ws && nsf_fileb recs' rest | [] => false end)
      end
    end.
  Lemma nsf_fileb_sound lines : forall recs, (forall r, In r recs -> num (chars (snd r)) <> None) -> nsf_fileb recs lines = true -> nsf_file num (map nrec_of recs) lines.
  Proof.
    induction lines as [|l rest IH]; intros recs Hn H; cbn [nsf_fileb] in H. { destruct recs; [constructor|discriminate]. }
    destruct l as [|c r]. { apply nsf_skip; auto. }
    destruct (hash (c :: r)) eqn:EH. { apply nsf_skip; [|auto]. right. cbn in EH. apply Ascii.eqb_eq in EH. subst. eauto. }
    set (l := c :: r) in *. cbv zeta in H. apply andb_true_iff in H as [HI H]. apply itemsb_sound in HI. destruct (eqs (nth 3 (split "," l) []) []) eqn:E3.
    - apply andb_true_iff in H as [H1 H2]. eapply nsf_none; [exact HI| |now apply eqs_true|auto]. intros x Ex. rewrite Ex in H1. discriminate.
    - destruct recs as [|[[[Z el] iso] w] recs']; [discriminate|]. apply andb_true_iff in H as [HM H2]. cbn [map]. eapply nsf_line; [exact HI| | |apply IH; [intros x Hx; apply Hn; now right|exact H2]].
      + cbn [matchb] in HM. apply andb_true_iff in HM as [HM HI']. apply andb_true_iff in HM as [HM _]. apply andb_true_iff in HM as [H1 H3].
        apply digitsb_sound in H1. apply elementb_sound in H3. destruct iso as [[A life]|]; cbn [nrec_of nrec_ok]; auto.
        apply andb_true_iff in HI' as [HI' _]. apply andb_true_iff in HI' as [HA _]. apply digitsb_sound in HA. auto.
      + cbn [matchb] in HM. apply andb_true_iff in HM as [HM HI']. apply andb_true_iff in HM as [HM HW]. apply eqs_true in HW.
        assert (HN : num (nth 3 (split "," l) []) = Some (value w)). { rewrite HW. unfold value. specialize (Hn (Z, el, iso, w) (or_introl eq_refl)). cbn [snd] in Hn. destruct (num (chars w)); congruence. }
        assert (H3 : nth 3 (split "," l) [] <> []). { intros E. rewrite E in E3. discriminate. }
        destruct iso as [[A life]|]; cbn [nrec_of nrec_items].
        * apply andb_true_iff in HI' as [HI' HL]. apply andb_true_iff in HI' as [_ H0]. apply eqs_true in HL, H0. auto.
        * apply eqs_true in HI'. auto.
  Qed.
  Lemma nsf_shipped : (forall r, In r shipped_neutrons -> num (chars (snd r)) <> None) -> nsf_file num nsf_records nsf_lines_shipped.
  Proof. intros H. apply nsf_fileb_sound; [exact H|vm_compute; reflexivity]. Qed.
  (** pairs of records *)
  Definition yearb (life : str) : bool := eqs life (chars "100") || match rev life with c :: _ => (c =? "Y")%char | [] => false end.
  Definition clash (r s : srec) : bool :=
    let '(_, el, iso, _) := r in let '(_, el', iso', _) := s in
    String.eqb el el' &&
    (match iso, iso' with Some (A, _), Some (A', _) => String.eqb A A' | _, _ => false end ||
     (match iso with None => true | Some (_, life) => yearb (chars life) end && match iso' with None => true | Some (_, life') => eqs (chars life') (chars "100") end)).
  Fixpoint pairwiseb (l : list srec) : bool := match l with [] => true | r :: l => forallb (fun s => negb (clash r s)) l && pairwiseb l end.
  Lemma pairwiseb_sound l : pairwiseb l = true -> forall l1 r1 l2 r2 l3, l = l1 ++ r1 :: l2 ++ r2 :: l3 -> clash r1 r2 = false.
  Proof.
    induction l as [|x l IH]; intros H l1 r1 l2 r2 l3 E; [destruct l1; discriminate|]. cbn in H. apply andb_true_iff in H as [H1 H2]. destruct l1 as [|y l1]; cbn [app] in E; injection E as -> ->.
    - rewrite forallb_forall in H1. apply negb_true_iff, H1, in_or_app. right. now left.
    - eapply IH; eauto.
  Qed.
  Lemma chars_inj a b : chars a = chars b -> a = b.
  Proof. intros H. rewrite <- (string_of_list_ascii_of_string a), <- (string_of_list_ascii_of_string b). unfold chars in H. now rewrite H. Qed.
  Lemma map_split {A B} (f : A -> B) l : forall l1 b l2, map f l = l1 ++ b :: l2 -> exists m1 a m2, l = m1 ++ a :: m2 /\ map f m1 = l1 /\ f a = b /\ map f m2 = l2.
  Proof.
    induction l as [|x l IH]; intros [|y l1] b l2 E; cbn in E; try discriminate.
    - injection E as <- <-. exists [], x, l. auto.
    - injection E as <- E. destruct (IH _ _ _ E) as (m1 & a & m2 & -> & <- & <- & <-). exists (x :: m1), a, m2. auto.
  Qed.
  Lemma map_split2 {A B} (f : A -> B) l l1 b1 l2 b2 l3 : map f l = l1 ++ b1 :: l2 ++ b2 :: l3 -> exists m1 a1 m2 a2 m3, l = m1 ++ a1 :: m2 ++ a2 :: m3 /\ f a1 = b1 /\ f a2 = b2.
  Proof.
    intros E. apply map_split in E as (m1 & a1 & m & -> & _ & E1 & E). apply map_split in E as (m2 & a2 & m3 & -> & _ & E2 & _). exists m1, a1, m2, a2, m3. auto.
  Qed.
  Lemma yearb_spec life : life = chars "100" \/ head (rev life) = Some "Y"%char -> yearb life = true.
  Proof. intros [->|H]; [reflexivity|]. unfold yearb. destruct (rev life); [discriminate|]. cbn in H. injection H as ->. now rewrite orb_true_r. Qed.
  Lemma nsf_good_shipped : good_nsf nsf_records.
  Proof.
    assert (HP : pairwiseb shipped_neutrons = true) by (vm_compute; reflexivity). pose proof (pairwiseb_sound _ HP) as HC.
    split; [|split].
    - intros l1 r1 l2 r2 l3 el A E I1 I2. apply map_split2 in E as (m1 & a1 & m2 & a2 & m3 & E & <- & <-). specialize (HC _ _ _ _ _ E).
      destruct a1 as [[[Z1 e1] [[A1 f1]|]] w1]; [|destruct I1]. destruct a2 as [[[Z2 e2] [[A2 f2]|]] w2]; [|destruct I2]. cbn [nrec_of isotope_of] in I1, I2. destruct I1 as [<- <-], I2 as [X Y]. apply chars_inj in X, Y. subst.
      cbn [clash] in HC. rewrite !String.eqb_refl in HC. discriminate.
    - intros l1 r1 l2 r2 l3 el E I1 I2. apply map_split2 in E as (m1 & a1 & m2 & a2 & m3 & E & <- & <-). specialize (HC _ _ _ _ _ E).
      destruct a1 as [[[Z1 e1] i1] w1], a2 as [[[Z2 e2] i2] w2]. assert (e1 = e2).
      { apply chars_inj. destruct i1 as [[A1 f1]|], i2 as [[A2 f2]|]; cbn in I1, I2; intuition congruence. }
      subst e2. unfold clash in HC. rewrite String.eqb_refl in HC. cbn [andb] in HC. apply orb_false_iff in HC as [_ HC]. apply andb_false_iff in HC as [HC|HC].
      + destruct i1 as [[A1 f1]|]; [|discriminate]. cbn [nrec_of stands_for] in I1. destruct I1 as [_ I1]. apply yearb_spec in I1. congruence.
      + destruct i2 as [[A2 f2]|]; [|discriminate]. cbn [nrec_of must_be_first] in I2. destruct I2 as [_ I2]. rewrite I2 in HC. discriminate.
    - assert (HL : forallb (fun r : srec => let '(_, _, iso, _) := r in match iso with Some (_, life) => negb (String.eqb life "") | None => true end) shipped_neutrons = true) by (vm_compute; reflexivity).
      rewrite forallb_forall in HL. intros r Hr. apply in_map_iff in Hr as ([[[Z el] [[A life]|]] w] & <- & Hin); cbn [nrec_of]; auto. specialize (HL _ Hin). cbn in HL. intros E. destruct life; [discriminate HL|discriminate E].
  Qed.
  Lemma nsf_complete_shipped : complete_nsf nsf_records.
  Proof.
    assert (H : forall el A, existsb (fun r : srec => let '(_, e, iso, _) := r in match iso with Some (a, _) => String.eqb e el && String.eqb a A | None => false end) shipped_neutrons = true -> has_isotope nsf_records (chars el) (chars A)).
    { intros el A H. apply existsb_exists in H as ([[[Z e] [[a life]|]] w] & Hin & HE); [|discriminate]. apply andb_true_iff in HE as [H1 H2]. apply String.eqb_eq in H1, H2. subst.
      exists (nrec_of (Z, el, Some (A, life), w)). split; [now apply in_map|]. cbn. auto. }
    repeat split; apply H; vm_compute; reflexivity.
  Qed.
  Lemma no_alias_entry name : In name [chars "n"; chars "D"; chars "T"] -> forall x, In x nsf_records -> ~ stands_for name x.
  Proof.
    assert (H : forallb (fun r : srec => let '(_, e, iso, _) := r in negb ((String.eqb e "D" || String.eqb e "T") || String.eqb e "n" && match iso with None => true | Some (_, life) => yearb (chars life) end)) shipped_neutrons = true) by (vm_compute; reflexivity).
    rewrite forallb_forall in H. intros Hn x Hx HS. apply in_map_iff in Hx as ([[[Z e] iso] w] & <- & Hin). specialize (H _ Hin). cbn in H. apply negb_true_iff, orb_false_iff in H as [H1 H2]. apply orb_false_iff in H1 as [HD HT].
    assert (He : chars e = name) by (destruct iso as [[A life]|]; cbn in HS; [apply HS|exact HS]). subst name. destruct Hn as [E|[E|[E|[]]]]; apply chars_inj in E; subst e; try discriminate.
    cbn in H2. destruct iso as [[A life]|]; [|discriminate]. cbn in HS. destruct HS as [_ HS]. apply yearb_spec in HS. congruence.
  Qed.
End Nsf.

(** *** f0_WaasKirf.dat *)
Section Wk.
  Variable num : str -> option R.
  Definition vals (ws : list string) : list R := map (value num) ws.
  Definition wrec_of (r : string * list string) : wkrec := let v := vals (snd r) in (chars (fst r), (firstn 5 v, nth 5 v 0, skipn 6 v)).
  Definition wk_records : list wkrec := map wrec_of shipped_formulas.
  Definition readable_words (recs : list (string * list string)) : Prop := forall r w, In r recs -> In w (snd r) -> num (chars w) <> None.
  Definition marked (w : str) : bool := starts (lit "#S") w || starts (lit "#L") w.
  Fixpoint wk_fileb (sym : option str) (recs : list (string * list string)) (lines : list str) : bool :=
    match lines with
    | [] => match sym, recs with None, [] => true | _, _ => false end
    | l :: rest =>
      match words l with
      | [] => wk_fileb sym recs rest
      | w :: ws =>
        if negb (marked w) then wk_fileb sym recs rest else
        match sym with
        | None => if starts (lit "#S") w then match ws with _ :: s :: _ => wk_fileb (Some s) recs rest | _ => false end else false
        | Some s =>
          if starts (lit "#L") w then
            match rest, recs with
            | d :: rest', r :: recs' => eqs s (chars (fst r)) && eql (words d) (map chars (snd r)) && (length (snd r) =? 11)%nat && wk_fileb None recs' rest'
            | _, _ => false
            end
          else false
        end
      end
    end.
  Lemma marked_other l : match words l with [] => True | w :: _ => marked w = false end -> other_line l.
  Proof.
    intros H. pose proof (line_words l) as HL. destruct (words l) as [|w ws]; [now left|]. right. exists w, ws. split; auto. unfold marked in H. apply orb_false_iff in H as [H1 H2].
    split; intros r ->; [discriminate H1|discriminate H2].
  Qed.
  Lemma vals_numbers ws : (forall w, In w ws -> num (chars w) <> None) -> numbers num (map chars ws) (vals ws).
  Proof.
    induction ws as [|w ws IH]; intros H; cbn [map vals]; [constructor|]. constructor; [|apply IH; intros x Hx; apply H; now right]. unfold value. specialize (H w (or_introl eq_refl)). destruct (num (chars w)); congruence.
  Qed.
  Lemma wk_fileb_sound n : forall lines, (length lines <= n)%nat -> forall recs, readable_words recs ->
    (wk_fileb None recs lines = true -> wk_file num (map wrec_of recs) lines) /\
    (forall s sl st nn more, wk_fileb (Some s) recs lines = true -> is_line (("#"%char :: "S"%char :: st) :: nn :: s :: more) sl -> wk_file num (map wrec_of recs) (sl :: lines)).
  Proof.
    induction n as [|n IH]; intros [|l rest] Hl recs Hr; cbn in Hl; try lia.
    1,2: split; [destruct recs; [constructor|discriminate]|discriminate].
    pose proof (line_words l) as HL. cbn [wk_fileb].
    assert (GEN : forall lines m, (length lines <= m)%nat -> (m <= n)%nat -> forall recs, readable_words recs -> forall s mid, Forall other_line mid ->
      forall sl st nn more, wk_fileb (Some s) recs lines = true -> is_line (("#"%char :: "S"%char :: st) :: nn :: s :: more) sl -> wk_file num (map wrec_of recs) (sl :: mid ++ lines)).
    { clear l rest Hl recs Hr HL. intros lines m. revert lines. induction m as [|m IHm]; intros [|l rest] Hl Hm recs Hr s mid Hmid sl st nn more H Hsl; cbn in Hl; try lia; try discriminate.
      cbn [wk_fileb] in H. pose proof (line_words l) as HL. destruct (words l) as [|w ws] eqn:EW.
      { change (l :: rest) with ([l] ++ rest). rewrite app_assoc. eapply IHm; eauto; try lia. apply Forall_app. split; auto. constructor; [left; exact HL|constructor]. }
      destruct (negb (marked w)) eqn:EM.
      { change (l :: rest) with ([l] ++ rest). rewrite app_assoc. eapply IHm; eauto; try lia. apply Forall_app. split; auto. constructor; [|constructor]. apply marked_other. rewrite EW. now apply negb_true_iff. }
      destruct (starts (lit "#L") w) eqn:ES; [|discriminate]. destruct rest as [|d rest']; [discriminate|]. destruct recs as [|r recs']; [discriminate|].
      apply andb_true_iff in H as [H H4]. apply andb_true_iff in H as [H H3]. apply andb_true_iff in H as [H1 H2]. apply eqs_true in H1. apply eql_true in H2. apply Nat.eqb_eq in H3. subst s.
      apply starts_spec in ES as (r0 & ->). cbn [map]. cbn in Hl.
      assert (LV : length (vals (snd r)) = 11%nat) by (unfold vals; now rewrite map_length).
      eapply (wk_block num (chars (fst r)) (firstn 5 (vals (snd r))) (skipn 6 (vals (snd r))) (nth 5 (vals (snd r)) 0)); [exact Hsl|exact Hmid|exact HL| | | | |].
      - exact (line_words d).
      - rewrite H2. replace (firstn 5 (vals (snd r)) ++ nth 5 (vals (snd r)) 0 :: skipn 6 (vals (snd r))) with (vals (snd r)).
        + apply vals_numbers. intros w Hw. apply (Hr r); [now left|exact Hw].
        + clear - LV. set (v := vals (snd r)) in *. do 6 (destruct v as [|? v]; [discriminate|]). reflexivity.
      - rewrite firstn_length. lia.
      - rewrite skipn_length. lia.
      - apply (IH rest'); [lia|intros x w Hx Hw; apply (Hr x w); [now right|exact Hw]|exact H4]. }
    split.
    - intros H. destruct (words l) as [|w ws] eqn:EW.
      { apply wk_other; [now left|]. apply IH; auto; lia. }
      destruct (negb (marked w)) eqn:EM.
      { apply wk_other; [apply marked_other; rewrite EW; now apply negb_true_iff|]. apply IH; auto; lia. }
      destruct (starts (lit "#S") w) eqn:ES; [|discriminate]. destruct ws as [|nn [|s more]]; try discriminate. apply starts_spec in ES as (r & ->).
      apply (GEN rest n ltac:(lia) ltac:(lia) recs Hr s [] ltac:(constructor) l r nn more H). exact HL.
    - intros s sl st nn more H Hsl.
      destruct (words l) as [|w ws] eqn:EW.
      { apply (GEN rest n ltac:(lia) ltac:(lia) recs Hr s [l] ltac:(constructor; [left; exact HL|constructor]) sl st nn more H Hsl). }
      destruct (negb (marked w)) eqn:EM.
      { apply (GEN rest n ltac:(lia) ltac:(lia) recs Hr s [l] ltac:(constructor; [apply marked_other; rewrite EW; now apply negb_true_iff|constructor]) sl st nn more H Hsl). }
      destruct (starts (lit "#L") w) eqn:ES; [|discriminate]. destruct rest as [|d rest']; [discriminate|]. destruct recs as [|r recs']; [discriminate|].
      apply andb_true_iff in H as [H H4]. apply andb_true_iff in H as [H H3]. apply andb_true_iff in H as [H1 H2]. apply eqs_true in H1. apply eql_true in H2. apply Nat.eqb_eq in H3. subst s.
      apply starts_spec in ES as (r0 & ->). cbn [map]. cbn in Hl.
      assert (LV : length (vals (snd r)) = 11%nat) by (unfold vals; now rewrite map_length).
      eapply (wk_block num (chars (fst r)) (firstn 5 (vals (snd r))) (skipn 6 (vals (snd r))) (nth 5 (vals (snd r)) 0) st nn r0 more [] ws sl l d); [exact Hsl|constructor|exact HL|exact (line_words d)| | | |].
      + rewrite H2. replace (firstn 5 (vals (snd r)) ++ nth 5 (vals (snd r)) 0 :: skipn 6 (vals (snd r))) with (vals (snd r)).
        * apply vals_numbers. intros w Hw. apply (Hr r); [now left|exact Hw].
        * clear - LV. set (v := vals (snd r)) in *. do 6 (destruct v as [|? v]; [discriminate|]). reflexivity.
      + rewrite firstn_length. lia.
      + rewrite skipn_length. lia.
      + apply (IH rest'); [lia|intros x w Hx Hw; apply (Hr x w); [now right|exact Hw]|exact H4].
  Qed.
  Lemma wk_shipped : readable_words shipped_formulas -> wk_file num wk_records wk_lines_shipped.
  Proof. intros H. apply (wk_fileb_sound (length wk_lines_shipped) _ (le_n _) _ H). vm_compute. reflexivity. Qed.
  Definition nameb (s : str) : bool :=
    elementb s || match rev s with
                  | sg :: d :: r => ((sg =? "+")%char || (sg =? "-")%char) && existsb (fun k => (charge_digit k =? d)%char) (seq 1 8) && elementb (rev r)
                  | _ => false
                  end.
  Lemma nameb_sound s : nameb s = true -> exists el v, element el /\ standard_name el v s.
  Proof.
    unfold nameb. intros H. apply orb_true_iff in H as [H|H]. { exists s, 0%Z. split; [now apply elementb_sound|]. left. auto. }
    destruct (rev s) as [|sg [|d r]] eqn:ER; try discriminate. apply andb_true_iff in H as [H H3]. apply andb_true_iff in H as [H1 H2].
    apply existsb_exists in H2 as (k & Hk & E). apply in_seq in Hk. apply Ascii.eqb_eq in E. subst d.
    assert (Hs : is_sign sg). { apply orb_true_iff in H1 as [H1|H1]; apply Ascii.eqb_eq in H1; subst; [now left|now right]. }
    exists (rev r), (sign_value sg * Z.of_nat k)%Z. split; [now apply elementb_sound|]. right. exists sg, k. repeat split; auto; try lia.
    rewrite <- (rev_involutive s), ER. cbn. now rewrite <- app_assoc.
  Qed.
  Lemma wk_good_shipped : good_wk wk_records.
  Proof.
    assert (E : map wk_name wk_records = map (fun r => chars (fst r)) shipped_formulas). { unfold wk_records. rewrite map_map. apply map_ext. intros [s w]. reflexivity. }
    split.
    - rewrite E. apply (nodupb_sound eqs eqs_refl). vm_compute. reflexivity.
    - assert (H : forallb nameb (map (fun r => chars (fst r)) shipped_formulas) = true) by (vm_compute; reflexivity). rewrite forallb_forall in H. intros r Hr. apply nameb_sound, H. rewrite <- E. now apply in_map.
  Qed.
End Wk.
