(** The shipped bond valence parameters: the whole text is checked by the kernel. *)
From Coq Require Import Ascii String.
From Verif Require Import Base AList RBase Trig Sums Bvs BvsSpec BvsTable BvsProofs Tables Data DataSpec DataText DataIons DataWk DataNsf DataHist DataExample DataShipped DataShippedProofs SftData SftDataSpec SftDataProofs SftDataShipped DataBvShipped DataBvShippedSpec.
Open Scope R_scope.
Open Scope list_scope.
Notation length := List.length.

(** *** checks *)
Fixpoint bv_bodyb (recs : list brec) (lines : list str) : bool :=
  match lines with
  | [] => match recs with [] => true | _ => false end
  | l :: rest =>
    match words l with
    | [] => bv_bodyb recs rest
    | w :: ws =>
      if starts (lit "#") w then bv_bodyb recs rest
      else match ws, recs with
           | t0 :: b :: t1 :: wr :: wb :: _ :: _, (a0, v0, a1, v1, (r, bb)) :: recs' =>
             eqs (chars a0) w && numberb v0 t0 && eqs (chars a1) b && numberb v1 t1 && eqs (chars r) wr && eqs (chars bb) wb && bv_bodyb recs' rest
           | _, _ => false
           end
    end
  end.
Definition thousandths (w : string) : option Z :=
  match read_decimal (chars w) with
  | Some (z, 0%nat) => Some (1000 * z)%Z | Some (z, 1%nat) => Some (100 * z)%Z | Some (z, 2%nat) => Some (10 * z)%Z | Some (z, 3%nat) => Some z
  | _ => None
  end.
(** 0 < Ro, 0.26 <= B, Ro + 12 B <= 14.46; the first charge is positive and not the smaller one *)
Definition bondb (r : brec) : bool :=
  let '(a0, v0, a1, v1, (wr, wb)) := r in
  elementb (chars a0) && elementb (chars a1) && (0 <? v0)%Z && (v0 <=? 9)%Z && (-8 <=? v1)%Z && ((v1 <? 0)%Z || (v0 <=? 8)%Z && (v1 <=? v0)%Z) &&
  match thousandths wr, thousandths wb with
  | Some a, Some b => (500 <=? a)%Z && (a <=? 3200)%Z && (260 <=? b)%Z && (b <=? 940)%Z && (a + 12 * b <=? 15000)%Z
  | _, _ => false
  end.
Definition bkey (r : brec) : key := let '(a0, v0, a1, v1, _) := r in bond_key (chars a0) v0 (chars a1) v1.
Definition keyb (k l : key) : bool := let '(a0, v0, a1, v1) := k in let '(b0, w0, b1, w1) := l in (v0 =? w0)%Z && (v1 =? w1)%Z && eqs a0 b0 && eqs a1 b1.
Lemma keyb_refl k : keyb k k = true.
Proof. destruct k as [[[a0 v0] a1] v1]. unfold keyb. now rewrite !Z.eqb_refl, !eqs_refl. Qed.
Lemma bodyb_ok : bv_bodyb shipped_bonds (map chars cif_body) = true. Proof. vm_compute. reflexivity. Qed.
Lemma bonds_ok : forallb bondb shipped_bonds = true. Proof. vm_compute. reflexivity. Qed.
Lemma keys_ok : nodupb keyb (map bkey shipped_bonds) = true. Proof. vm_compute. reflexivity. Qed.
Lemma head_ok : forallb (fun l => match words l with w :: _ => negb (eqs w (chars "_valence_param_B")) | [] => true end) (map chars cif_head) = true.
Proof. vm_compute. reflexivity. Qed.
Lemma rest_ok : forallb (fun l => match words l with [] => false | _ => true end) (map chars cif_rest) = true. Proof. vm_compute. reflexivity. Qed.
Lemma keys_nodup : NoDup (map bkey shipped_bonds).
Proof. exact (nodupb_sound keyb keyb_refl _ keys_ok). Qed.

Lemma word_thousandths w z : thousandths w = Some z -> decimal_word (IZR z / 1000) (chars w).
Proof.
  unfold thousandths. destruct (read_decimal (chars w)) as [[z' k]|] eqn:E; [|discriminate]. apply read_decimal_sound in E. unfold decimal_value in E. cbn [fst snd] in E.
  assert (S : forall a b : Z, Some a = Some b -> a = b) by (intros a b X; now injection X).
  do 4 (destruct k as [|k]; [intros E2; apply S in E2; subst z; match type of E with decimal_word ?x _ => match goal with |- decimal_word ?y _ => replace y with x; [exact E|] end end; rewrite ?mult_IZR; cbn [pow]; lra|]).
  discriminate.
Qed.

Section Num.
  Variable num : str -> option R.
  Hypothesis HN : reads_decimals num.
  Definition brec_of (r : brec) : bvrec := let '(a0, v0, a1, v1, (wr, wb)) := r in (chars a0, v0, chars a1, v1, value num wr, value num wb).
  Lemma brec_key r : fst (bv_param (brec_of r)) = bkey r.
  Proof. destruct r as [[[[a0 v0] a1] v1] [wr wb]]. reflexivity. Qed.
  Lemma word_value w z : thousandths w = Some z -> num (chars w) = Some (value num w) /\ decimal_word (value num w) (chars w) /\ value num w = IZR z / 1000.
  Proof. intros H. apply word_thousandths in H. unfold value. rewrite (HN _ _ H). auto. Qed.
  Definition proper (r : brec) : Prop := let '(a0, v0, a1, v1, (wr, wb)) := r in
    element (chars a0) /\ element (chars a1) /\ (0 < v0 <= 9)%Z /\ (-8 <= v1)%Z /\ ((v1 < 0)%Z \/ (v0 <= 8)%Z /\ (v1 <= v0)%Z) /\ num (chars wr) = Some (value num wr) /\ num (chars wb) = Some (value num wb) /\ decimal_word (value num wr) (chars wr) /\ decimal_word (value num wb) (chars wb) /\ 1 / 2 <= value num wr <= 32 / 10 /\ 26 / 100 <= value num wb <= 94 / 100 /\ value num wr + 12 * value num wb <= 15.
  Lemma bondb_proper r : bondb r = true -> proper r.
  Proof.
    destruct r as [[[[a0 v0] a1] v1] [wr wb]]. unfold bondb, proper. rewrite !andb_true_iff. intros ((((((H1 & H2) & H3) & H4) & H5) & H6) & H7).
    destruct (thousandths wr) as [a|] eqn:Ea; [|discriminate]. destruct (thousandths wb) as [b|] eqn:Eb; [|discriminate].
    apply word_value in Ea as (Ea1 & Ea2 & Ea3). apply word_value in Eb as (Eb1 & Eb2 & Eb3).
    rewrite !andb_true_iff in H7. destruct H7 as ((((K1 & K2) & K3) & K4) & K5). apply Z.leb_le, IZR_le in K1, K2, K3, K4, K5. rewrite plus_IZR, mult_IZR in K5.
    apply elementb_sound in H1, H2. apply Z.ltb_lt in H3. apply Z.leb_le in H4, H5. rewrite orb_true_iff, andb_true_iff, Z.ltb_lt, !Z.leb_le in H6.
    rewrite Ea3, Eb3 in *. repeat (split; [first [assumption|lia|lra]|]). repeat split; lra.
  Qed.
  Lemma all_proper r : In r shipped_bonds -> proper r.
  Proof. pose proof bonds_ok as C. rewrite forallb_forall in C. intros H. apply bondb_proper. exact (C r H). Qed.
  Lemma bodyb_sound lines : forall recs, (forall r, In r recs -> proper r) -> bv_bodyb recs lines = true -> bv_lines num (map brec_of recs) lines.
  Proof.
    induction lines as [|l rest IH]; intros recs HP H; cbn [bv_bodyb] in H. { destruct recs; [constructor|discriminate]. }
    pose proof (line_words l) as HL. destruct (words l) as [|w ws]. { apply bvl_skip; [now left|auto]. }
    destruct (starts (lit "#") w) eqn:ES. { apply bvl_skip; [|auto]. right. apply starts_spec in ES as (r & ->). exists r, ws. exact HL. }
    do 6 (destruct ws as [|? ws]; [discriminate|]). destruct recs as [|[[[[a0 v0] a1] v1] [wr wb]] recs']; [discriminate|].
    rewrite !andb_true_iff in H. destruct H as ((((((H1 & H2) & H3) & H4) & H5) & H6) & H7). apply eqs_true in H1, H3, H5, H6. subst. apply numberb_sound in H2, H4.
    destruct (HP _ (or_introl eq_refl)) as (P1 & _ & _ & _ & _ & P2 & P3 & _).
    cbn [map brec_of]. eapply bvl_line; [exact HL| |exact H2|exact H4|exact P2|exact P3|apply IH; auto; intros r Hr; apply HP; now right].
    intros r Er. rewrite Er in ES. discriminate.
  Qed.
  Lemma bv_shipped : bv_file num (map brec_of shipped_bonds) bv_dat.
  Proof.
    exists (map chars cif_head), (chars "   _valence_param_B"), (map chars cif_rest), (chars ""), (map chars cif_body). split. { unfold bv_dat. rewrite !map_app. reflexivity. }
    split. { apply Forall_forall. intros l Hl ws W. pose proof head_ok as C. rewrite forallb_forall in C. specialize (C l Hl). cbv beta in C. rewrite (words_line _ _ W), eqs_refl in C. discriminate. }
    split. { exists []. pose proof (line_words (chars "   _valence_param_B")) as H. exact H. }
    split. { apply Forall_forall. intros l Hl W. pose proof rest_ok as C. rewrite forallb_forall in C. specialize (C l Hl). cbv beta in C. rewrite (words_line _ _ W) in C. discriminate. }
    split. { constructor. constructor. }
    apply bodyb_sound; [exact all_proper|exact bodyb_ok].
  Qed.
  (** finding a record *)
  Lemma first_in recs r : NoDup (map bkey recs) -> In r recs -> first_param (map brec_of recs) (bkey r) = Some (snd (bv_param (brec_of r))).
  Proof.
    induction recs as [|x recs IH]; intros HND Hin; [destruct Hin|]. destruct Hin as [->|H]; cbn [map first_param]; inversion_clear HND as [|? ? Hn Hd]; rewrite brec_key.
    - destruct (key_dec (bkey r) (bkey r)); [reflexivity|congruence].
    - destruct (key_dec (bkey x) (bkey r)) as [E|]; [|auto]. exfalso. apply Hn. rewrite E. now apply in_map.
  Qed.
  Lemma first_none recs k : (forall r, In r recs -> bkey r <> k) -> first_param (map brec_of recs) k = None.
  Proof.
    induction recs as [|x recs IH]; intros H; [reflexivity|]. cbn [map first_param]. rewrite brec_key. destruct (key_dec (bkey x) k) as [E|]; [exfalso; apply (H x); [now left|exact E]|]. apply IH. intros r Hr. apply H. now right.
  Qed.
  Definition loaded (t : list bvparam) : Prop := read_bv num bv_dat = Ok t.
  Lemma loads : exists t, loaded t.
  Proof.
    pose proof bv_shipped as (h1 & hl & h2 & bl & body & E & H1 & Hh & H2 & Hb & HB). unfold loaded. rewrite E. unfold read_bv. rewrite bv_header, bv_blank by auto.
    destruct (bv_body num _ _ HB [] (mkBV [] 0 [] 0 0 0)) as (t & -> & _). eauto.
  Qed.
  Lemma loaded_param t k : loaded t -> std_param t k = first_param (map brec_of shipped_bonds) k.
  Proof.
    unfold loaded. intros HL. destruct k as [[[a0 v0] a1] v1]. set (p := Build_bvparam a0 v0 a1 v1 0 0).
    destruct (bv_main num _ _ p bv_shipped) as (o & Eo & Ev). rewrite fresh_bv, HL in Eo. injection Eo as <-. change (key_of p) with (a0, v0, a1, v1) in Ev.
    rewrite <- std_history. rewrite bvfind_k in Ev. change (key_of p) with (a0, v0, a1, v1) in Ev.
    destruct (kfind (a0, v0, a1, v1) t) as [q|] eqn:Ek; destruct (first_param _ _) as [x|]; cbn in Ev |- *; try discriminate; [|reflexivity]. injection Ev; intros X _ _ _ _. unfold BvsTable.vals. now rewrite X.
  Qed.
  (** the lookup by elements and charges *)
  Lemma lookup_loaded t a0 v0 a1 v1 : loaded t -> value_of (Bvs.lookup (newTable t) a0 v0 a1 v1) = best_entry [] t (bond_key a0 v0 a1 v1).
  Proof. intros _. exact (lookup_history [] t a0 v0 a1 v1). Qed.
  Lemma entry_loaded t k : loaded t -> BvsSpec.entry [] t k = first_param (map brec_of shipped_bonds) k.
  Proof. intros H. unfold BvsSpec.entry. cbn [rev last_custom]. now apply loaded_param. Qed.
  Lemma has_of o k r w : value_of o = Some (k, snd (bv_param (brec_of r))) -> proper r -> w = snd r -> has_values o w.
  Proof.
    destruct r as [[[[a0 v0] a1] v1] [wr wb]]. intros E P ->. destruct o as [p|]; [|discriminate]. cbn [value_of option_map brec_of bv_param snd] in E. injection E as _ E1 E2. exists p. split; [reflexivity|].
    unfold proper in P. cbn [fst snd]. rewrite E1, E2. tauto.
  Qed.
  Lemma lookup_listed t r k a0 v0 a1 v1 : loaded t -> In r shipped_bonds -> bkey r = k -> bond_key a0 v0 a1 v1 = k -> value_of (Bvs.lookup (newTable t) a0 v0 a1 v1) = Some (k, snd (bv_param (brec_of r))).
  Proof.
    intros HL Hin <- E. rewrite lookup_loaded, E by exact HL. unfold best_entry. rewrite entry_loaded by exact HL. rewrite first_in; [reflexivity|exact keys_nodup|exact Hin].
  Qed.
  Lemma lookup_nine t r a0 v0 a1 v1 b0 w0 b1 w1 : loaded t -> In r shipped_bonds -> bkey r = (a0, 9, a1, v1)%Z -> bond_key b0 w0 b1 w1 = (a0, v0, a1, v1) -> (0 < v0)%Z ->
    (forall r', In r' shipped_bonds -> bkey r' <> (a0, v0, a1, v1)) -> value_of (Bvs.lookup (newTable t) b0 w0 b1 w1) = Some ((a0, 9%Z, a1, v1), snd (bv_param (brec_of r))).
  Proof.
    intros HL Hin Hk E H0 Hno. rewrite lookup_loaded, E by exact HL. unfold best_entry. rewrite !entry_loaded by exact HL. rewrite first_none by exact Hno. rewrite (proj2 (Z.ltb_lt 0 v0) H0).
    rewrite <- Hk, first_in; [reflexivity|exact keys_nodup|exact Hin].
  Qed.
  Lemma lookup_absent t a0 v0 a1 v1 b0 w0 b1 w1 : loaded t -> bond_key b0 w0 b1 w1 = (a0, v0, a1, v1) ->
    (forall r, In r shipped_bonds -> bkey r <> (a0, v0, a1, v1)) -> ((0 < v0)%Z -> forall r, In r shipped_bonds -> bkey r <> (a0, 9, a1, v1)%Z) -> Bvs.lookup (newTable t) b0 w0 b1 w1 = None.
  Proof.
    intros HL E H1 H2. assert (X : value_of (Bvs.lookup (newTable t) b0 w0 b1 w1) = None).
    { rewrite lookup_loaded, E by exact HL. unfold best_entry. rewrite !entry_loaded by exact HL. rewrite first_none by exact H1. destruct (Z.ltb_spec 0 v0); [|reflexivity]. rewrite first_none; [reflexivity|]. now apply H2. }
    destruct (Bvs.lookup _ _ _ _ _); [discriminate|reflexivity].
  Qed.
  Lemma named s el v : element (chars el) -> ion_named s el v -> forall t, atomBareSymbol s = chars el /\ getAtomValence (newTable t) s = v.
  Proof.
    intros He (iso & ch & -> & Hi & Hc) t. pose proof (pr_name (chars el) iso ch v (element_symbol _ He) (element_newline _ He) Hi Hc) as E. unfold pr in E. injection E as E1 E2. split; [exact E1|]. exact E2.
  Qed.
  Lemma symbols_lookup t s0 el0 v0 s1 el1 v1 : element (chars el0) -> element (chars el1) -> ion_named s0 el0 v0 -> ion_named s1 el1 v1 ->
    lookup_symbols (newTable t) s0 s1 = Bvs.lookup (newTable t) (chars el0) v0 (chars el1) v1.
  Proof. intros H0 H1 N0 N1. unfold lookup_symbols. destruct (named _ _ _ H0 N0 t) as [-> ->]. destruct (named _ _ _ H1 N1 t) as [-> ->]. reflexivity. Qed.
End Num.
(** the order of the record *)
Lemma proper_order num a0 v0 a1 v1 w : proper num (a0, v0, a1, v1, w) -> bkey (a0, v0, a1, v1, w) = (chars a0, v0, chars a1, v1).
Proof. destruct w as [wr wb]. unfold proper, bkey, bond_key. intros (_ & _ & H1 & H2 & H3 & _). destruct (Z.ltb_spec v0 v1); [lia|reflexivity]. Qed.
Lemma charge_bound v ch : charge_text v ch -> (-8 <= v <= 8)%Z.
Proof.
  intros [(_ & ->)|[(sg & _ & _ & ->)|(sg & k & _ & Hk & _ & ->)]]; [lia| |]; unfold sign_value; destruct (ascii_dec sg "+"); lia.
Qed.
Lemma named_bound s el v : ion_named s el v -> (-8 <= v <= 8)%Z.
Proof. intros (iso & ch & _ & _ & H). now apply charge_bound in H. Qed.
Lemma exp_12 : exp (-12) < 1 / 100000.
Proof.
  assert (A : 1 + / 64 < exp (/ 64)) by (apply exp_ineq1; lra).
  assert (B : exp 12 = exp (/ 64) ^ 768). { rewrite <- Rpower_pow by apply exp_pos. unfold Rpower. rewrite ln_exp. f_equal. rewrite INR_IZR_INZ. change (Z.of_nat 768) with 768%Z. lra. }
  assert (C : (1 + / 64) ^ 768 <= exp 12). { rewrite B. apply pow_incr. lra. }
  assert (D : 100000 < (1 + / 64) ^ 768).
  { replace (1 + / 64) with (65 / 64) by lra. unfold Rdiv. rewrite Rpow_mult_distr, pow_inv. apply Rmult_lt_reg_r with (64 ^ 768); [apply pow_lt; lra|]. rewrite Rmult_assoc, Rinv_l by (apply pow_nonzero; lra). rewrite Rmult_1_r, !pow_IZR, <- mult_IZR. apply IZR_lt. vm_compute. reflexivity. }
  replace (-12) with (- (12)) by lra. rewrite exp_Ropp. pose proof (exp_pos 12). apply Rmult_lt_reg_r with (exp 12); [lra|]. rewrite Rinv_l by lra. lra.
Qed.
