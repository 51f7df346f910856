(** C35-C37, C50, C51, C67: bond valence parameters, atom symbols and bond valence sums. *)
From Coq Require Import Ascii String.
From Verif Require Import RBase Sums Bvs BvsSpec BvsProofs BvsTable BvsMain BvsExample.
Open Scope R_scope.
Open Scope list_scope.

(** *** C35 *)
Theorem C35_inverse p : 0 < mB p ->
  (forall d, bondvalenceToDistance p (bondvalence p d) = d) /\ (forall v, 0 < v -> bondvalence p (bondvalenceToDistance p v) = v).
Proof. exact (bv_inverse p). Qed.
Print Assumptions C35_inverse.
Theorem C35_decreasing p d e : 0 < mB p -> d < e -> 0 < bondvalence p e < bondvalence p d.
Proof. exact (bv_monotone p d e). Qed.
Print Assumptions C35_decreasing.
Theorem C35_cut p eps d : 0 < eps -> bondvalenceToDistance p eps < d -> bondvalence p d < eps.
Proof. exact (bv_cut p eps d). Qed.
Print Assumptions C35_cut.
Example C35_nonvacuous : 0 < mB NaCl /\ bondvalence NaCl 1 = 1.
Proof.
  split; [exact Rlt_0_1|]. unfold bondvalence. change (mB NaCl) with 1. change (mRo NaCl) with 1.
  rewrite (proj2 (Rltb_true 0 1)) by lra. replace ((1 - 1) / 1) with 0 by field. apply exp_0.
Qed.

(** *** C36 *)
(** After any history a lookup finds the last custom parameters, else the standard ones, for the bond itself or for a first
    atom of unspecified valence. *)
Theorem C36_lookup_order ops std a0 v0 a1 v1 :
  option_map (fun p => (key_of p, (mRo p, mB p))) (lookup (trun ops (newTable std)) a0 v0 a1 v1) = best_entry ops std (bond_key a0 v0 a1 v1).
Proof. exact (lookup_history ops std a0 v0 a1 v1). Qed.
Print Assumptions C36_lookup_order.
Theorem C36_set_then_lookup ops std a0 v0 a1 v1 Ro B :
  lookup (trun (ops ++ [TSet a0 v0 a1 v1 Ro B]) (newTable std)) a0 v0 a1 v1 = Some (mkBV a0 v0 a1 v1 Ro B).
Proof. exact (set_lookup ops std a0 v0 a1 v1 Ro B). Qed.
Print Assumptions C36_set_then_lookup.
Theorem C36_reset_all ops std a0 v0 a1 v1 :
  lookup (trun (ops ++ [TResetAll]) (newTable std)) a0 v0 a1 v1 = lookup (newTable std) a0 v0 a1 v1.
Proof. exact (resetall_lookup ops std a0 v0 a1 v1). Qed.
Print Assumptions C36_reset_all.
(** The order of the atoms does not matter for atoms of different valence, such as a cation and an anion. *)
Theorem C36_argument_order t a0 v0 a1 v1 : v0 <> v1 \/ a0 = a1 -> lookup t a0 v0 a1 v1 = lookup t a1 v1 a0 v0.
Proof. exact (lookup_sym t a0 v0 a1 v1). Qed.
Print Assumptions C36_argument_order.
(** It does matter for atoms of the same valence. *)
Theorem C36_argument_order_refuted : exists ops std a0 a1 v,
  lookup (trun ops (newTable std)) a0 v a1 v <> None /\ lookup (trun ops (newTable std)) a1 v a0 v = None.
Proof. exact order_bad. Qed.
Print Assumptions C36_argument_order_refuted.
(** getAll lists every bond with parameters once, the custom ones preferred. *)
Theorem C36_get_all ops std : let l := getAll (trun ops (newTable std)) in
  NoDup (map key_of l) /\ forall p, In p l <-> entry ops std (key_of p) = Some (mRo p, mB p).
Proof. exact (getAll_spec ops std). Qed.
Print Assumptions C36_get_all.
(** The valence of a symbol is the last one set, else that of the symbol. *)
Theorem C36_atom_valence ops std s :
  getAtomValence (trun ops (newTable std)) s = match last_valence (rev ops) s with Some v => v | None => atomValence s end.
Proof. exact (valence_history ops std s). Qed.
Print Assumptions C36_atom_valence.
(** BVSCalculator takes the valence of a site from its table, for the whole atom type of the site, and the symbol from the type. *)
Theorem C36_site_valence ops std (c : bvs) s i : btab c = trun ops (newTable std) ->
  valence c s i = match last_valence (rev ops) (btype s i) with Some v => v | None => atomValence (btype s i) end /\
  baresymbol c s i = atomBareSymbol (btype s i).
Proof. intros H. unfold valence, baresymbol. rewrite H. split; [exact (valence_history ops std _)|reflexivity]. Qed.
Print Assumptions C36_site_valence.
Example C36_nonvacuous_site : exists (c : bvs) (s : bstru), valence c s 0 = 7%Z /\ atomValence (btype s 0) = 2%Z.
Proof.
  exists {| btab := trun [TSetValence (chars "Mn2+") 7] (newTable []); bprec := 0; brmin := 0; brmax := 0 |}.
  eexists {| bn := 1; btype := fun _ => chars "Mn2+"; bocc := fun _ => 1; bmult := fun _ => 1%nat; bdist := fun _ _ => [] |}. split; reflexivity.
Qed.
(** The lookup by two atom symbols takes the bare symbol and the valence of each atom. *)
Theorem C36_lookup_by_symbols ops std s0 s1 :
  let val s := match last_valence (rev ops) s with Some v => v | None => atomValence s end in
  option_map (fun p => (key_of p, (mRo p, mB p))) (lookup_symbols (trun ops (newTable std)) s0 s1) =
    best_entry ops std (bond_key (atomBareSymbol s0) (val s0) (atomBareSymbol s1) (val s1)).
Proof. cbv zeta. unfold lookup_symbols. rewrite lookup_history, !valence_history. reflexivity. Qed.
Print Assumptions C36_lookup_by_symbols.
Example C36_nonvacuous :
  best_entry [TSet (chars "Cl") (-1) (chars "Na") 9 2 1; TSet (chars "Na") 1 (chars "Cl") (-1) 1 1; TReset (chars "Cl") (-1) (chars "Na") 1] []
    (bond_key (chars "Cl") (-1) (chars "Na") 1) = Some ((chars "Na", 9%Z, chars "Cl", (-1)%Z), (2, 1)).
Proof. reflexivity. Qed.

(** *** C37 *)
(** The bare symbol of prefix, symbol, suffix is the symbol. *)
Theorem C37_bare_symbol iso sym ch : Forall prefix_char iso -> Forall suffix_char ch -> symbol sym -> atomBareSymbol (iso ++ sym ++ ch) = sym.
Proof. exact (bare_decomp iso sym ch). Qed.
Print Assumptions C37_bare_symbol.
(** Every string with a letter is of that form, and the bare symbol is a bare symbol. *)
Theorem C37_every_string s : (exists c, In c s /\ ~ prefix_char c /\ ~ suffix_char c) ->
  (exists iso ch, s = iso ++ atomBareSymbol s ++ ch /\ Forall prefix_char iso /\ Forall suffix_char ch /\ symbol (atomBareSymbol s)) /\
  atomBareSymbol (atomBareSymbol s) = atomBareSymbol s.
Proof. exact (fun H => conj (bare_total s H) (bare_idem s H)). Qed.
Print Assumptions C37_every_string.
(** The valence of every string: these three cases cover all. *)
Theorem C37_valence s :
  (forall t k sg, nospace s = t ++ [charge_digit k; sg] -> (k <= 8)%nat -> is_sign sg -> atomValence s = (sign_value sg * Z.of_nat k)%Z) /\
  (forall t sg, nospace s = t ++ [sg] -> is_sign sg -> (forall u k, (k <= 8)%nat -> t <> u ++ [charge_digit k]) -> atomValence s = sign_value sg) /\
  ((forall t sg, is_sign sg -> nospace s <> t ++ [sg]) -> atomValence s = 0%Z) /\
  (-8 <= atomValence s <= 8)%Z.
Proof. exact (conj (val_charge s) (conj (val_sign s) (conj (val_none s) (val_range s)))). Qed.
Print Assumptions C37_valence.
(** Both are consistent for isotope, symbol and charge. *)
Theorem C37_consistent sym iso ch k sg : symbol sym ->
  (forall z, head (rev sym) = Some z -> ~ In z ("010" :: "011" :: "012" :: "013" :: nil)%char) ->
  is_sign sg -> (k <= 8)%nat -> Forall prefix_char iso ->
  (ch = [sg] -> atomBareSymbol (iso ++ sym ++ ch) = sym /\ atomValence (iso ++ sym ++ ch) = sign_value sg) /\
  (ch = [charge_digit k; sg] -> atomBareSymbol (iso ++ sym ++ ch) = sym /\ atomValence (iso ++ sym ++ ch) = (sign_value sg * Z.of_nat k)%Z) /\
  (ch = [] -> atomBareSymbol (iso ++ sym ++ ch) = sym /\ atomValence (iso ++ sym ++ ch) = 0%Z).
Proof. exact (valence_of_formula sym iso ch k sg). Qed.
Print Assumptions C37_consistent.
(** They are not for other white space than blank and tab, a charge of 9, or a string without a symbol. *)
Theorem C37_other_strings_refuted :
  (exists s, In "010"%char s /\ atomValence s = 1%Z /\ atomBareSymbol s = s /\ s = chars "Na+" ++ ["010"%char]) /\
  atomBareSymbol (chars "9 +") = chars "+" /\ atomBareSymbol (atomBareSymbol (chars "9 +")) = [] /\
  atomBareSymbol (chars "Xx9+") = chars "Xx9" /\ atomValence (chars "Xx9+") = 1%Z.
Proof. exact (conj newline_bad nine_bad). Qed.
Print Assumptions C37_other_strings_refuted.
Example C37_nonvacuous : symbol (chars "Na") /\ atomBareSymbol (chars "23Na1+") = chars "Na" /\ atomValence (chars "23Na1+") = 1%Z /\
  atomValence (chars "S2-") = (-2)%Z.
Proof. exact symbol_example. Qed.

(** *** C50 *)
(** A bond in range that the precision cutoff drops is weaker than the precision. *)
Theorem C50_dropped_below_precision_partial c s ord i j d : enumerates c s ord -> 0 < bprec c -> (i < bn s)%nat -> (j < bn s)%nat ->
  ordered_pair c s i j -> baresymbol c s i <> [] -> baresymbol c s j <> [] -> d <= brmax c -> getRmaxUsed c ord < d -> bond c s i j d < bprec c.
Proof. exact (dropped_small c s ord i j d). Qed.
Print Assumptions C50_dropped_below_precision_partial.
(** The lower limit is ignored: bonds shorter than rmin are summed. *)
Theorem C50_rmin_refuted : exists c ord s, enumerates c s ord /\ (forall i j d, In d (bdist s i j) -> d < brmin c) /\
  nth 0 (bvs_eval c ord s true) 0 = 1.
Proof. exact rmin_ignored. Qed.
Print Assumptions C50_rmin_refuted.
Example C50_nonvacuous : enumerates (ex_c 0) (ex_s [1] [1] 1) ex_ord /\ ordered_pair (ex_c 0) (ex_s [1] [1] 1) 0 1 /\
  0 < bprec (ex_c 0) /\ baresymbol (ex_c 0) (ex_s [1] [1] 1) 0 = chars "Na".
Proof. exact (conj (ex_enum 0 [1] [1] 1) (conj (ex_ordered 0 [1] [1] 1 0 1 (Nat.lt_0_succ 1) (Nat.lt_succ_diag_r 1)) (conj (exp_pos (-2)) eq_refl))). Qed.

(** *** C51 *)
(** With as many bonds from i to j as from j to i, half and full sum both give the sum over the bonds of the site that are
    not longer than the limit. *)
Theorem C51_site_sums_partial c ord s full k : lengths_ok s -> equal_counts s ->
  (forall i j, (i < bn s)%nat -> (j < bn s)%nat -> ordered_pair c s i j) ->
  (k < bn s)%nat -> nth k (bvs_eval c ord s full) 0 = site_bvs c s (getRmaxUsed c ord) k.
Proof. exact (eval_equal c ord s full k). Qed.
Print Assumptions C51_site_sums_partial.
(** In general each pair of sites contributes the average of both directions to the full sum, and twice the direction from
    the later to the earlier site, half each, to the half sum. *)
Theorem C51_any_counts_partial c ord s k : lengths_ok s -> (k < bn s)%nat -> let rm := getRmaxUsed c ord in
  nth k (bvs_eval c ord s true) 0 = sgn (valence c s k) *
    sumf (fun j => bocc s j * ((bonds_upto c s rm k j + bonds_upto c s rm j k) / 2)) (seq 0 (bn s)) /\
  nth k (bvs_eval c ord s false) 0 = sgn (valence c s k) *
    sumf (fun j => bocc s j * (if (j <=? k)%nat then bonds_upto c s rm k j else bonds_upto c s rm j k)) (seq 0 (bn s)).
Proof. exact (eval_both c ord s k). Qed.
Print Assumptions C51_any_counts_partial.
(** With different multiplicities the values are wrong, although the numbers of bonds are balanced. *)
Theorem C51_multiplicities_refuted : exists c ord s, enumerates c s ord /\ lengths_ok s /\
  (forall i j, (i < bn s)%nat -> (j < bn s)%nat -> ordered_pair c s i j) /\
  (forall i j, (i < bn s)%nat -> (j < bn s)%nat -> Permutation (concat (repeat (bdist s i j) (bmult s i))) (concat (repeat (bdist s j i) (bmult s j)))) /\
  forall full, nth 0 (bvs_eval c ord s full) 0 <> site_bvs c s (getRmaxUsed c ord) 0.
Proof. exact mult_bad. Qed.
Print Assumptions C51_multiplicities_refuted.
Example C51_nonvacuous : lengths_ok (ex_s [1] [1] 1) /\ equal_counts (ex_s [1] [1] 1) /\
  (forall i j, (i < 2)%nat -> (j < 2)%nat -> ordered_pair (ex_c 0) (ex_s [1] [1] 1) i j) /\
  site_bvs (ex_c 0) (ex_s [1] [1] 1) (getRmaxUsed (ex_c 0) ex_ord) 0 = 1.
Proof. exact ex_equal. Qed.

(** *** C67 *)
(** bvmsdiff is the mean square deviation over all atoms, weighted with occupancy. *)
Theorem C67_mean_square c s v : bvmsdiff c s v =
  if Rlt_dec 0 (sumf (fun i => bocc s i * INR (bmult s i)) (seq 0 (bn s))) then
    sumf (fun i => bocc s i * INR (bmult s i) * (Rabs (IZR (valence c s i)) - Rabs (nth i v 0)) ^ 2) (seq 0 (bn s)) /
    sumf (fun i => bocc s i * INR (bmult s i)) (seq 0 (bn s)) else 0.
Proof. exact (msdiff_sum c s v). Qed.
Print Assumptions C67_mean_square.
Theorem C67_zero_iff_match c s v : (forall i, (i < bn s)%nat -> 0 <= bocc s i /\ (0 < bmult s i)%nat) ->
  (bvmsdiff c s v = 0 <-> forall i, (i < bn s)%nat -> 0 < bocc s i -> Rabs (nth i v 0) = Rabs (IZR (valence c s i))).
Proof. exact (msdiff_zero c s v). Qed.
Print Assumptions C67_zero_iff_match.
Theorem C67_root c s v : (forall i, (i < bn s)%nat -> 0 <= bocc s i) -> 0 <= bvrmsdiff c s v /\ bvrmsdiff c s v ^ 2 = bvmsdiff c s v.
Proof. exact (rms_sq c s v). Qed.
Print Assumptions C67_root.
Example C67_nonvacuous : let s := ex_s [1] [1] 2 in forall i, (i < bn s)%nat -> 0 <= bocc s i /\ (0 < bmult s i)%nat.
Proof. intros s [|[|i]]; cbn; intros; split; lra || lia. Qed.
