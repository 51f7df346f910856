(** Proofs for BVParametersTable: every history of the custom table. *)
From Coq Require Import Ascii String.
From Verif Require Import RBase Sums Bvs BvsSpec.
Open Scope R_scope.
Open Scope list_scope.

Lemma bondEqual_spec p q : bondEqual p q = true <-> key_of p = key_of q.
Proof.
  unfold bondEqual, key_of. rewrite !andb_true_iff, !Z.eqb_eq.
  destruct (str_dec (matom0 p) (matom0 q)), (str_dec (matom1 p) (matom1 q)); split;
    [intros (((?&?)&?)&?)|intros E; injection E|intros (((?&?)&?)&?)|intros E; injection E
    |intros (((?&?)&?)&?)|intros E; injection E|intros (((?&?)&?)&?)|intros E; injection E];
    intros; repeat split; try congruence.
Qed.
Lemma key_mk a0 v0 a1 v1 Ro B : key_of (mkBV a0 v0 a1 v1 Ro B) = bond_key a0 v0 a1 v1.
Proof. unfold mkBV, bond_key. now destruct (v0 <? v1)%Z. Qed.
Lemma ro_mk a0 v0 a1 v1 Ro B : mRo (mkBV a0 v0 a1 v1 Ro B) = Ro /\ mB (mkBV a0 v0 a1 v1 Ro B) = B.
Proof. unfold mkBV. now destruct (v0 <? v1)%Z. Qed.
Definition vals (p : bvparam) : R * R := (mRo p, mB p).
Lemma param_eq p q : key_of p = key_of q -> vals p = vals q -> p = q.
Proof. destruct p, q. unfold key_of, vals. cbn. intros E1 E2. injection E1. injection E2. intros. now subst. Qed.

(** finding by key *)
Definition kfind (k : key) (l : list bvparam) : option bvparam := find (fun p => if key_dec (key_of p) k then true else false) l.
Lemma bvfind_k q l : bvfind q l = kfind (key_of q) l.
Proof.
  unfold bvfind, kfind. induction l as [|p l IH]; [reflexivity|]. cbn. rewrite IH.
  pose proof (bondEqual_spec p q) as H. destruct (bondEqual p q), (key_dec (key_of p) (key_of q)) as [E|E]; try reflexivity; exfalso.
  - now apply E, H.
  - assert (false = true) by now apply H. discriminate.
Qed.
Lemma kfind_key k l p : kfind k l = Some p -> key_of p = k /\ In p l.
Proof. unfold kfind. intros H. apply find_some in H as [H1 H2]. split; [|easy]. now destruct (key_dec (key_of p) k). Qed.
Lemma kfind_erase k q l : kfind k (bverase q l) = if key_dec (key_of q) k then None else kfind k l.
Proof.
  unfold bverase, kfind. induction l as [|p l IH]; [now destruct (key_dec _ _)|]. cbn.
  pose proof (bondEqual_spec p q) as H. destruct (bondEqual p q); cbn.
  - rewrite IH. destruct (key_dec (key_of q) k) as [E|E]; [reflexivity|]. destruct (key_dec (key_of p) k) as [E'|E']; [|reflexivity].
    exfalso. apply E. rewrite <- E'. symmetry. now apply H.
  - rewrite IH. destruct (key_dec (key_of p) k) as [E'|E'], (key_dec (key_of q) k) as [E|E]; try reflexivity.
    exfalso. assert (false = true) by (apply H; congruence). discriminate.
Qed.
Lemma kfind_insert k q l : kfind k (bvinsert q l) = match kfind k l with Some p => Some p | None => if key_dec (key_of q) k then Some q else None end.
Proof.
  unfold bvinsert. rewrite bvfind_k. destruct (kfind (key_of q) l) as [p|] eqn:E.
  - destruct (kfind k l) eqn:E'; [reflexivity|]. destruct (key_dec (key_of q) k) as [<-|]; [congruence|reflexivity].
  - cbn [kfind find]. destruct (key_dec (key_of q) k) as [<-|]; [now rewrite E|]. fold (kfind k l). now destruct (kfind k l).
Qed.

(** the custom table after a history *)
Lemma trun_snoc ops o t : trun (ops ++ [o]) t = tstep (trun ops t) o.
Proof. unfold trun. now rewrite fold_left_app. Qed.
Lemma std_const ops t : tstandard (trun ops t) = tstandard t.
Proof. induction ops as [|o ops IH] using rev_ind; [reflexivity|]. rewrite trun_snoc. now destruct o. Qed.
Lemma custom_history ops std k : option_map vals (kfind k (tcustom (trun ops (newTable std)))) = last_custom (rev ops) k.
Proof.
  induction ops as [|o ops IH] using rev_ind; [reflexivity|]. rewrite trun_snoc, rev_unit. destruct o; cbn [tstep with_custom with_valence tcustom last_custom]; auto.
  - rewrite kfind_insert, kfind_erase, key_mk. destruct (key_dec (bond_key a0 v0 a1 v1) k).
    + unfold vals. cbn. now destruct (ro_mk a0 v0 a1 v1 Ro B) as [-> ->].
    + destruct (kfind k (tcustom (trun ops (newTable std)))); exact IH.
  - rewrite kfind_erase, key_mk. now destruct (key_dec (bond_key a0 v0 a1 v1) k).
Qed.
Lemma std_history std k : option_map vals (kfind k std) = std_param std k.
Proof. induction std as [|p l IH]; [reflexivity|]. cbn. now destruct (key_dec (key_of p) k). Qed.

(** one search: custom, then standard *)
Definition findk (t : bvtable) (k : key) : option bvparam :=
  match kfind k (tcustom t) with Some p => Some p | None => kfind k (tstandard t) end.
Lemma findk_key t k p : findk t k = Some p -> key_of p = k.
Proof. unfold findk. destruct (kfind k (tcustom t)) eqn:E; intros H; [injection H as <-|]; now apply kfind_key in E || apply kfind_key in H. Qed.
Lemma findk_entry ops std k : option_map vals (findk (trun ops (newTable std)) k) = entry ops std k.
Proof.
  unfold findk, entry. rewrite <- custom_history with (std := std), <- std_history, std_const.
  now destruct (kfind k (tcustom (trun ops (newTable std)))).
Qed.
Definition k9 (k : key) : key := let '(a0, v0, a1, v1) := k in (a0, 9%Z, a1, v1).
Definition kv0 (k : key) : Z := let '(a0, v0, a1, v1) := k in v0.
Lemma lookup_findk t q : lookup_key t q = match findk t (key_of q) with
  | Some p => Some p | None => if (0 <? kv0 (key_of q))%Z then findk t (k9 (key_of q)) else None end.
Proof.
  unfold lookup_key, findk. rewrite !bvfind_k. destruct (kfind (key_of q) (tcustom t)); [reflexivity|].
  destruct (kfind (key_of q) (tstandard t)); [reflexivity|]. cbn [kv0 key_of]. destruct (0 <? mvalence0 q)%Z; reflexivity.
Qed.
Lemma lookup_k t a0 v0 a1 v1 : lookup t a0 v0 a1 v1 = match findk t (bond_key a0 v0 a1 v1) with
  | Some p => Some p | None => if (0 <? kv0 (bond_key a0 v0 a1 v1))%Z then findk t (k9 (bond_key a0 v0 a1 v1)) else None end.
Proof. unfold lookup. rewrite lookup_findk, key_mk. reflexivity. Qed.
Lemma lookup_found t a0 v0 a1 v1 p : lookup t a0 v0 a1 v1 = Some p -> findk t (key_of p) = Some p /\
  (key_of p = bond_key a0 v0 a1 v1 \/ key_of p = k9 (bond_key a0 v0 a1 v1)).
Proof.
  rewrite lookup_k. destruct (findk t (bond_key a0 v0 a1 v1)) eqn:E.
  - intros H. injection H as <-. pose proof (findk_key _ _ _ E) as Hk. rewrite Hk. auto.
  - destruct (0 <? kv0 (bond_key a0 v0 a1 v1))%Z; [|discriminate]. intros H. pose proof (findk_key _ _ _ H) as Hk. rewrite Hk. auto.
Qed.
Lemma lookup_history ops std a0 v0 a1 v1 :
  option_map (fun p => (key_of p, (mRo p, mB p))) (lookup (trun ops (newTable std)) a0 v0 a1 v1) = best_entry ops std (bond_key a0 v0 a1 v1).
Proof.
  rewrite lookup_k. unfold best_entry. rewrite <- findk_entry. set (t := trun ops (newTable std)).
  destruct (findk t (bond_key a0 v0 a1 v1)) as [p|] eqn:E.
  - cbn. now rewrite (findk_key _ _ _ E).
  - cbn [option_map]. destruct (bond_key a0 v0 a1 v1) as (((b0, w0), b1), w1). cbn [kv0 k9]. destruct (0 <? w0)%Z; [|reflexivity].
    rewrite <- findk_entry. fold t. destruct (findk t (b0, 9%Z, b1, w1)) as [p|] eqn:E'; [|reflexivity]. cbn. now rewrite (findk_key _ _ _ E').
Qed.
Lemma key_sym a0 v0 a1 v1 : v0 <> v1 \/ a0 = a1 -> bond_key a0 v0 a1 v1 = bond_key a1 v1 a0 v0.
Proof.
  unfold bond_key. intros H. destruct (Z.ltb_spec v0 v1), (Z.ltb_spec v1 v0); try reflexivity; try lia.
  assert (v0 = v1) as -> by lia. destruct H as [H| ->]; [lia|reflexivity].
Qed.
Lemma lookup_sym t a0 v0 a1 v1 : v0 <> v1 \/ a0 = a1 -> lookup t a0 v0 a1 v1 = lookup t a1 v1 a0 v0.
Proof. intros H. now rewrite !lookup_k, key_sym. Qed.
Lemma set_lookup ops std a0 v0 a1 v1 Ro B : lookup (trun (ops ++ [TSet a0 v0 a1 v1 Ro B]) (newTable std)) a0 v0 a1 v1 = Some (mkBV a0 v0 a1 v1 Ro B).
Proof.
  rewrite lookup_k, trun_snoc. unfold findk. cbn [tstep with_custom tcustom]. rewrite kfind_insert, kfind_erase, key_mk.
  now destruct (key_dec (bond_key a0 v0 a1 v1) (bond_key a0 v0 a1 v1)).
Qed.
Lemma resetall_lookup ops std a0 v0 a1 v1 : lookup (trun (ops ++ [TResetAll]) (newTable std)) a0 v0 a1 v1 = lookup (newTable std) a0 v0 a1 v1.
Proof. rewrite !lookup_k, trun_snoc. unfold findk. cbn. now rewrite std_const. Qed.

(** valences *)
Lemma vfind_filter s s' l : vfind s (filter (fun e : str * Z => if str_dec (fst e) s' then false else true) l) = if str_dec s' s then None else vfind s l.
Proof.
  induction l as [|(k, v) l IH]; [now destruct (str_dec s' s)|]. cbn. destruct (str_dec k s') as [->|N].
  - rewrite IH. destruct (str_dec s' s); reflexivity.
  - cbn. rewrite IH. destruct (str_dec k s), (str_dec s' s); congruence.
Qed.
Lemma valence_history ops std s : getAtomValence (trun ops (newTable std)) s = match last_valence (rev ops) s with Some v => v | None => atomValence s end.
Proof.
  unfold getAtomValence. enough (vfind s (tvalence (trun ops (newTable std))) = last_valence (rev ops) s) as -> by reflexivity.
  induction ops as [|o ops IH] using rev_ind; [reflexivity|]. rewrite trun_snoc, rev_unit. destruct o; cbn [tstep with_custom with_valence tvalence last_valence]; auto.
  cbn [vfind]. rewrite vfind_filter. destruct (str_dec s0 s); auto.
Qed.

(** getAll *)
Lemma kfind_fold k std : forall l, kfind k (fold_left (fun l p => bvinsert p l) std l) = match kfind k l with Some p => Some p | None => kfind k std end.
Proof.
  induction std as [|p std IH]; intros l; [cbn [fold_left]; change (kfind k []) with (@None bvparam); now destruct (kfind k l)|]. cbn [fold_left]. rewrite IH, kfind_insert. unfold kfind at 4. cbn [find].
  fold (kfind k std). destruct (kfind k l); [reflexivity|]. destruct (key_dec (key_of p) k); reflexivity.
Qed.
Lemma nodup_erase q l : NoDup (map key_of l) -> NoDup (map key_of (bverase q l)).
Proof.
  unfold bverase. induction l as [|p l IH]; [auto|]. cbn. intros H. inversion H; subst. destruct (bondEqual p q); cbn; auto.
  constructor; auto. rewrite in_map_iff in *. intros (x & E & Hx). apply filter_In in Hx as [Hx _]. apply H2. eauto.
Qed.
Lemma kfind_none k l : kfind k l = None -> ~ In k (map key_of l).
Proof. unfold kfind. intros H Hi. apply in_map_iff in Hi as (p & E & Hp). pose proof (find_none _ _ H p Hp) as Hn. cbn in Hn. now destruct (key_dec (key_of p) k). Qed.
Lemma nodup_insert q l : NoDup (map key_of l) -> NoDup (map key_of (bvinsert q l)).
Proof. unfold bvinsert. rewrite bvfind_k. destruct (kfind (key_of q) l) eqn:E; [auto|]. cbn. constructor; auto. now apply kfind_none. Qed.
Lemma nodup_fold std : forall l, NoDup (map key_of l) -> NoDup (map key_of (fold_left (fun l p => bvinsert p l) std l)).
Proof. induction std as [|p std IH]; cbn; auto. intros l H. apply IH. now apply nodup_insert. Qed.
Lemma custom_nodup ops std : NoDup (map key_of (tcustom (trun ops (newTable std)))).
Proof.
  induction ops as [|o ops IH] using rev_ind; [constructor|]. rewrite trun_snoc. destruct o; cbn; auto using nodup_insert, nodup_erase. constructor.
Qed.
Lemma kfind_In l p : NoDup (map key_of l) -> (In p l <-> kfind (key_of p) l = Some p).
Proof.
  intros Hn. split.
  - unfold kfind. induction l as [|q l IH]; [easy|]. cbn. inversion Hn; subst. intros [->|Hp].
    + now destruct (key_dec (key_of p) (key_of p)).
    + destruct (key_dec (key_of q) (key_of p)) as [E|E]; [|auto]. exfalso. apply H1. rewrite E. now apply in_map.
  - intros H. now apply kfind_key in H.
Qed.
Lemma getAll_spec ops std : let l := getAll (trun ops (newTable std)) in
  NoDup (map key_of l) /\ forall p, In p l <-> entry ops std (key_of p) = Some (mRo p, mB p).
Proof.
  cbv zeta. unfold getAll. set (t := trun ops (newTable std)).
  assert (Hn : NoDup (map key_of (fold_left (fun l p => bvinsert p l) (tstandard t) (tcustom t)))) by (apply nodup_fold, custom_nodup).
  split; [exact Hn|]. intros p. rewrite kfind_In by exact Hn. rewrite kfind_fold. fold (findk t (key_of p)).
  rewrite <- findk_entry. fold t. change (mRo p, mB p) with (vals p). destruct (findk t (key_of p)) as [q|] eqn:E; [|easy]. cbn. split; intros H.
  - now injection H as ->.
  - injection H as H1 H2. f_equal. apply param_eq; [|unfold vals; congruence]. now apply findk_key in E.
Qed.
