(** Proofs about the overlap calculator: the cache of neighbours, flips of two sites. *)
From Coq Require Import String Relations.
From Verif Require Import RBase R3 Lattice BondGen Overlap OverlapSpec OverlapProofs.
Open Scope R_scope.

(** ** The cache of neighbours *)
Definition nbget (k : nat) (m : list (nat * list nat)) : list nat := match nbfind k m with Some l => l | None => [] end.
Lemma nbget_push k i x m : nbget k (nbpush i x m) = if (k =? i)%nat then nbget k m ++ [x] else nbget k m.
Proof.
  unfold nbget. induction m as [|[a v] m IH]; cbn.
  - destruct (Nat.eqb_spec k i); reflexivity.
  - destruct (Nat.eqb_spec i a) as [->|N]; cbn.
    + destruct (Nat.eqb_spec k a); reflexivity.
    + destruct (Nat.eqb_spec k a) as [->|]; [|exact IH]. destruct (Nat.eqb_spec a i); congruence.
Qed.
(** indices of the bonds that start at site k *)
Definition starts (bs : list bond) (k idx : nat) : bool := match nth_error bs idx with Some b => (b_site0 b =? k)%nat | None => false end.
Definition ids (bs : list bond) (k : nat) : list nat := filter (starts bs k) (seq 0 (length bs)).
Lemma ids_In bs k x : In x (ids bs k) <-> exists b, nth_error bs x = Some b /\ b_site0 b = k.
Proof.
  unfold ids. rewrite filter_In, in_seq. unfold starts. split.
  - intros [_ H]. destruct (nth_error bs x) as [b|]; [|discriminate]. exists b. split; auto. now apply Nat.eqb_eq.
  - intros (b & H & <-). rewrite H, Nat.eqb_refl. split; auto. split; [lia|]. apply nth_error_Some. congruence.
Qed.
Lemma ids_NoDup bs k : NoDup (ids bs k).
Proof. apply NoDup_filter, seq_NoDup. Qed.
Lemma ids_grow bs bs' k x : In x (ids bs k) -> In x (ids (bs ++ bs') k).
Proof.
  rewrite !ids_In. intros (b & H & E). exists b. split; auto. rewrite nth_error_app1; auto. apply nth_error_Some. congruence.
Qed.
Lemma fill_view c bs k : mvalue c = flat_map chunk bs -> mcached c = false ->
  nbget k (mnbids (fillNeighborIds c)) = nbget k (mnbids c) ++ ids bs k.
Proof.
  intros HV HC. unfold fillNeighborIds. rewrite HC. cbn [with_nb mnbids]. rewrite (count_view c bs HV). unfold ids.
  assert (G : forall l m, (forall x, In x l -> (x < length bs)%nat) ->
    nbget k (fold_left (fun m idx => nbpush (to_int (subvalue c SITE0_OFFSET idx)) idx m) l m) = nbget k m ++ filter (starts bs k) l).
  { induction l as [|x l IH]; intros m H; [cbn; now rewrite app_nil_r|]. cbn [fold_left filter].
    rewrite IH by auto with datatypes. rewrite nbget_push. unfold starts at 2.
    destruct (nth_error bs x) as [b|] eqn:E; [|apply nth_error_None in E; specialize (H x (or_introl eq_refl)); lia].
    rewrite (site0_view c bs HV x b E), (Nat.eqb_sym k). destruct (b_site0 b =? k)%nat; [now rewrite <- app_assoc|reflexivity]. }
  apply G. intros x Hx%in_seq. lia.
Qed.

(** weak: right up to repetition, as long as no bonds are added after a query *)
Definition weak (c : ocalc) (bs : list bond) : Prop :=
  (forall k x, In x (nbget k (mnbids c)) -> In x (ids bs k)) /\
  (mcached c = true -> forall k x, In x (ids bs k) -> In x (nbget k (mnbids c))).
(** strict: exact *)
Definition strict (c : ocalc) (bs : list bond) : Prop :=
  if mcached c then forall k, nbget k (mnbids c) = ids bs k else mnbids c = [].
Definition next_bonds (l : list bond) (o : ocall) : list bond :=
  match o with CReset => [] | CAdd b => l ++ [b] | CMerge bs => l ++ bs | CQuery | CReload => l end.
Lemma counted_fold ops : counted ops = fold_left next_bonds ops []. Proof. reflexivity. Qed.
Lemma mvalue_step S lk c bs o : mvalue c = flat_map chunk bs -> mvalue (ostep S lk c o) = flat_map chunk (next_bonds bs o).
Proof.
  intros H. destruct o; cbn [ostep next_bonds]; auto.
  - cbn [addPairContribution with_value mvalue]. rewrite H, flat_map_app. cbn [flat_map]. now rewrite app_nil_r.
  - cbn [executeParallelMerge with_value mvalue]. now rewrite H, flat_map_app.
  - unfold fillNeighborIds. destruct (mcached c); auto.
Qed.
Lemma filled_cached c : mcached (fillNeighborIds c) = true.
Proof. unfold fillNeighborIds. destruct (mcached c) eqn:E; auto. Qed.
Lemma weak_fill c bs : mvalue c = flat_map chunk bs -> weak c bs -> weak (fillNeighborIds c) bs.
Proof.
  intros HV [W1 W2]. destruct (mcached c) eqn:E.
  - unfold fillNeighborIds. rewrite E. split; auto.
  - split; [|intros _]; intros k x; rewrite (fill_view c bs k HV E), in_app_iff; [|auto]. intros [H|H]; auto.
Qed.
Lemma strict_fill c bs : mvalue c = flat_map chunk bs -> strict c bs -> strict (fillNeighborIds c) bs.
Proof.
  intros HV H. unfold strict. rewrite filled_cached. unfold strict in H. destruct (mcached c) eqn:E.
  - unfold fillNeighborIds. now rewrite E.
  - intros k. rewrite (fill_view c bs k HV E), H. reflexivity.
Qed.
Lemma weak_run S lk ops : forall c bs, mvalue c = flat_map chunk bs -> weak c bs -> no_late_bonds (mcached c) ops ->
  weak (orun S lk c ops) (fold_left next_bonds ops bs).
Proof.
  induction ops as [|o ops IH]; intros c bs HV HW HN; [exact HW|].
  unfold orun. cbn [fold_left]. apply IH; [now apply mvalue_step| |].
  - destruct o; cbn [ostep next_bonds].
    + split; [intros k x []|discriminate].
    + cbn in HN. destruct HN as [Q _]. destruct HW as [W1 W2]. split; cbn; [|congruence]. intros k x Hx. apply ids_grow; auto.
    + cbn in HN. destruct HN as [Q _]. destruct HW as [W1 W2]. split; cbn; [|congruence]. intros k x Hx. apply ids_grow; auto.
    + now apply weak_fill.
    + destruct HW as [W1 W2]. split; cbn; auto. discriminate.
  - destruct o; cbn in HN |- *; try tauto. now rewrite filled_cached.
Qed.
Lemma strict_run S lk ops : forall c bs, mvalue c = flat_map chunk bs -> strict c bs ->
  no_late_bonds (mcached c) ops -> no_late_save (mcached c) ops ->
  strict (orun S lk c ops) (fold_left next_bonds ops bs).
Proof.
  induction ops as [|o ops IH]; intros c bs HV HW HN HS; [exact HW|].
  unfold orun. cbn [fold_left]. apply IH; [now apply mvalue_step| | |].
  - destruct o; cbn [ostep next_bonds].
    + reflexivity.
    + cbn in HN. destruct HN as [Q _]. unfold strict in *. cbn. rewrite Q in *. exact HW.
    + cbn in HN. destruct HN as [Q _]. unfold strict in *. cbn. rewrite Q in *. exact HW.
    + now apply strict_fill.
    + cbn in HS. destruct HS as [Q _]. unfold strict in *. cbn. rewrite Q in HW. exact HW.
  - destruct o; cbn in HN |- *; try tauto. now rewrite filled_cached.
  - destruct o; cbn in HN, HS |- *; try tauto.
    + now rewrite filled_cached.
    + destruct HS as [Q HS]. now rewrite Q in HS.
Qed.
Lemma weak_reset S lk c ops : no_late_bonds false ops -> weak (orun S lk (resetValue S lk c) ops) (counted ops).
Proof. intros H. rewrite counted_fold. apply weak_run; auto. split; [intros k x []|discriminate]. Qed.
Lemma strict_reset S lk c ops : no_late_bonds false ops -> no_late_save false ops ->
  strict (orun S lk (resetValue S lk c) ops) (counted ops).
Proof. intros H H'. rewrite counted_fold. apply strict_run; auto. reflexivity. Qed.

(** ** flipDiffTotal *)
Lemma sumf_seq {A} (f : nat -> R) (g : A -> R) l :
  (forall k x, nth_error l k = Some x -> f k = g x) -> sumf f (seq 0 (length l)) = sumf g l.
Proof.
  intros H. pose proof (fold_seq (fun a k => a + f k) (fun a x => a + g x) l) as F.
  rewrite <- (Rplus_0_l (sumf f _)), <- (Rplus_0_l (sumf g _)), <- !fold_plus. apply F. intros k x a Hk. now rewrite (H k x).
Qed.
Definition touches (i j : nat) (b : bond) : bool := (b_site0 b =? i)%nat || (b_site0 b =? j)%nat.
Definition flip_value (S : ostru) (r : nat -> R) (bs : list bond) (i j : nat) : R :=
  sumf (fun b => (if (b_site0 b =? b_site1 b)%nat then 1 else 2) * o_occ S (b_site0 b) * o_occ S (b_site1 b) *
    INR (o_mult S (b_site0 b)) / 2 * ((overlap (swap r i j) b)² - (overlap r b)²)) (filter (touches i j) bs).
Lemma fill_same c : mvalue (fillNeighborIds c) = mvalue c /\ mradii (fillNeighborIds c) = mradii c.
Proof. unfold fillNeighborIds. destruct (mcached c); auto. Qed.
Lemma fill_fill c : fillNeighborIds (fillNeighborIds c) = fillNeighborIds c.
Proof. unfold fillNeighborIds at 1. now rewrite filled_cached. Qed.
Lemma flip_raw S c bs i j : mvalue c = flat_map chunk bs -> weak c bs -> (i < o_n S)%nat -> (j < o_n S)%nat ->
  i <> j -> siteradius c i <> siteradius c j ->
  flipDiffTotal S c (Z.of_nat i) (Z.of_nat j) = Ok (fillNeighborIds c, flip_value S (siteradius c) bs i j).
Proof.
  intros HV HW Hi Hj Hne Hr. unfold flipDiffTotal.
  destruct ((Z.of_nat i <? 0) || (Z.of_nat (o_n S) <=? Z.of_nat i) || (Z.of_nat j <? 0) || (Z.of_nat (o_n S) <=? Z.of_nat j))%Z eqn:E.
  { rewrite !orb_true_iff, !Z.ltb_lt, !Z.leb_le in E. lia. }
  rewrite !Nat2Z.id. destruct ((i =? j)%nat || Reqb (siteradius c i) (siteradius c j)) eqn:E'.
  { rewrite orb_true_iff, Nat.eqb_eq, Reqb_true in E'. tauto. }
  clear E E'. unfold getNeighborIds. rewrite fill_fill. destruct (weak_fill c bs HV HW) as [W1 W2]. specialize (W2 (filled_cached c)).
  set (c' := fillNeighborIds c) in *. destruct (fill_same c) as [HV' HR']. fold c' in HV', HR'. rewrite HV in HV'.
  fold (nbget i (mnbids c')) (nbget j (mnbids c')).
  f_equal. f_equal.
  set (F := fun idx => let b0 := to_int (subvalue c' SITE0_OFFSET idx) in let b1 := to_int (subvalue c' SITE1_OFFSET idx) in
    (if (b0 =? b1)%nat then 1 else 2) * o_occ S b0 * o_occ S b1 * INR (o_mult S b0) / 2 *
    ((suboverlap c' idx i j)² - (suboverlap c' idx 0 0)²)).
  assert (EF : forall l a, fold_left (fun rv idx => let i1 := to_int (subvalue c' SITE0_OFFSET idx) in
        let j1 := to_int (subvalue c' SITE1_OFFSET idx) in
        let sqscale := (if (i1 =? j1)%nat then 1 else 2) * o_occ S i1 * o_occ S j1 * INR (o_mult S i1) / 2 in
        let olp0 := suboverlap c' idx 0 0 in
        let olp1 := suboverlap c' idx i j in
        rv - sqscale * olp0 * olp0 + sqscale * olp1 * olp1) l a = a + sumf F l).
  { clear. induction l as [|x l IH]; intros a; cbn [fold_left]; [rewrite sumf_nil; ring|]. rewrite IH, sumf_cons. unfold F. cbv zeta. unfold Rsqr. field. }
  rewrite EF, Rplus_0_l. clear EF.
  rewrite (sumf_perm F _ (filter (fun x => starts bs i x || starts bs j x) (seq 0 (length bs)))).
  - rewrite sumf_filter. unfold flip_value. rewrite sumf_filter. apply sumf_seq. intros k b Hk.
    unfold starts, touches. rewrite Hk. destruct ((b_site0 b =? i)%nat || (b_site0 b =? j)%nat); [|reflexivity].
    unfold F. cbv zeta. rewrite (site0_view c' bs HV' k b), (site1_view c' bs HV' k b), (overlap_view c' bs HV' k b), (overlap_view0 c' bs HV' k b) by auto.
    unfold siteradius. rewrite HR'. reflexivity.
  - apply NoDup_Permutation; [apply NoDup_nodup|apply NoDup_filter, seq_NoDup|].
    intros x. unfold idset. rewrite nodup_In, in_app_iff, filter_In, orb_true_iff.
    assert (G : forall k, In x (nbget k (mnbids c')) <-> In x (seq 0 (length bs)) /\ starts bs k x = true).
    { intros k. rewrite <- filter_In. split; [apply W1|apply W2]. }
    rewrite !G. tauto.
Qed.

(** sum over the bonds seen from the other end *)
Definition key := (nat * nat * R)%type.
Definition key_dec (x y : key) : {x = y} + {x <> y}.
Proof. decide equality; [apply Req_EM_T|]. decide equality; apply Nat.eq_dec. Qed.
Definition key_of (b : bond) : key := (b_site0 b, b_site1 b, b_distance b).
Definition kflip (k : key) : key := let '(a, b, d) := k in (b, a, d).
Lemma sumf_pick_key (g : key -> R) x K : NoDup K -> In x K -> sumf (fun k => if key_dec x k then g k else 0) K = g x.
Proof.
  induction 1 as [|y K HN HD IH]; intros HI; [contradiction|]. rewrite sumf_cons. destruct HI as [->|HI].
  - destruct (key_dec x x) as [_|]; [|congruence]. rewrite sumf_zero; [ring|]. intros z Hz. destruct (key_dec x z) as [->|]; [contradiction|reflexivity].
  - destruct (key_dec x y) as [->|]; [contradiction|]. rewrite IH; auto. ring.
Qed.
Lemma is_bond_key a b d x : is_bond a b d x = if key_dec (key_of x) (a, b, d) then true else false.
Proof.
  unfold is_bond. destruct (key_dec (key_of x) (a, b, d)) as [E|N].
  - injection E as -> -> ->. rewrite !Nat.eqb_refl. now apply Reqb_true.
  - apply not_true_is_false. rewrite !andb_true_iff, !Nat.eqb_eq, Reqb_true. intros [[H1 H2] H3]. apply N. unfold key_of. congruence.
Qed.
Lemma kflip_inv k : kflip (kflip k) = k. Proof. destruct k as [[a b] d]. reflexivity. Qed.
Lemma sum_by_key (m : nat -> nat) (f : key -> R) bs K : NoDup K -> (forall b, In b bs -> In (key_of b) K) ->
  sumf (fun b => INR (m (b_site0 b)) * f (key_of b)) bs =
  sumf (fun k => let '(x, y, d) := k in INR (m x * length (filter (is_bond x y d) bs)) * f k) K.
Proof.
  intros HK HI. rewrite (sumf_ext _ (fun b => sumf (fun k => if key_dec (key_of b) k then INR (m (fst (fst k))) * f k else 0) K)).
  2:{ intros b Hb. rewrite sumf_pick_key; auto. }
  rewrite sumf_swap. apply sumf_ext. intros [[x y] d] _. cbn [fst].
  rewrite (sumf_ext _ (fun b => if is_bond x y d b then INR (m x) * f (x, y, d) else 0)).
  2:{ intros b _. rewrite is_bond_key. destruct (key_dec _ _); reflexivity. }
  rewrite <- sumf_filter, sumf_const, mult_INR. ring.
Qed.
Lemma balanced_flip S bs (f : key -> R) : balanced S bs ->
  sumf (fun b => INR (o_mult S (b_site0 b)) * f (key_of b)) bs = sumf (fun b => INR (o_mult S (b_site0 b)) * f (kflip (key_of b))) bs.
Proof.
  intros HB. set (K := nodup key_dec (map key_of bs ++ map (fun b => kflip (key_of b)) bs)).
  assert (NK : NoDup K) by apply NoDup_nodup.
  assert (IK : forall b, In b bs -> In (key_of b) K).
  { intros b Hb. apply nodup_In, in_app_iff. left. now apply in_map. }
  assert (FK : forall k, In k K -> In (kflip k) K).
  { intros k Hk. apply nodup_In, in_app_iff in Hk. apply nodup_In, in_app_iff. destruct Hk as [Hk|Hk]; apply in_map_iff in Hk as (b & <- & Hb).
    - right. apply in_map_iff. exists b; auto.
    - left. rewrite kflip_inv. now apply in_map. }
  assert (PK : Permutation K (map kflip K)).
  { apply NoDup_Permutation; auto.
    - apply FinFun.Injective_map_NoDup; auto. intros x y E. rewrite <- (kflip_inv x), E. apply kflip_inv.
    - intros k. split; intros H.
      + rewrite <- (kflip_inv k). apply in_map. auto.
      + apply in_map_iff in H as (k' & <- & H). auto. }
  rewrite (sum_by_key (o_mult S) f bs K NK IK), (sum_by_key (o_mult S) (fun k => f (kflip k)) bs K NK IK).
  rewrite (sumf_perm _ _ _ PK), sumf_map. apply sumf_ext. intros [[x y] d] _. cbn [kflip]. now rewrite HB.
Qed.

Lemma flip_exact S r bs i j : balanced S bs -> i <> j ->
  flip_value S r bs i j = total_square S (swap r i j) bs - total_square S r bs.
Proof.
  intros HB Hne. unfold total_square. set (w := fun b => o_occ S (b_site0 b) * o_occ S (b_site1 b) * INR (o_mult S (b_site0 b))).
  set (D := fun b => (overlap (swap r i j) b)² - (overlap r b)²).
  transitivity (sumf (fun b => w b * D b / 2) bs).
  2:{ rewrite <- Rdiv_minus_distr, <- sumf_minus. unfold Rdiv. rewrite Rmult_comm, <- sumf_scale. apply sumf_ext. intros b _. unfold w, D. field. }
  set (t := fun k => (k =? i)%nat || (k =? j)%nat).
  (** bonds by which ends are i or j *)
  set (f := fun k : key => let '(a, b, d) := k in if negb (t a) && t b then
     o_occ S a * o_occ S b * ((Rmax 0 (swap r i j a + swap r i j b - d))² - (Rmax 0 (r a + r b - d))²) / 2 else 0).
  pose proof (balanced_flip S bs f HB) as B.
  assert (Fk : forall b, INR (o_mult S (b_site0 b)) * f (key_of b) = if negb (t (b_site0 b)) && t (b_site1 b) then w b * D b / 2 else 0).
  { intros b. unfold f, key_of, w, D, overlap. destruct (negb (t (b_site0 b)) && t (b_site1 b)); field. }
  assert (Ff : forall b, INR (o_mult S (b_site0 b)) * f (kflip (key_of b)) = if t (b_site0 b) && negb (t (b_site1 b)) then w b * D b / 2 else 0).
  { intros b. unfold f, key_of, w, D, overlap. cbn [kflip]. rewrite (andb_comm (t (b_site0 b))).
    rewrite (Rplus_comm (swap r i j (b_site1 b))), (Rplus_comm (r (b_site1 b))).
    destruct (negb (t (b_site1 b)) && t (b_site0 b)); field. }
  rewrite (sumf_ext _ _ bs (fun b _ => Fk b)), (sumf_ext _ _ bs (fun b _ => Ff b)) in B.
  assert (D0 : forall b, t (b_site0 b) = false -> t (b_site1 b) = false -> D b = 0).
  { intros b. unfold t, D, overlap, swap. rewrite !orb_false_iff. intros [-> ->] [-> ->]. ring. }
  assert (D1 : forall b, t (b_site0 b) = true -> t (b_site1 b) = true -> b_site0 b <> b_site1 b -> D b = 0).
  { intros b. unfold t, D, overlap, swap. rewrite !orb_true_iff, !Nat.eqb_eq. intros [E0|E0] [E1|E1] N; rewrite E0, E1 in *; try congruence.
    - rewrite !Nat.eqb_refl. destruct (Nat.eqb_spec j i); [congruence|]. rewrite (Rplus_comm (r j)). ring.
    - rewrite !Nat.eqb_refl. destruct (Nat.eqb_spec j i); [congruence|]. rewrite (Rplus_comm (r i)). ring. }
  unfold flip_value. rewrite sumf_filter.
  rewrite (sumf_ext _ (fun b => (if t (b_site0 b) && t (b_site1 b) then w b * D b / 2 else 0) +
      2 * (if t (b_site0 b) && negb (t (b_site1 b)) then w b * D b / 2 else 0))).
  2:{ intros b _. fold (D b). unfold touches. fold (t (b_site0 b)). destruct (t (b_site0 b)) eqn:T0; cbn [andb]; [|ring].
      destruct (t (b_site1 b)) eqn:T1; cbn [negb].
      - destruct (Nat.eqb_spec (b_site0 b) (b_site1 b)) as [E|N]; [unfold w; field|]. rewrite (D1 b); auto. field.
      - destruct (Nat.eqb_spec (b_site0 b) (b_site1 b)) as [E|N]; [rewrite E in T0; congruence|]. unfold w. field. }
  rewrite (sumf_ext (fun b => w b * D b / 2) (fun b => (if t (b_site0 b) && t (b_site1 b) then w b * D b / 2 else 0) +
      ((if t (b_site0 b) && negb (t (b_site1 b)) then w b * D b / 2 else 0) + (if negb (t (b_site0 b)) && t (b_site1 b) then w b * D b / 2 else 0)))).
  2:{ intros b _. destruct (t (b_site0 b)) eqn:T0, (t (b_site1 b)) eqn:T1; cbn [andb negb]; try field. rewrite D0; auto. field. }
  rewrite !sumf_plus, sumf_scale, B. ring.
Qed.
Lemma flip_sym S r bs i j : flip_value S r bs i j = flip_value S r bs j i.
Proof.
  unfold flip_value. rewrite !sumf_filter. apply sumf_ext. intros b _. unfold touches. rewrite orb_comm.
  destruct ((b_site0 b =? j)%nat || (b_site0 b =? i)%nat); [|reflexivity]. f_equal. f_equal. f_equal.
  apply overlap_ext. intros k. unfold swap. destruct (Nat.eqb_spec k i) as [E1|E1], (Nat.eqb_spec k j) as [E2|E2]; congruence.
Qed.

(** ** Main statements *)
Section Hist.
  Context (S : ostru) (lk : string -> R) (c : ocalc) (ops : list ocall) (HO : Forall (call_ok S) ops).
  Let c' := orun S lk (resetValue S lk c) ops.
  Let r := radius_of S lk.
  Let bs := counted ops.
  Lemma st : mvalue c' = flat_map chunk bs /\ Forall (bond_ok S) bs /\
    mradii c' = map r (seq 0 (o_n S)) /\ mmaxsep c' = 2 * maxradius (mradii c').
  Proof. exact (run_state S lk c ops HO). Qed.
  Lemma bok b : In b bs -> bond_ok S b.
  Proof. destruct st as (_ & H & _). rewrite Forall_forall in H. auto. Qed.
  Lemma ovr b : In b bs -> overlap (siteradius c') b = overlap r b.
  Proof. intros H. apply overlap_radius; [apply st|now apply bok]. Qed.
  Lemma ovr2 i j b : (i < o_n S)%nat -> (j < o_n S)%nat -> In b bs -> overlap (swap (siteradius c') i j) b = overlap (swap r i j) b.
  Proof.
    intros Hi Hj H. destruct (bok b H) as [H0 H1]. destruct st as (_ & _ & HR & _). unfold overlap, swap. fold r in HR.
    assert (E : forall k, (k < o_n S)%nat -> siteradius c' k = r k) by (intros; now apply (radius_view S lk)).
    rewrite (E i), (E j), (E (b_site0 b)), (E (b_site1 b)) by auto. reflexivity.
  Qed.
  Lemma filt : filter (overlapping (siteradius c')) bs = filter (overlapping r) bs.
  Proof. apply filter_ext_in. intros b Hb. unfold overlapping. now rewrite ovr. Qed.
  Theorem lists_main : overlaps c' = map (overlap r) (filter (overlapping r) bs) /\
    distances c' = map b_distance (filter (overlapping r) bs) /\ directions c' = map b_r01 (filter (overlapping r) bs) /\
    sites0 c' = map b_site0 (filter (overlapping r) bs) /\ sites1 c' = map b_site1 (filter (overlapping r) bs) /\
    types0 S c' = map (fun b => o_type S (b_site0 b)) (filter (overlapping r) bs) /\
    types1 S c' = map (fun b => o_type S (b_site1 b)) (filter (overlapping r) bs).
  Proof.
    destruct st as (HV & _). unfold types0, types1.
    rewrite (overlaps_view c' bs HV), (distances_view c' bs HV), (directions_view c' bs HV), (sites0_view c' bs HV), (sites1_view c' bs HV), filt.
    rewrite !map_map. repeat (apply conj; [try reflexivity|]); try reflexivity.
    apply map_ext_in. intros b Hb. apply filter_In in Hb as [Hb _]. now apply ovr.
  Qed.
  Theorem totals_main : length (siteSquareOverlaps S c') = o_n S /\ (forall i, nth i (siteSquareOverlaps S c') 0 = site_square S r bs i) /\
    totalSquareOverlap S c' = total_square S r bs /\
    meanSquareOverlap S c' = if Rltb 0 (total_occupancy S) then total_square S r bs / total_occupancy S else 0.
  Proof.
    destruct st as (HV & HB & _). destruct (site_square_raw S c' bs HV HB) as [H1 H2].
    assert (ET : total_square S (siteradius c') bs = total_square S r bs).
    { unfold total_square. f_equal. apply sumf_ext. intros b Hb. now rewrite ovr. }
    repeat (apply conj).
    - exact H1.
    - intros i. rewrite H2. unfold site_square. f_equal. apply sumf_ext. intros b Hb. apply filter_In in Hb as [Hb _]. now rewrite ovr.
    - rewrite (total_raw S c' bs HV HB). exact ET.
    - rewrite (mean_raw S c' bs HV HB), ET. reflexivity.
  Qed.
  Theorem coordination_main : length (coordinations S c') = o_n S /\ forall i, nth i (coordinations S c') 0 = coordination S r bs i.
  Proof.
    destruct st as (HV & HB & _). destruct (coordinations_raw S c' bs HV HB) as [H1 H2]. split; [exact H1|].
    intros i. rewrite H2. unfold coordination. f_equal. apply filter_ext_in. intros b Hb. unfold overlapping. now rewrite ovr.
  Qed.
  (** the limit on the distance loses no overlapping pair *)
  Theorem rmax_main d i j : (i < o_n S)%nat -> (j < o_n S)%nat -> 0 < r i + r j - d -> forall rmax, d <= rmax -> d <= getRmaxUsed c' rmax.
  Proof.
    intros Hi Hj H rmax HR. destruct st as (_ & _ & HRR & HM). unfold getRmaxUsed. apply Rmin_glb; auto.
    pose proof (maxsep_bound S lk c' i j HRR HM Hi Hj). unfold r in H. lra.
  Qed.

  Lemma flip_val_r i j : (i < o_n S)%nat -> (j < o_n S)%nat -> flip_value S (siteradius c') bs i j = flip_value S r bs i j.
  Proof.
    intros Hi Hj. unfold flip_value. apply sumf_ext. intros b Hb. apply filter_In in Hb as [Hb _]. now rewrite ovr, ovr2 by auto.
  Qed.
  Context (HN : no_late_bonds false ops).
  Theorem flip_main i j : (i < o_n S)%nat -> (j < o_n S)%nat -> balanced S bs ->
    exists c2, flipDiffTotal S c' (Z.of_nat i) (Z.of_nat j) = Ok (c2, total_square S (swap r i j) bs - total_square S r bs).
  Proof.
    intros Hi Hj HB. destruct st as (HV & _ & HR & _).
    assert (E : forall k, (k < o_n S)%nat -> siteradius c' k = r k) by (intros; now apply (radius_view S lk)).
    destruct (Nat.eq_dec i j) as [<-|Hne]; [|destruct (Req_dec (r i) (r j)) as [Hr|Hr]].
    - exists c'. unfold flipDiffTotal.
      destruct ((Z.of_nat i <? 0) || (Z.of_nat (o_n S) <=? Z.of_nat i) || (Z.of_nat i <? 0) || (Z.of_nat (o_n S) <=? Z.of_nat i))%Z eqn:Q.
      { rewrite !orb_true_iff, !Z.ltb_lt, !Z.leb_le in Q. lia. }
      rewrite Nat2Z.id, Nat.eqb_refl. cbn [orb]. f_equal. f_equal. unfold total_square.
      rewrite (sumf_ext (fun b => _ * (overlap (swap r i i) b)²) (fun b => o_occ S (b_site0 b) * o_occ S (b_site1 b) * INR (o_mult S (b_site0 b)) * (overlap r b)²)); [ring|].
      intros b _. now rewrite (overlap_ext (swap r i i) r) by (intros; apply swap_same).
    - exists c'. unfold flipDiffTotal.
      destruct ((Z.of_nat i <? 0) || (Z.of_nat (o_n S) <=? Z.of_nat i) || (Z.of_nat j <? 0) || (Z.of_nat (o_n S) <=? Z.of_nat j))%Z eqn:Q.
      { rewrite !orb_true_iff, !Z.ltb_lt, !Z.leb_le in Q. lia. }
      rewrite !Nat2Z.id, !E by auto. replace (Reqb (r i) (r j)) with true by (symmetry; now apply Reqb_true).
      rewrite orb_true_r. f_equal. f_equal. unfold total_square.
      rewrite (sumf_ext (fun b => _ * (overlap (swap r i j) b)²) (fun b => o_occ S (b_site0 b) * o_occ S (b_site1 b) * INR (o_mult S (b_site0 b)) * (overlap r b)²)); [ring|].
      intros b _. rewrite (overlap_ext (swap r i j) r); [reflexivity|]. intros k. unfold swap.
      destruct (Nat.eqb_spec k i) as [->|]; [auto|]. destruct (Nat.eqb_spec k j) as [->|]; auto.
    - exists (fillNeighborIds c'). rewrite (flip_raw S c' bs i j HV (weak_reset S lk c ops HN)); auto.
      + rewrite flip_val_r by auto. now rewrite flip_exact.
      + now rewrite !E.
  Qed.
  Theorem flip_same_main i : (i < o_n S)%nat -> flipDiffTotal S c' (Z.of_nat i) (Z.of_nat i) = Ok (c', 0).
  Proof.
    intros Hi. unfold flipDiffTotal.
    destruct ((Z.of_nat i <? 0) || (Z.of_nat (o_n S) <=? Z.of_nat i) || (Z.of_nat i <? 0) || (Z.of_nat (o_n S) <=? Z.of_nat i))%Z eqn:Q.
    { rewrite !orb_true_iff, !Z.ltb_lt, !Z.leb_le in Q. lia. }
    rewrite Nat2Z.id, Nat.eqb_refl. reflexivity.
  Qed.
  Theorem flip_sym_main zi zj : flipDiffTotal S c' zi zj = flipDiffTotal S c' zj zi.
  Proof.
    destruct ((zi <? 0) || (Z.of_nat (o_n S) <=? zi) || (zj <? 0) || (Z.of_nat (o_n S) <=? zj))%Z eqn:Q.
    - unfold flipDiffTotal. rewrite Q. replace (_ || _)%Z with true; [reflexivity|]. symmetry.
      rewrite <- Q, <- !orb_assoc. destruct (zi <? 0)%Z, (zj <? 0)%Z, (Z.of_nat (o_n S) <=? zi)%Z, (Z.of_nat (o_n S) <=? zj)%Z; reflexivity.
    - apply orb_false_iff in Q as [Q Q4]. apply orb_false_iff in Q as [Q Q3]. apply orb_false_iff in Q as [Q1 Q2].
      rewrite Z.ltb_ge in Q1, Q3. rewrite Z.leb_gt in Q2, Q4.
      rewrite <- (Z2Nat.id zi), <- (Z2Nat.id zj) by lia. set (i := Z.to_nat zi). set (j := Z.to_nat zj).
      assert (Hi : (i < o_n S)%nat) by lia. assert (Hj : (j < o_n S)%nat) by lia.
      destruct st as (HV & _ & HR & _).
      destruct (Nat.eq_dec i j) as [<-|Hne]; [reflexivity|].
      destruct (Req_dec (siteradius c' i) (siteradius c' j)) as [Hr|Hr].
      + unfold flipDiffTotal.
        destruct ((Z.of_nat i <? 0) || (Z.of_nat (o_n S) <=? Z.of_nat i) || (Z.of_nat j <? 0) || (Z.of_nat (o_n S) <=? Z.of_nat j))%Z eqn:Q.
        { rewrite !orb_true_iff, !Z.ltb_lt, !Z.leb_le in Q. lia. }
        destruct ((Z.of_nat j <? 0) || (Z.of_nat (o_n S) <=? Z.of_nat j) || (Z.of_nat i <? 0) || (Z.of_nat (o_n S) <=? Z.of_nat i))%Z eqn:Q'.
        { rewrite !orb_true_iff, !Z.ltb_lt, !Z.leb_le in Q'. lia. }
        rewrite !Nat2Z.id.
        replace (Reqb (siteradius c' i) (siteradius c' j)) with true by (symmetry; now apply Reqb_true).
        replace (Reqb (siteradius c' j) (siteradius c' i)) with true by (symmetry; apply Reqb_true; congruence).
        now rewrite !orb_true_r.
      + rewrite !(flip_raw S c' bs _ _ HV (weak_reset S lk c ops HN)) by auto. now rewrite flip_sym.
  Qed.
  Theorem flip_throws_main zi zj : ~ (0 <= zi < Z.of_nat (o_n S) /\ 0 <= zj < Z.of_nat (o_n S))%Z ->
    exists y, flipDiffTotal S c' zi zj = Throw InvalidArgument y.
  Proof.
    intros H. unfold flipDiffTotal. eexists. replace (_ || _)%Z with true; [reflexivity|]. symmetry.
    rewrite !orb_true_iff, !Z.ltb_lt, !Z.leb_le. lia.
  Qed.
  Lemma fold_sinsert l : forall s x, In x (fold_left (fun s x => sinsert x s) l s) <-> In x s \/ In x l.
  Proof.
    induction l as [|y l IH]; intros s x; cbn; [tauto|]. rewrite IH. unfold sinsert.
    destruct (existsb (Nat.eqb y) s) eqn:E.
    - apply existsb_exists in E as (z & Hz & E). apply Nat.eqb_eq in E. subst z. intuition congruence.
    - rewrite in_app_iff. cbn. intuition.
  Qed.
  Theorem neighbor_sites_main i : forall j, In j (snd (getNeighborSites c' i)) <-> linked r bs i j.
  Proof.
    intros j. destruct st as (HV & _). unfold getNeighborSites, getNeighborIds. fold (nbget i (mnbids (fillNeighborIds c'))).
    destruct (weak_fill c' bs HV (weak_reset S lk c ops HN)) as [W1 W2]. specialize (W2 (filled_cached c')).
    destruct (fill_same c') as [HV' HR']. set (c2 := fillNeighborIds c') in *. rewrite HV in HV'.
    cbn [snd].
    assert (SR : forall k, siteradius c2 k = siteradius c' k) by (intros; unfold siteradius; now rewrite HR').
    assert (G : forall l s, (forall x, In x l -> In x (ids bs i)) ->
       (In j (fold_left (fun rv idx => if Rleb (suboverlap c2 idx 0 0) 0 then rv else sinsert (to_int (subvalue c2 SITE1_OFFSET idx)) rv) l s) <->
       In j s \/ exists k b, In k l /\ nth_error bs k = Some b /\ b_site1 b = j /\ 0 < overlap r b)).
    { induction l as [|k l IH]; intros s Hl; cbn [fold_left].
      - split; [auto|]. intros [H|(k & b & [] & _)]; auto.
      - destruct (proj1 (ids_In bs i k) (Hl k (or_introl eq_refl))) as (b & Hk & Hb).
        rewrite IH by auto with datatypes.
        rewrite (overlap_view0 c2 bs HV' k b Hk), leb_overlap, (site1_view c2 bs HV' k b Hk).
        unfold overlapping. rewrite (overlap_ext _ _ b SR), (ovr b) by (eapply nth_error_In; eauto).
        assert (In j (if negb (Rltb 0 (overlap r b)) then s else sinsert (b_site1 b) s) <-> In j s \/ b_site1 b = j /\ 0 < overlap r b) as ->.
        { destruct (Rltb 0 (overlap r b)) eqn:P; cbn [negb].
          - apply Rltb_true in P. unfold sinsert. destruct (existsb (Nat.eqb (b_site1 b)) s) eqn:X.
            + apply existsb_exists in X as (z & Hz & X). apply Nat.eqb_eq in X. subst z. intuition congruence.
            + rewrite in_app_iff. cbn. tauto.
          - apply Rltb_false in P. intuition lra. }
        split.
        + intros [[H|[H1 H2]]|(k' & b' & H1 & H2)]; [auto| |].
          * right. exists k, b. cbn. auto.
          * right. exists k', b'. cbn. tauto.
        + intros [H|(k' & b' & [<-|H1] & H2 & H3)]; [auto| |].
          * left. right. replace b with b' by congruence. exact H3.
          * right. exists k', b'. auto. }
    rewrite G by (intros; now apply W1). unfold linked. split.
    - intros [[]|(k & b & H1 & H2 & H3 & H4)]. apply W1, ids_In in H1 as (b' & E & H1). exists b. repeat split; auto; [eapply nth_error_In; eauto|congruence].
    - intros (b & Hb & E0 & E1 & HP). right. apply In_nth_error in Hb as [k Hk]. exists k, b. repeat split; auto. apply W2, ids_In. eauto.
  Qed.
  Context (HS : no_late_save false ops).
  Lemma tpget_add tp tp' x m : tpget tp (tpadd tp' x m) =
    if string_dec tp tp' then Some (match tpget tp m with Some v => v + x | None => x end) else tpget tp m.
  Proof.
    induction m as [|[k v] m IH]; cbn.
    - destruct (string_dec tp tp'); [|reflexivity]. f_equal. ring.
    - destruct (string_dec tp' k) as [->|N]; cbn.
      + destruct (string_dec tp k); reflexivity.
      + destruct (string_dec tp k) as [->|]; [destruct (string_dec k tp'); congruence|exact IH].
  Qed.
  Theorem by_types_main i tp : match tpget tp (snd (coordinationByTypes S c' i)) with
    | Some x => x = coordination_by S r bs i tp
    | None => coordination_by S r bs i tp = 0 end.
  Proof.
    destruct st as (HV & _). unfold coordinationByTypes, getNeighborIds. fold (nbget i (mnbids (fillNeighborIds c'))).
    pose proof (strict_fill c' bs HV (strict_reset S lk c ops HN HS)) as W. unfold strict in W. rewrite filled_cached in W.
    destruct (fill_same c') as [HV' HR']. set (c2 := fillNeighborIds c') in *. rewrite HV in HV'. cbn [snd]. rewrite W.
    assert (SR : forall k, siteradius c2 k = siteradius c' k) by (intros; unfold siteradius; now rewrite HR').
    set (step := fun rv idx => _).
    set (cb := fun l => coordination_by S r l i tp).
    assert (G : forall l bl m, (forall k, In k l -> exists b, nth_error bs k = Some b /\ b_site0 b = i) ->
      bl = flat_map (fun k => match nth_error bs k with Some b => [b] | None => [] end) l ->
      match tpget tp (fold_left step l m) with Some x => x = (match tpget tp m with Some v => v | None => 0 end) + cb bl
      | None => tpget tp m = None /\ cb bl = 0 end).
    { induction l as [|k l IH]; intros bl m Hl ->; cbn [fold_left flat_map].
      - unfold cb, coordination_by. cbn [filter]. rewrite sumf_nil. destruct (tpget tp m); [ring|auto].
      - destruct (Hl k (or_introl eq_refl)) as (b & Hk & Hb). rewrite Hk. cbn [app].
        specialize (IH _ (step m k) (fun k' H' => Hl k' (or_intror H')) eq_refl).
        assert (Es : step m k = if overlapping r b then tpadd (o_type S (b_site1 b)) (o_occ S (b_site1 b)) m else m).
        { unfold step. cbv zeta. rewrite (overlap_view0 c2 bs HV' k b Hk), leb_overlap, (site1_view c2 bs HV' k b Hk), (site0_view c2 bs HV' k b Hk), Hb, Nat.eqb_refl.
          unfold overlapping. rewrite (overlap_ext _ _ b SR), ovr by (eapply nth_error_In; eauto). destruct (Rltb 0 (overlap r b)); reflexivity. }
        rewrite Es in IH |- *. revert IH.
        set (L := flat_map _ l). unfold cb, coordination_by. cbn [filter]. rewrite Hb, Nat.eqb_refl. cbn [andb].
        destruct (overlapping r b); cbn [andb]; [|auto].
        rewrite tpget_add. destruct (string_dec tp (o_type S (b_site1 b))) as [E|N].
        + rewrite <- E. destruct (string_dec tp tp) as [_|]; [|congruence]. rewrite sumf_cons.
          match goal with |- context [fold_left step l ?y] => destruct (tpget tp (fold_left step l y)) end; [|intros [? _]; discriminate].
          intros ->. destruct (tpget tp m); ring.
        + destruct (string_dec (o_type S (b_site1 b)) tp); [congruence|]. auto. }
    specialize (G (ids bs i) _ [] (fun k Hk => proj1 (ids_In bs i k) Hk) eq_refl). cbn [tpget] in G.
    assert (EC : cb (flat_map (fun k => match nth_error bs k with Some b => [b] | None => [] end) (ids bs i)) = coordination_by S r bs i tp).
    { unfold cb. replace (flat_map (fun k => match nth_error bs k with Some b => [b] | None => [] end) (ids bs i)) with (filter (fun b => b_site0 b =? i)%nat bs).
      - unfold coordination_by. f_equal. generalize bs. intros l0. induction l0 as [|b l IH]; [reflexivity|]. cbn [filter]. destruct (b_site0 b =? i)%nat eqn:E; cbn [filter andb]; [|exact IH].
        rewrite E. cbn [andb]. rewrite IH. reflexivity.
      - unfold ids. symmetry. rewrite <- (map_id (filter _ bs)), <- flatmap_filter, <- (flatmap_seq (fun k => if starts bs i k then match nth_error bs k with Some b => [b] | None => [] end else []) _ bs).
        + generalize (seq 0 (length bs)). intros l. induction l as [|k l IH]; [reflexivity|]. cbn [filter flat_map].
          destruct (starts bs i k); cbn [flat_map app]; now rewrite IH.
        + intros k b Hk. unfold starts. rewrite Hk. reflexivity. }
    rewrite EC in G. destruct (tpget tp _); [lra|]. tauto.
  Qed.
End Hist.
