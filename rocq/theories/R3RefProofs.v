(** Proofs about references to static variables *)
From Verif Require Import RBase R3 Trig Sphere Lattice LatticeSpec LatticeProofs BondGen Crystal R3Ref R3RefSpec R3RefLU.
From Coq Require Import Psatz.
Import ListNotations.
Open Scope R_scope.

Lemma vec_eta v : V3 (vx v) (vy v) (vz v) = v. Proof. now destruct v. Qed.
Lemma put_same c v m : vecs (put c v m) c = v.
Proof. unfold put. cbn [vecs]. destruct (cell_dec c c); congruence. Qed.
Lemma put_other c d v m : c <> d -> vecs (put c v m) d = vecs m d.
Proof. intros H. unfold put. cbn [vecs]. destruct (cell_dec c d); congruence. Qed.
Lemma mput_same c v m : mats (mput c v m) c = v.
Proof. unfold mput. cbn [mats]. destruct (mcell_dec c c); congruence. Qed.
Lemma mput_other c d v m : c <> d -> mats (mput c v m) d = mats m d.
Proof. intros H. unfold mput. cbn [mats]. destruct (mcell_dec c d); congruence. Qed.
Lemma copied_val c v m : vecs (copied c v m) c = v.
Proof. unfold copied, put_z, put_y, put_x. rewrite !put_same. cbn [vx vy vz]. apply vec_eta. Qed.
Lemma copied_other c d v m : c <> d -> vecs (copied c v m) d = vecs m d.
Proof. intros H. unfold copied, put_z, put_y, put_x. now rewrite !put_other. Qed.
Lemma copied_mats c v m : mats (copied c v m) = mats m. Proof. reflexivity. Qed.

Lemma floorv_other v d m : SFloor <> d -> vecs (floorv v m) d = vecs m d.
Proof. intros H. unfold floorv, put_z, put_y, put_x. now rewrite !put_other. Qed.
Lemma floorv_val v m : vecs (floorv v m) SFloor = floor3 (vecs m v).
Proof.
  destruct (cell_dec v SFloor) as [->|N]; unfold floorv, put_z, put_y, put_x; rewrite !put_same; cbn [vx vy vz].
  - reflexivity.
  - rewrite !(put_other SFloor v) by congruence. reflexivity.
Qed.
Lemma mxvec_other M u d m : SMxVec <> d -> vecs (mxvec M u m) d = vecs m d.
Proof. intros H. unfold mxvec, put_z, put_y, put_x. now rewrite !put_other. Qed.
Lemma mxvec_val M u m : u <> SMxVec -> vecs (mxvec M u m) SMxVec = mv (mats m M) (vecs m u).
Proof. intros H. unfold mxvec, put_z, put_y, put_x. rewrite !put_same. rewrite !(put_other SMxVec u) by congruence. reflexivity. Qed.
Lemma vecmx_other A u d m : SVecMx <> d -> vecs (vecmx u A m) d = vecs m d.
Proof. intros H. unfold vecmx, put_z, put_y, put_x. now rewrite !put_other. Qed.
Lemma vecmx_val A u m : u <> SVecMx -> vecs (vecmx u A m) SVecMx = vm (vecs m u) A.
Proof. intros H. unfold vecmx, put_z, put_y, put_x. rewrite !put_same. rewrite !(put_other SVecMx u) by congruence. reflexivity. Qed.
Lemma cartesian_other L u d m : SVecMx <> d -> SCart <> d -> vecs (cartesian_ref L u m) d = vecs m d.
Proof. intros H1 H2. unfold cartesian_ref. rewrite put_other by auto. now apply vecmx_other. Qed.
Lemma cartesian_val L u m : u <> SVecMx -> vecs (cartesian_ref L u m) SCart = cartesian L (vecs m u).
Proof. intros H. unfold cartesian_ref. rewrite put_same. now apply vecmx_val. Qed.
Lemma fractional_other L u d m : SVecMx <> d -> SFrac <> d -> vecs (fractional_ref L u m) d = vecs m d.
Proof. intros H1 H2. unfold fractional_ref. rewrite put_other by auto. now apply vecmx_other. Qed.
Lemma fractional_val L u m : u <> SVecMx -> vecs (fractional_ref L u m) SFrac = fractional L (vecs m u).
Proof. intros H. unfold fractional_ref. rewrite put_same. now apply vecmx_val. Qed.

(** the cell of floor always holds integers *)
Definition integral (m : mem) : Prop := floor3 (vecs m SFloor) = vecs m SFloor.
Lemma floor_int k : Rfloor (IZR k) = k.
Proof.
  destruct (Rfloor_spec (IZR k)) as [H1 H2]. apply le_IZR in H1. rewrite <- plus_IZR in H2. apply lt_IZR in H2. lia.
Qed.
Lemma floor3_twice v : floor3 (floor3 v) = floor3 v.
Proof. unfold floor3. cbn [vx vy vz]. now rewrite !floor_int. Qed.
Lemma ucv_tail (v : vec) m : vecs m SUcvFrac = v ->
  let m1 := if eps_eq (vx (vecs m SUcvFrac)) 1 SQRT_DOUBLE_EPS then put_x SUcvFrac 0 m else m in
  let m2 := if eps_eq (vy (vecs m1 SUcvFrac)) 1 SQRT_DOUBLE_EPS then put_y SUcvFrac 0 m1 else m1 in
  let m3 := if eps_eq (vz (vecs m2 SUcvFrac)) 1 SQRT_DOUBLE_EPS then put_z SUcvFrac 0 m2 else m2 in
  vecs m3 SUcvFrac = V3 (if eps_eq (vx v) 1 SQRT_DOUBLE_EPS then 0 else vx v) (if eps_eq (vy v) 1 SQRT_DOUBLE_EPS then 0 else vy v)
    (if eps_eq (vz v) 1 SQRT_DOUBLE_EPS then 0 else vz v) /\
  (forall d, SUcvFrac <> d -> vecs m3 d = vecs m d) /\ mats m3 = mats m.
Proof.
  intros E. rewrite E. cbv zeta.
  assert (X : vecs (if eps_eq (vx v) 1 SQRT_DOUBLE_EPS then put_x SUcvFrac 0 m else m) SUcvFrac = V3 (if eps_eq (vx v) 1 SQRT_DOUBLE_EPS then 0 else vx v) (vy v) (vz v)).
  { destruct (eps_eq (vx v) 1 SQRT_DOUBLE_EPS); unfold put_x; rewrite ?put_same, E; [reflexivity|now rewrite vec_eta]. }
  assert (XO : (forall d, SUcvFrac <> d -> vecs (if eps_eq (vx v) 1 SQRT_DOUBLE_EPS then put_x SUcvFrac 0 m else m) d = vecs m d) /\
    mats (if eps_eq (vx v) 1 SQRT_DOUBLE_EPS then put_x SUcvFrac 0 m else m) = mats m).
  { destruct (eps_eq (vx v) 1 SQRT_DOUBLE_EPS); split; auto. intros. unfold put_x. now rewrite put_other. }
  destruct XO as [XO XM]. revert X XO XM. generalize (if eps_eq (vx v) 1 SQRT_DOUBLE_EPS then put_x SUcvFrac 0 m else m). intros m1 X XO XM.
  generalize dependent (if eps_eq (vx v) 1 SQRT_DOUBLE_EPS then 0 else vx v). intros x X. rewrite X. cbn [vy vz].
  destruct (eps_eq (vy v) 1 SQRT_DOUBLE_EPS); unfold put_y; rewrite ?put_same, X; cbn [vx vy vz];
    destruct (eps_eq (vz v) 1 SQRT_DOUBLE_EPS); unfold put_z; rewrite ?put_same, ?X; cbn [vx vy vz]; (split; [reflexivity|]; split; [|assumption]);
    intros; rewrite ?put_other by assumption; auto.
Qed.
Lemma ucvFractional_val v m : integral m -> vecs (ucvFractional_ref v m) SUcvFrac = ucvFractional (vecs m v).
Proof.
  intros I. unfold ucvFractional_ref.
  assert (E : vecs (put SUcvFrac (vsub (vecs (floorv v m) v) (vecs (floorv v m) SFloor)) (floorv v m)) SUcvFrac = vsub (vecs m v) (floor3 (vecs m v))).
  { rewrite put_same, floorv_val. destruct (cell_dec SFloor v) as [<-|N]; [rewrite floorv_val, I|rewrite floorv_other by auto]; reflexivity. }
  destruct (ucv_tail _ _ E) as (H & _). rewrite H. reflexivity.
Qed.
Lemma ucvFractional_other v d m : SUcvFrac <> d -> SFloor <> d -> vecs (ucvFractional_ref v m) d = vecs m d.
Proof.
  intros H1 H2. unfold ucvFractional_ref. cbv zeta.
  destruct (ucv_tail _ _ (eq_refl (vecs (put SUcvFrac (vsub (vecs (floorv v m) v) (vecs (floorv v m) SFloor)) (floorv v m)) SUcvFrac))) as (_ & H & _).
  cbv zeta in H. rewrite H by auto. rewrite put_other by auto. now apply floorv_other.
Qed.
Lemma ucvFractional_mats v m : mats (ucvFractional_ref v m) = mats m.
Proof.
  unfold ucvFractional_ref. cbv zeta.
  destruct (ucv_tail _ _ (eq_refl (vecs (put SUcvFrac (vsub (vecs (floorv v m) v) (vecs (floorv v m) SFloor)) (floorv v m)) SUcvFrac))) as (_ & _ & H).
  cbv zeta in H. now rewrite H.
Qed.
Lemma ucvFractional_integral v m : integral (ucvFractional_ref v m).
Proof.
  unfold integral, ucvFractional_ref. cbv zeta.
  destruct (ucv_tail _ _ (eq_refl (vecs (put SUcvFrac (vsub (vecs (floorv v m) v) (vecs (floorv v m) SFloor)) (floorv v m)) SUcvFrac))) as (_ & H & _).
  cbv zeta in H. rewrite H by discriminate. rewrite put_other by discriminate. rewrite floorv_val. apply floor3_twice.
Qed.
Lemma integral_eq m m' : vecs m' SFloor = vecs m SFloor -> integral m -> integral m'.
Proof. unfold integral. now intros ->. Qed.
Lemma ucvCartesian_val L v m : integral m -> v <> SVecMx -> vecs (ucvCartesian_ref L v m) SUcvCart = ucvCartesian L (vecs m v).
Proof.
  intros I H. unfold ucvCartesian_ref. rewrite put_same, cartesian_val by discriminate.
  rewrite ucvFractional_val by (apply (integral_eq m); [apply fractional_other; discriminate|assumption]).
  rewrite fractional_val by auto. reflexivity.
Qed.
Lemma ucvCartesian_other L v d m : ~ In d [SUcvCart; SUcvFrac; SFloor; SCart; SFrac; SVecMx] -> vecs (ucvCartesian_ref L v m) d = vecs m d.
Proof.
  intros H. cbn [In] in H. unfold ucvCartesian_ref.
  rewrite put_other by tauto. rewrite cartesian_other by tauto. rewrite ucvFractional_other by tauto. apply fractional_other; tauto.
Qed.
Lemma ucvCartesian_mats L v m : mats (ucvCartesian_ref L v m) = mats m.
Proof. unfold ucvCartesian_ref. cbn [mats put]. unfold cartesian_ref. cbn. rewrite ucvFractional_mats. reflexivity. Qed.
Lemma ucvCartesian_integral L v m : integral (ucvCartesian_ref L v m).
Proof.
  unfold ucvCartesian_ref. apply (integral_eq (ucvFractional_ref SFrac (fractional_ref L v m))); [|apply ucvFractional_integral].
  rewrite put_other by discriminate. apply cartesian_other; discriminate.
Qed.
Lemma cartesianMatrix_val L A m : mats (cartesianMatrix_ref L A m) SCart1 = cartesianMatrix L (mats m A).
Proof. unfold cartesianMatrix_ref. now rewrite !mput_same. Qed.
Lemma cartesianMatrix_other L A d m : SCart0 <> d -> SCart1 <> d -> mats (cartesianMatrix_ref L A m) d = mats m d.
Proof. intros. unfold cartesianMatrix_ref. now rewrite !mput_other. Qed.
Lemma fractionalMatrix_val L A m : mats (fractionalMatrix_ref L A m) SFrac1 = fractionalMatrix L (mats m A).
Proof. unfold fractionalMatrix_ref. now rewrite !mput_same. Qed.
Lemma fractionalMatrix_other L A d m : SFrac0 <> d -> SFrac1 <> d -> mats (fractionalMatrix_ref L A m) d = mats m d.
Proof. intros. unfold fractionalMatrix_ref. now rewrite !mput_other. Qed.
Lemma inverse_spec A m : inverse_ref A m = if Reqb (det (mats m A)) 0 then None else Some (mput SInverse (minv (mats m A)) m).
Proof. unfold inverse_ref. rewrite LU_invert_spec. now destruct (Reqb _ _). Qed.

Lemma exec_integral c m m' : integral m -> exec c m = Some m' -> integral m'.
Proof.
  intros I. destruct c as [v|M u|u M|L v|L v|L v|v|L v|L v|L v|v|A|L A|L A|n v|n A]; cbn [exec]; [..|rewrite inverse_spec; destruct (Reqb _ _); [discriminate|]| | | |];
    intros E; injection E as <-.
  - unfold integral. rewrite floorv_val. apply floor3_twice.
  - apply (integral_eq m); [apply mxvec_other; discriminate|exact I].
  - apply (integral_eq m); [apply vecmx_other; discriminate|exact I].
  - apply (integral_eq m); [apply cartesian_other; discriminate|exact I].
  - apply (integral_eq m); [apply fractional_other; discriminate|exact I].
  - apply ucvCartesian_integral.
  - apply ucvFractional_integral.
  - apply (integral_eq m); [rewrite cartesian_other, copied_other by discriminate; reflexivity|exact I].
  - apply (integral_eq m); [rewrite fractional_other, copied_other by discriminate; reflexivity|exact I].
  - apply ucvCartesian_integral.
  - apply ucvFractional_integral.
  - apply (integral_eq m); [reflexivity|exact I].
  - apply (integral_eq m); [reflexivity|exact I].
  - apply (integral_eq m); [reflexivity|exact I].
  - apply (integral_eq m); [apply put_other; discriminate|exact I].
  - apply (integral_eq m); [reflexivity|exact I].
Qed.
Lemma run_integral h : forall m m', integral m -> run h m = Some m' -> integral m'.
Proof.
  induction h as [|c h IH]; cbn [run]; intros m m' I E; [injection E as <-; auto|].
  destruct (exec c m) as [m1|] eqn:E1; [|discriminate]. apply (IH m1); auto. eapply exec_integral; eauto.
Qed.
Lemma start_integral m : start m -> integral m.
Proof. intros H. unfold integral. rewrite (H SFloor). unfold floor3, vzero. cbn [vx vy vz]. now rewrite (floor_int 0). Qed.

Lemma call_value c m : integral m -> ~ nested c -> defined c m ->
  exists m', exec c m = Some m' /\ content (answer c) m' = expected c m /\ forall r, ~ In r (spoils c) -> content r m' = content r m.
Proof.
  intros I N D.
  destruct c as [v|M u|u M|L v|L v|L v|v|L v|L v|L v|v|A|L A|L A|n v|n A]; cbn [nested defined exec answer expected content spoils] in *.
  all: try (assert (K : forall (r : cell) c l, ~ In (inl r) (inl c :: l : list (cell + mcell)) -> c <> r /\ ~ In (inl r) l)
    by (intros r c l K1; split; [intros <-; apply K1; now left|intros K2; apply K1; now right])).
  all: assert (KM : forall (r : mcell) c l, ~ In (inr r) (inr c :: l : list (cell + mcell)) -> c <> r /\ ~ In (inr r) l)
    by (intros r c l K1; split; [intros <-; apply K1; now left|intros K2; apply K1; now right]).
  1: exists (floorv v m). 2: exists (mxvec M u m). 3: exists (vecmx u (mats m M) m). 4: exists (cartesian_ref L v m). 5: exists (fractional_ref L v m).
  6: exists (ucvCartesian_ref L v m). 7: exists (ucvFractional_ref v m). 8: exists (cartesian_ref L SCopyCart (copied SCopyCart v m)).
  9: exists (fractional_ref L SCopyFrac (copied SCopyFrac v m)). 10: exists (ucvCartesian_ref L SCopyUcvCart (copied SCopyUcvCart v m)).
  11: exists (ucvFractional_ref SCopyUcvFrac (copied SCopyUcvFrac v m)). 12: exists (mput SInverse (minv (mats m A)) m).
  13: exists (cartesianMatrix_ref L A m). 14: exists (fractionalMatrix_ref L A m). 15: exists (put (Var n) (vecs m v) m). 16: exists (mput (MVar n) (mats m A) m).
  12: split; [rewrite inverse_spec; destruct (Reqb (det (mats m A)) 0) eqn:E; [apply Reqb_true in E; contradiction|reflexivity]|].
  all: try (split; [reflexivity|]).
  - split; [now rewrite floorv_val|]. intros [r|r] H; cbn [content]; [|reflexivity]. apply K in H. rewrite floorv_other by apply H. reflexivity.
  - split; [now rewrite mxvec_val|]. intros [r|r] H; cbn [content]; [|reflexivity]. apply K in H. rewrite mxvec_other by apply H. reflexivity.
  - split; [now rewrite vecmx_val|]. intros [r|r] H; cbn [content]; [|reflexivity]. apply K in H. rewrite vecmx_other by apply H. reflexivity.
  - split; [now rewrite cartesian_val|]. intros [r|r] H; cbn [content]; [|reflexivity]. apply K in H. destruct H as [H1 H]. apply K in H. rewrite cartesian_other by (exact H1 || apply H). reflexivity.
  - split; [now rewrite fractional_val|]. intros [r|r] H; cbn [content]; [|reflexivity]. apply K in H. destruct H as [H1 H]. apply K in H. rewrite fractional_other by (exact H1 || apply H). reflexivity.
  - split; [now rewrite ucvCartesian_val|]. intros [r|r] H; cbn [content]; [|now rewrite ucvCartesian_mats].
    rewrite ucvCartesian_other; [reflexivity|]. intros X. apply H. apply (in_map (@inl cell mcell)) in X. exact X.
  - split; [now rewrite ucvFractional_val|]. intros [r|r] H; cbn [content]; [|now rewrite ucvFractional_mats].
    apply K in H. destruct H as [H1 H]. apply K in H. rewrite ucvFractional_other by (exact H1 || apply H). reflexivity.
  - split; [rewrite cartesian_val by discriminate; now rewrite copied_val|]. intros [r|r] H; cbn [content]; [|reflexivity].
    apply K in H. destruct H as [H1 H]. apply K in H. destruct H as [H2 H]. apply K in H. rewrite cartesian_other, copied_other by (exact H1 || exact H2 || apply H). reflexivity.
  - split; [rewrite fractional_val by discriminate; now rewrite copied_val|]. intros [r|r] H; cbn [content]; [|reflexivity].
    apply K in H. destruct H as [H1 H]. apply K in H. destruct H as [H2 H]. apply K in H. rewrite fractional_other, copied_other by (exact H1 || exact H2 || apply H). reflexivity.
  - split; [rewrite ucvCartesian_val; [now rewrite copied_val|apply (integral_eq m); [apply copied_other; discriminate|exact I]|discriminate]|].
    intros [r|r] H; cbn [content]; [|now rewrite ucvCartesian_mats].
    assert (H' : ~ In r [SUcvCart; SUcvFrac; SFloor; SCart; SFrac; SVecMx; SCopyUcvCart]) by (intros X; apply H; apply (in_map (@inl cell mcell)) in X; exact X).
    rewrite ucvCartesian_other; [rewrite copied_other; [reflexivity|intros <-; apply H'; cbn [In]; tauto]|]. intros X. apply H'. cbn [In] in *. tauto.
  - split; [rewrite ucvFractional_val; [now rewrite copied_val|apply (integral_eq m); [apply copied_other; discriminate|exact I]]|].
    intros [r|r] H; cbn [content]; [|now rewrite ucvFractional_mats].
    apply K in H. destruct H as [H1 H]. apply K in H. destruct H as [H2 H]. apply K in H. rewrite ucvFractional_other, copied_other by (exact H1 || exact H2 || apply H). reflexivity.
  - intros [r|r] H; cbn [content]; [reflexivity|]. apply KM in H. rewrite mput_other by apply H. reflexivity.
  - split; [now rewrite cartesianMatrix_val|]. intros [r|r] H; cbn [content]; [reflexivity|]. apply KM in H. destruct H as [H1 H]. apply KM in H. rewrite cartesianMatrix_other by (exact H1 || apply H). reflexivity.
  - split; [now rewrite fractionalMatrix_val|]. intros [r|r] H; cbn [content]; [reflexivity|]. apply KM in H. destruct H as [H1 H]. apply KM in H. rewrite fractionalMatrix_other by (exact H1 || apply H). reflexivity.
  - split; [now rewrite put_same|]. intros [r|r] H; cbn [content]; [|reflexivity]. apply K in H. rewrite put_other by apply H. reflexivity.
  - split; [now rewrite mput_same|]. intros [r|r] H; cbn [content]; [reflexivity|]. apply KM in H. rewrite mput_other by apply H. reflexivity.
Qed.

(** what a nested product gives *)
Lemma mxvec_nested M m : let A := mats m M in let w := vecs m SMxVec in
  let x := x00 A * vx w + x01 A * vy w + x02 A * vz w in
  let y := x10 A * x + x11 A * vy w + x12 A * vz w in
  vecs (mxvec M SMxVec m) SMxVec = V3 x y (x20 A * x + x21 A * y + x22 A * vz w).
Proof.
  cbv zeta. unfold mxvec. cbv zeta. generalize (mats m M). intros A. unfold put_z.
  rewrite put_same. unfold put_y. rewrite put_same. unfold put_x. rewrite put_same. cbn [vx vy vz]. reflexivity.
Qed.
Lemma vecmx_nested A m : let w := vecs m SVecMx in
  let x := vx w * x00 A + vy w * x10 A + vz w * x20 A in
  let y := x * x01 A + vy w * x11 A + vz w * x21 A in
  vecs (vecmx SVecMx A m) SVecMx = V3 x y (x * x02 A + y * x12 A + vz w * x22 A).
Proof.
  cbv zeta. unfold vecmx. cbv zeta. unfold put_z.
  rewrite put_same. unfold put_y. rewrite put_same. unfold put_x. rewrite put_same. cbn [vx vy vz]. reflexivity.
Qed.
