(** Theorems for C73: equivalent atoms and multiplicities after any history of calls. *)
From Coq Require Import String.
From Verif Require Import RBase R3 Trig TrigProofs Sphere Lattice LatticeSpec LatticeProofs BondGen BondGenSpec
  Crystal CrystalSpec CrystalProofs CrystalMain CrystalSep CrystalCell CrystalExample CrystalCache.
Import ListNotations.
Open Scope R_scope.
Notation length := List.length.

(** C73. [answers c]: getEquivalentAtoms and siteMultiplicity give for every site the expansion with the sites,
    lattice, operations and precision in force. This holds after any calls, followed by updateSymmetryPositions,
    clearSymOps or addSymOp, followed by any calls that leave sites and lattice alone. *)
Theorem C73_refreshed : forall c pre k post, refreshes k -> Forall (fun k => ~ edits k) post -> answers (xrun c (pre ++ k :: post)).
Proof. exact refreshed. Qed.
Print Assumptions C73_refreshed.
(** C73: it holds as long as no position was asked for, in a new crystal or since clearSymOps or addSymOp. *)
Theorem C73_not_asked : forall l, Forall (fun k => ~ asks k) l -> answers (xrun crystal0 l) /\
  forall pre k, discards k -> answers (xrun crystal0 (pre ++ k :: l)).
Proof. intros l F. split; [now apply unasked|]. intros pre k D. now apply unasked_since. Qed.
Print Assumptions C73_not_asked.
(** C73: it holds when the sites are changed after a query and their number is different. *)
Theorem C73_count_changed : forall pre k l, asks k -> length l <> length (x_atoms (xrun crystal0 pre)) ->
  answers (xrun crystal0 (pre ++ [k; XAtoms l])).
Proof.
  intros pre k l A H. rewrite xrun_app. change (xrun ?c [k; XAtoms l]) with (fst (xstep (fst (xstep c k)) (XAtoms l))).
  apply count_changed. rewrite asked_length by auto. auto.
Qed.
Print Assumptions C73_count_changed.
(** C73: what is in force is what the calls have set: queries change nothing; setSymmetryPrecision takes effect for
    values above 2^-26 and otherwise throws and changes nothing. *)
Theorem C73_settings : forall l, x_conf (xrun crystal0 l) = fold_left conf_step l ([], lattice0, [], 5 / 100000) /\
  forall e, (snd (xstep (xrun crystal0 l) (XPrecision e)) = XBad <-> e <= / 67108864) /\
            (snd (xstep (xrun crystal0 l) (XPrecision e)) = XBad -> fst (xstep (xrun crystal0 l) (XPrecision e)) = xrun crystal0 l).
Proof.
  intros l. split; [apply (conf_run l crystal0)|]. intros e. cbn [xstep]. rewrite eps_pos. destruct (Rltb (/ 67108864) e) eqn:E; cbn [fst snd].
  - apply Rltb_true in E. split; [|discriminate]. split; [discriminate|lra].
  - apply Rltb_false in E. split; [|auto]. split; auto.
Qed.
Print Assumptions C73_settings.
(** C73 fails when a site is moved after a query: the old position is returned. *)
Definition at_origin : catom := mkCA vzero mid "C"%string 1 true.
Definition at_half : catom := mkCA (V3 (1 / 2) 0 0) mid "C"%string 1 true.
Theorem C73_moved_atom_refuted : let c := xrun crystal0 [XAtoms [at_origin]; XEquiv 0; XAtoms [at_half]] in
  map (map c_xyz) (current c) = [[V3 (1 / 2) 0 0]] /\ exists l, snd (xstep c (XEquiv 0)) = XAtomsOut l /\ map c_xyz l = [vzero].
Proof.
  cbv zeta. cbn [xrun fold_left xstep fst]. split.
  - unfold current. cbn [x_atoms x_lat x_ops x_prec ensureSymmetry crystal0 x_cached andb updateSymmetryPositions map].
    rewrite expand_none; [reflexivity|apply lattice0_consistent].
  - cbn [snd]. unfold ensureSymmetry at 1. unfold ensureSymmetry. cbn [crystal0 x_cached andb updateSymmetryPositions x_sym x_atoms length map Nat.eqb nth x_lat x_ops x_prec].
    eexists. split; [reflexivity|]. rewrite expand_none; [reflexivity|apply lattice0_consistent].
Qed.
Print Assumptions C73_moved_atom_refuted.
(** C73 fails when the lattice is changed after a query. One atom at the origin, an operation that moves it by a/2; the
    cell edge a is changed from 1 to 2. The equivalent atom is reported at x = 1/2 instead of 1. *)
Theorem C73_changed_lattice_refuted :
  let c := xrun crystal0 [XAtoms [at_origin]; XAddOp (mkOp mid (V3 (1 / 2) 0 0)); XEquiv 0; XLattice wide] in
  wide = lat_run [SetPar 2 1 1 90 90 90] /\ lattice_made wide /\
  map (map c_xyz) (current c) = [[V3 1 0 0]] /\ exists l, snd (xstep c (XEquiv 0)) = XAtomsOut l /\ map c_xyz l = [V3 (1 / 2) 0 0].
Proof.
  assert (SN : ucvFractional (V3 (1 / 2) 0 0) = V3 (1 / 2) 0 0) by (unfold ucvFractional; cbn [vx vy vz]; rewrite !snap_is by lra; reflexivity).
  assert (GP : good_params 2 1 1 90 90 90).
  { unfold good_params. repeat split; try lra. replace (90 / 180 * PI) with (PI / 2) by field. rewrite cos_PI2. lra. }
  assert (OI : op_image (mkOp mid (V3 (1 / 2) 0 0)) vzero = V3 (1 / 2) 0 0) by (unfold op_image; cbn [op_R op_t]; unfold mid, mv, vadd, vzero; cbn; f_equal; ring).
  split; [reflexivity|]. split; [right; exists [], (SetPar 2 1 1 90 90 90); repeat split; auto; apply GP|].
  cbv zeta. cbn [xrun fold_left xstep fst]. split.
  - unfold current. cbn [x_atoms x_lat x_ops x_prec ensureSymmetry crystal0 x_cached andb updateSymmetryPositions map app].
    rewrite expand_single. cbn [at_origin c_xyz].
    assert (FW : fractional wide vzero = vzero) by (unfold fractional; destruct (recbase wide) as [a b c d e f g h i]; vring). rewrite FW, OI, SN.
    unfold cartesian. rewrite wide_base. unfold vm. cbn. repeat f_equal; field.
  - cbn [snd]. unfold ensureSymmetry at 1. unfold ensureSymmetry. cbn [crystal0 x_cached andb updateSymmetryPositions x_sym x_atoms length map Nat.eqb nth x_lat x_ops x_prec app].
    eexists. split; [reflexivity|]. rewrite expand_single. cbn [at_origin c_xyz]. rewrite frac0, OI, SN, cart0. reflexivity.
Qed.
Print Assumptions C73_changed_lattice_refuted.
(** The hypotheses are met: queries, a refused and an accepted precision after an added operation. *)
Example C73_nonvacuous : refreshes (XAddOp (mkOp mid vzero)) /\
  Forall (fun k => ~ edits k) [XEquiv 0; XPrecision 0; XPrecision (1 / 10); XMult 0] /\
  asks (XEquiv 0) /\ length [at_origin; at_half] <> length (x_atoms (xrun crystal0 [XAtoms [at_origin]])) /\
  Forall (fun k => ~ asks k) [XAtoms [at_origin]; XPrecision (1 / 10); XLattice wide].
Proof. repeat split; try (cbn; lia); repeat constructor; intros []. Qed.
