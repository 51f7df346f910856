(** Specification for C24-C27: the list of bonds, and directions inside of cones. *)
From Coq Require Import Sorting.Sorted.
From Verif Require Import RBase R3 Trig Lattice BondGen StructDiff StructDiffSpec Evaluator EvaluatorSpec BondCalc.
Open Scope R_scope.

(** Order of the entries: by distance, then first and second site, then direction components. *)
Definition entry_lt (x y : bentry) : Prop :=
  e_dist x < e_dist y \/ e_dist x = e_dist y /\
  ((e_s0 x < e_s0 y)%nat \/ e_s0 x = e_s0 y /\
  ((e_s1 x < e_s1 y)%nat \/ e_s1 x = e_s1 y /\
  (e_d0 x < e_d0 y \/ e_d0 x = e_d0 y /\
  (e_d1 x < e_d1 y \/ e_d1 x = e_d1 y /\ e_d2 x < e_d2 y)))).
Definition entry_le (x y : bentry) : Prop := entry_lt x y \/ x = y.
Definition in_order (l : list bentry) : Prop := StronglySorted entry_le l.

(** [v] makes an angle of at most [deg] degrees with [axis]. *)
Definition in_cone (v axis : vec) (deg : R) : Prop :=
  exists t, 0 <= t <= PI /\ vdot v axis = vnorm v * vnorm axis * cos t /\ t * 180 / PI <= deg.
Definition accepted (filters : list (vec * R)) (v : vec) : Prop :=
  filters = [] \/ exists axis deg, In (axis, deg) filters /\ (180 <= deg \/ in_cone v axis deg).

(** calls of filterCone and filterOff *)
Inductive cone_op := FilterCone (axis : vec) (deg : R) | FilterOff.
Definition cone_step (x : cones) (o : cone_op) : cones :=
  match o with
  | FilterCone ax deg => match filterCone ax deg x with Ok y | Throw _ y => y | UB => x end
  | FilterOff => filterOff x
  end.
Definition cone_run (ops : list cone_op) : cones := fold_left cone_step ops cones0.
(** the filters in force: cones added since the last filterOff, with an axis longer than 2^-26 *)
Definition active_step (l : list (vec * R)) (o : cone_op) : list (vec * R) :=
  match o with
  | FilterCone ax deg => if Rlt_dec (/ 67108864) (vnorm ax) then l ++ [(ax, deg)] else l
  | FilterOff => []
  end.
Definition active (ops : list cone_op) : list (vec * R) := fold_left active_step ops [].

Section Spec.
  Context {stru cfg V0 : Type} (W : calc stru cfg bond V0) (cone : cfg -> cones).
  Context (pairs : cfg -> stru -> nat -> nat -> list bond).

  (** what the list says about a bond: its length, its two sites and its direction *)
  Definition line_of (b : bond) : bentry :=
    {| e_dist := b_distance b; e_s0 := b_site0 b; e_s1 := b_site1 b;
       e_d0 := vx (b_r01 b); e_d1 := vy (b_r01 b); e_d2 := vz (b_r01 b) |}.
  (** the entries for the bonds from site [i] to site [j] *)
  Definition pair_entries (c : cfg) (s : stru) (i j : nat) : list bentry :=
    if mask W c s i j then map line_of (filter (passes (cone c)) (pairs c s i j)) else [].
  (** all of them: every ordered pair of sites *)
  Definition all_bonds (c : cfg) (s : stru) : list bentry :=
    let sites := seq 0 (Evaluator.nsites W s) in
    flat_map (fun i => flat_map (fun j => pair_entries c s i j) sites) sites.

  (** What the structures and bond generators have to satisfy: a structure consists of [atoms] and of [env]
      (lattice, symmetry); [we] says which bonds two atoms make. *)
  Record world_ok {A E : Type} (atoms : stru -> list A) (env : stru -> E)
      (we : cfg -> E -> nat -> A -> nat -> A -> list bentry) : Prop := {
    wo_sites : forall s, Evaluator.nsites W s = length (atoms s);
    wo_gen : forall c s i sel, (i < Evaluator.nsites W s)%nat -> NoDup sel -> (forall j, In j sel -> (j < Evaluator.nsites W s)%nat) ->
      Permutation (Evaluator.gen W c s i sel) (flat_map (pairs c s i) sel);
    wo_site1 : forall c s i j b, In b (pairs c s i j) -> Evaluator.site1 W b = j;
    wo_mask : forall c s i j, hasmask W c = false -> mask W c s i j = true;
    wo_pair : forall c s i j a b, nth_error (atoms s) i = Some a -> nth_error (atoms s) j = Some b ->
      Permutation (pair_entries c s i j) (we c (env s) i a j b);
    wo_custom : forall s c, snd (custom W s c) = false -> fst (custom W s c) = c;
    wo_diff : forall s0 s1, diff_exact (atoms s0) (atoms s1) (sdif W s0 s1);
    wo_env : forall s0 s1, diffmethod (sdif W s0 s1) <> NONE -> env s0 = env s1
  }.

  (** Operations covered: everything but setStructure (C14), setupParallelRun (C53), switching to half sums and to
      the CHECK evaluator (C52). *)
  Definition bond_op (o : op stru cfg) : Prop :=
    match o with OpSetStructure _ | OpParallel _ _ | OpFullSum _ => False | OpSetType t => t <> EvCheck | _ => True end.
  (** Operations on a calculator that has evaluated nothing yet. *)
  Definition setup_op (o : op stru cfg) : Prop :=
    match o with OpConfigure _ | OpSetStructure _ | OpSetType _ => True | _ => False end.
End Spec.
