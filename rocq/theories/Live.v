(** Structures that are edited in place: calculators and evaluators hold pointers to structure objects, whose contents the user
    may change between the calls (AtomicStructureAdapter.hpp:103-131: insert, append, clear, erase, operator[], assign ...).
    Source: src/diffpy/srreal/PairQuantity.cpp, PQEvaluator.cpp, AtomicStructureAdapter.cpp, PeriodicStructureAdapter.cpp,
    NoMetaStructureAdapter.cpp, NoSymmetryStructureAdapter.cpp, BVSCalculator.cpp, OverlapCalculator.cpp.
    One calculator; objects made by others are [New] here. Crystals whose symmetry positions are cached are in Crystal.v (C73). *)
From Verif Require Import RBase StructDiff Evaluator.
Open Scope nat_scope.

Section Live.
  Context {stru cfg bond V wrap : Type} (K : calc stru cfg bond V) (close : V -> V -> bool).
  (** what a wrapper shows of its source (NoMetaStructureAdapter.cpp:65-134, NoSymmetryStructureAdapter.cpp:68-131) *)
  Context (seen : wrap -> stru -> stru).

  (** StructureAdapterPtr: the address of a structure, or a wrapper that holds a pointer (msrcstructure,
      NoMetaStructureAdapter.hpp:62, fixed when the wrapper is made) *)
  Inductive ptr := PObj (a : nat) | PWrap (w : wrap) (p : ptr).
  (** Memory: the structures, the next free address and the objects the user has got, in the order they were made *)
  Record memory := mkMem { cell : nat -> stru; next : nat; objs : list nat }.

  (** The contents seen through a pointer: NoMetaStructureAdapter.cpp:65-111 forward every call to the source. *)
  Fixpoint read (m : memory) (p : ptr) : stru :=
    match p with PObj a => cell m a | PWrap w q => seen w (read m q) end.
  (** make_shared: [s] at a new address *)
  Definition allocate (s : stru) (m : memory) : memory * nat :=
    (mkMem (fun a => if a =? next m then s else cell m a) (S (next m)) (objs m), next m).
  (** clone(): AtomicStructureAdapter.cpp:101-105, PeriodicStructureAdapter.cpp:40-44; the wrappers clone what they hold,
      NoMetaStructureAdapter.cpp:50-55, NoSymmetryStructureAdapter.cpp:52-58 *)
  Fixpoint clone (p : ptr) (m : memory) : memory * ptr :=
    match p with
    | PObj a => let '(m', b) := allocate (cell m a) m in (m', PObj b)
    | PWrap w q => let '(m', q') := clone q m in (m', PWrap w q')
    end.

  (** The pointer tests of diff(): StructureDifference.cpp:44-48, for wrappers those of the diff() of their sources
      (NoMetaStructureAdapter.cpp:120-134, NoSymmetryStructureAdapter.cpp:117-131) *)
  Fixpoint same_ptr (p q : ptr) : bool :=
    match p, q with
    | PObj a, PObj b => a =? b
    | PWrap _ p', PWrap _ q' => same_ptr p' q'
    | _, _ => false
    end.
  (** stru0->diff(stru1): by contents (StructDiff.v) unless the pointers are equal *)
  Definition pdiff (m : memory) (p q : ptr) : sdiff := if same_ptr p q then diff_same else sdif K (read m p) (read m q).

  (** The state: [core] as in Evaluator.v with pointers for mstructure and mlast_structure; [cached]: the contents of the structure
      when setStructure was called the last time, which is what the masks (PairQuantity.cpp:422-462 updateMaskData) and the data used in
      addPairContribution (PDFCalculator.cpp:680-725, BaseDebyeSum.cpp:231-291, cacheStructureData) were taken from. *)
  Record live := mkLive { mem : memory; cached : stru; core : st ptr cfg V }.
  Definition with_core (f : st ptr cfg V -> st ptr cfg V) (x : live) : live := mkLive (mem x) (cached x) (f (core x)).

  (** PairQuantity.cpp:69-75 setStructure: keeps the pointer, looks at the contents *)
  Definition lsetStructure (p : ptr) (x : live) : live :=
    let s := read (mem x) p in
    let y := core x in
    let '(c', clicked) := custom K s (cf y) in
    let t := if clicked then (clock y + 1)%Z else clock y in
    mkLive (mem x) s
      {| cf := c'; ptick := if clicked then t else ptick y; ms := p; val := zero K; clock := t;
         kind := kind y; fullsum := fullsum y; fixedidx := fixedidx y; cpu := cpu y; ncpu := ncpu y;
         vtick := vtick y; last := last y; used := used y |}.
  (** mlast_structure = pq.getStructure()->clone(), PQEvaluator.cpp:296, 305 *)
  Definition remember (x : live) : live :=
    let '(m, q) := clone (ms (core x)) (mem x) in mkLive m (cached x) (set_last (Some q) (core x)).

  (** PQEvaluator.cpp:96-128 PQEvaluatorBasic::updateValue: the bonds come from the contents of *pq.mstructure, contributions
      from what is cached; the masks were taken from the same contents in the line before *)
  Definition lbasic (p : ptr) (x : live) : live :=
    let x1 := lsetStructure p (with_core (set_used EvBasic) x) in
    let y := core x1 in
    let s := read (mem x1) (ms y) in
    with_core (fun y => click_value (set_val
      (apply_trace K (cf y) (cached x1) (basic_trace K (cf y) s (fullsum y) (cpu y) (ncpu y)) (val y)) y)) x1.
  (** PQEvaluator.cpp:301-306 *)
  Definition lcomplete (p : ptr) (x : live) : live := remember (lbasic p x).

  (** PQEvaluator.cpp:197-297 the fast update *)
  Definition lfast (p0 p : ptr) (d : sdiff) (x : live) : live :=
    let y := core x in
    let '(t0, n1) := rm_trace K (cf y) (cached x) (read (mem x) p0) (fullsum y) (cpu y) (ncpu y) (pop0 d) in
    let left := apply_trace K (cf y) (cached x) t0 (val y) in
    let x1 := lsetStructure p (with_core (set_val left) x) in
    let y1 := core x1 in
    if (vtick y1 <=? ptick y1)%Z then lcomplete p x1
    else
      let t1 := add_trace K (cf y1) (read (mem x1) p) (fullsum y1) (ncpu y1) (add1 d) n1 in
      with_core click_value (remember (with_core (set_val (apply_trace K (cf y1) (cached x1) t1 (restash K left))) x1)).
  (** PQEvaluator.cpp:180-196 *)
  Definition loptimized (p : ptr) (x : live) : live :=
    let x := with_core (set_used EvOptimized) x in
    let y := core x in
    match last y with
    | None => lcomplete p x
    | Some p0 =>
        if (vtick y <=? ptick y)%Z then lcomplete p x
        else
          let d := pdiff (mem x) p0 p in
          if negb (allowsfast (nsites K (read (mem x) p0)) (length (pop0 d))) then lcomplete p x
          else if (fixedidx y || haspairmask K (cf y)) && negb match diffmethod d with SIDEBYSIDE => true | _ => false end
          then lcomplete p x
          else lfast p0 p d x
    end.
  (** PQEvaluator.cpp:415-428; the exception leaves the state of the calculator as it is then *)
  Definition lcheck (p : ptr) (x : live) : bool * live :=
    let x1 := loptimized p x in
    if evtype_eqb (used (core x1)) EvBasic then (true, x1)
    else
      let x2 := with_core (set_used EvCheck) (lbasic p x1) in
      (close (val (core x1)) (val (core x2)), x2).
  (** PairQuantity.cpp:61-66 eval(stru), with finishValue *)
  Definition lfinish (y : st ptr cfg V) : st ptr cfg V := set_val (finish K (1 <? ncpu y) (val y)) y.
  Definition leval (p : ptr) (x : live) : live :=
    match kind (core x) with
    | EvOptimized => with_core lfinish (loptimized p x)
    | EvCheck => let '(ok, y) := lcheck p x in if ok then with_core lfinish y else y
    | _ => with_core lfinish (lbasic p x)
    end.
  (** PairQuantity.cpp:144-162 setEvaluatorType, as in Evaluator.v *)
  Definition lsetType (t : evtype) (y : st ptr cfg V) : st ptr cfg V :=
    if evtype_eqb (kind y) t then y
    else if match t with EvNone => false | EvBasic => true | _ => has_stash K end then
      {| cf := cf y; ptick := ptick y; ms := ms y; val := zero K; clock := clock y;
         kind := t; fullsum := fullsum y; fixedidx := fixedidx y; cpu := cpu y; ncpu := ncpu y;
         vtick := vtick y; last := None; used := used y |}
    else y.

  (** What the user names: one of the objects made, or wrappers around one *)
  Inductive uptr := UObj (k : nat) | UWrap (w : wrap) (u : uptr).
  Fixpoint resolve (m : memory) (u : uptr) : option ptr :=
    match u with
    | UObj k => option_map PObj (nth_error (objs m) k)
    | UWrap w v => option_map (PWrap w) (resolve m v)
    end.
  (** The calls of a program. [LEdit k s] is any change of the k-th object in place, [s] its contents afterwards; naming an
      object that was not made does nothing. *)
  Inductive lop :=
  | LNew (s : stru) | LEdit (k : nat) (s : stru)
  | LEval (u : uptr) | LEvalCurrent
  | LConfigure (f : cfg -> cfg) | LSetStructure (u : uptr) | LSetType (t : evtype) | LFullSum (b : bool) | LParallel (i n : nat).
  (** AtomicStructureAdapter.hpp:103-131, AtomicStructureAdapter.cpp:245-300 *)
  Definition edit (a : nat) (s : stru) (m : memory) : memory :=
    mkMem (fun b => if b =? a then s else cell m b) (next m) (objs m).
  Definition with_mem (m : memory) (x : live) : live := mkLive m (cached x) (core x).
  Definition lstep (o : lop) (x : live) : live :=
    match o with
    | LNew s => let '(m, a) := allocate s (mem x) in with_mem (mkMem (cell m) (next m) (objs m ++ [a])) x
    | LEdit k s => match nth_error (objs (mem x)) k with Some a => with_mem (edit a s (mem x)) x | None => x end
    | LEval u => match resolve (mem x) u with Some p => leval p x | None => x end
    | LEvalCurrent => leval (ms (core x)) x
    | LConfigure f => with_core (configure f) x
    | LSetStructure u => match resolve (mem x) u with Some p => lsetStructure p x | None => x end
    | LSetType t => with_core (lsetType t) x
    | LFullSum b => with_core (setFullSum b) x
    | LParallel i n => if n <? 1 then x else with_core (fun y => state_of (setupParallelRun i n y) y) x
    end.
  Definition lrun (ops : list lop) (x : live) : live := fold_left (fun y o => lstep o y) ops x.
  (** A new calculator (PairQuantity.cpp:39-51): it points to the one emptyStructureAdapter(), here at address 0. *)
  Definition lstart (c : cfg) (empty : stru) (t : evtype) (full fixed : bool) (i n : nat) : live :=
    mkLive (mkMem (fun _ => empty) 1 []) empty
      {| cf := c; ptick := 0%Z; ms := PObj 0; val := zero K; clock := 0%Z; kind := t; fullsum := full;
         fixedidx := fixed; cpu := i; ncpu := n; vtick := 0%Z; last := None; used := EvNone |}.
End Live.
Arguments ptr : clear implicits. Arguments memory : clear implicits. Arguments live : clear implicits.
Arguments uptr : clear implicits. Arguments lop : clear implicits.

(** ** Results computed after an edit
    These methods read *mstructure, not what was evaluated. [None] is an access outside of an array. *)
Open Scope R_scope.
Fixpoint optall {A} (l : list (option A)) : option (list A) :=
  match l with
  | [] => Some []
  | Some a :: r => match optall r with Some t => Some (a :: t) | None => None end
  | None :: r => None
  end.
(** BVSCalculator.cpp:65-76 bvdiff: [vobs] and [vsim] have the sites at the time of the evaluation, [cntsites] is
    mstructure->countSites() now (PairQuantity.cpp:377-381) *)
Definition bvdiff_now (vobs vsim : list R) (cntsites : nat) : option (list R) :=
  optall (map (fun i => match nth_error vobs i, nth_error vsim i with Some a, Some b => Some (Rabs a - Rabs b) | _, _ => None end) (seq 0 cntsites)).
(** OverlapCalculator.cpp:141-160 siteSquareOverlaps: [rows] are the pairs found by the evaluation with their overlaps, [occ] the
    occupancies of the sites now *)
Definition siteSquareOverlaps_now (rows : list (nat * nat * R)) (occ : list R) : option (list R) :=
  option_map (map (fun x => x / 2))
  (fold_left (fun rv row => match rv with
    | None => None
    | Some v => let '(i, j, olp) := row in
        if Rleb olp 0 then Some v
        else match nth_error v i, nth_error occ j with
             | Some a, Some o => Some (upd i (a + olp * olp * o) v)
             | _, _ => None
             end
    end) rows (Some (repeat 0 (length occ)))).
