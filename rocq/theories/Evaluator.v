(** Model of the PairQuantity evaluators.
    Source: src/diffpy/srreal/PQEvaluator.cpp, PQEvaluator.hpp, PairQuantity.cpp. *)
From Verif Require Import Base StructDiff.
Open Scope nat_scope.

(** PQEvaluator.hpp:45 PQEvaluatorType. *)
Inductive evtype := EvNone | EvBasic | EvOptimized | EvCheck.
Definition evtype_eqb (a b : evtype) : bool :=
  match a, b with
  | EvNone, EvNone | EvBasic, EvBasic | EvOptimized, EvOptimized | EvCheck, EvCheck => true
  | _, _ => false
  end.

(** PQEvaluator.cpp:45-64 complementary_indices(sz, indices0), the loop from [k] on.  The assert of line
    58 is not executed in release builds: the branch is taken for k >= *ii0. *)
Fixpoint compl_from (k n : nat) (idx : list nat) : list nat :=
  match n with
  | O => []
  | S n' =>
      match idx with
      | [] => k :: compl_from (S k) n' idx
      | i :: r => if k <? i then k :: compl_from (S k) n' idx else compl_from (S k) n' r
      end
  end.
Definition complementary_indices (sz : nat) (idx : list nat) : list nat := compl_from 0 sz idx.

(** A calculator and the structures it works on, as the evaluators see them.  The value type is abstract:
    [zero] and [add] stand for the array of zeros and the element-wise +=. *)
Record calc (stru cfg bond V : Type) := {
  zero : V;
  add : V -> V -> V;
  nsites : stru -> nat;                             (* countSites *)
  gen : cfg -> stru -> nat -> list nat -> list bond;
     (* the bonds produced between rewind() and finished() by stru->createBondGenerator() after
        pq.configureBondGenerator, selectAnchorSite(i0) and selectSites(list) / selectSiteRange *)
  site1 : bond -> nat;
  hasmask : cfg -> bool;                            (* hasMask() *)
  haspairmask : cfg -> bool;                        (* hasPairMask() *)
  mask : cfg -> stru -> nat -> nat -> bool;         (* getPairMask(i0, i1) when the structure is set *)
  contrib : cfg -> stru -> bond -> Z -> V;          (* what addPairContribution(bnds, scale) adds *)
  custom : stru -> cfg -> cfg * bool;               (* stru->customPQConfig(pq): new configuration,
                                                       true when it clicked the ticker of pq *)
  sdif : stru -> stru -> sdiff;                     (* stru0->diff(stru1) *)
  outer_ok : nat -> nat -> bool;                    (* PQEvaluator.cpp:108, the floating point test
                                                       (mncpu, cntsites) for splitting the outer loop *)
  has_stash : bool;                                 (* stashPartialValue/restorePartialValue overridden *)
  restash : V -> V;                                 (* the value after stashPartialValue(), resetValue() and
                                                       restorePartialValue() *)
  finish : bool -> V -> V                           (* finishValue(), the argument is isParallel() *)
}.
Arguments zero {stru cfg bond V}. Arguments add {stru cfg bond V}. Arguments nsites {stru cfg bond V}.
Arguments gen {stru cfg bond V}. Arguments site1 {stru cfg bond V}. Arguments hasmask {stru cfg bond V}.
Arguments haspairmask {stru cfg bond V}. Arguments mask {stru cfg bond V}.
Arguments contrib {stru cfg bond V}. Arguments custom {stru cfg bond V}. Arguments sdif {stru cfg bond V}.
Arguments outer_ok {stru cfg bond V}. Arguments has_stash {stru cfg bond V}.
Arguments restash {stru cfg bond V}. Arguments finish {stru cfg bond V}.

Section Eval.
  Context {stru cfg bond V : Type} (K : calc stru cfg bond V).

  (** Bodies of the inner loops, PQEvaluator.cpp:119-125, 240-244, 290-294: [sign] is +1 or -1. *)
  Definition visit (c : cfg) (s : stru) (full : bool) (sign : Z) (i0 : nat) (bs : list bond) : list (bond * Z) :=
    flat_map (fun b =>
      let i1 := site1 K b in
      if hasmask K c && negb (mask K c s i0 i1) then []
      else [(b, if full || (i0 =? i1) then sign else (sign * 2)%Z)]) bs.

  (** PQEvaluator.cpp:118-120 "if (chop_inner && (n++ % mncpu)) continue;" over one bond list: the bonds
      passed on and the counter afterwards. *)
  Fixpoint inner (chop : bool) (ncpu n : nat) (bs : list bond) : list bond * nat :=
    match bs with
    | [] => ([], n)
    | b :: r =>
        if chop then
          let '(t, n') := inner chop ncpu (S n) r in
          (if n mod ncpu =? 0 then b :: t else t, n')
        else let '(t, n') := inner chop ncpu n r in (b :: t, n')
    end.

  (** PQEvaluator.cpp:112-126 the double loop of PQEvaluatorBasic::updateValue. *)
  Fixpoint basic_loop (c : cfg) (s : stru) (full co ci : bool) (ncpu : nat) (anchors : list nat) (n : nat)
    : list (bond * Z) :=
    match anchors with
    | [] => []
    | i0 :: r =>
        let n1 := if co then S n else n in
        if co && negb (n mod ncpu =? 0) then basic_loop c s full co ci ncpu r n1
        else
          let sites := seq 0 (if full then nsites K s else i0 + 1) in
          let '(bs, n2) := inner ci ncpu n1 (gen K c s i0 sites) in
          visit c s full 1 i0 bs ++ basic_loop c s full co ci ncpu r n2
    end.

  (** PQEvaluator.cpp:101-126: the calls of addPairContribution, in order. *)
  Definition basic_trace (c : cfg) (s : stru) (full : bool) (cpu ncpu : nat) : list (bond * Z) :=
    let co := outer_ok K ncpu (nsites K s) in
    let isparallel := 1 <? ncpu in
    basic_loop c s full (co && isparallel) (negb co && isparallel) ncpu (seq 0 (nsites K s)) cpu.

  (** PQEvaluator.cpp:211-245: removal loop over the positions [ks] of [anchors]; [sel] and [needs] are
      the sites selected in bnds0 and needsreselection.  Returns the calls and the final counter.
      [ms] is the structure whose masks and cached data pq holds, [s0] the remembered old structure. *)
  Fixpoint rm_loop (c : cfg) (ms s0 : stru) (full : bool) (ncpu : nat) (pop anchors : list nat)
      (ks : list nat) (n : nat) (sel : list nat) (needs : bool) : list (bond * Z) * nat :=
    match ks with
    | [] => ([], n)
    | k :: r =>
        if negb (n mod ncpu =? 0) then rm_loop c ms s0 full ncpu pop anchors r (S n) sel needs
        else
          let i0 := nth k anchors 0 in
          let sel' := if negb full then skipn k anchors
                      else if needs && (length pop <=? k) then pop else sel in
          let needs' := if negb full then needs
                        else if needs && (length pop <=? k) then false else needs in
          let '(t, n') := rm_loop c ms s0 full ncpu pop anchors r (S n) sel' needs' in
          (visit c ms full (-1) i0 (gen K c s0 i0 sel') ++ t, n')
    end.

  (** PQEvaluator.cpp:203-209 *)
  Definition rm_trace (c : cfg) (ms s0 : stru) (full : bool) (cpu ncpu : nat) (pop : list nat)
    : list (bond * Z) * nat :=
    let anchors := match pop with [] => [] | _ => pop ++ complementary_indices (nsites K s0) pop end in
    let last := if full then length anchors else length pop in
    rm_loop c ms s0 full ncpu pop anchors (seq 0 last) cpu anchors full.

  (** PQEvaluator.cpp:260-294 *)
  Fixpoint add_loop (c : cfg) (s1 : stru) (full : bool) (ncpu : nat) (adds anchors : list nat)
      (ks : list nat) (n : nat) (sel : list nat) (needs : bool) : list (bond * Z) :=
    match ks with
    | [] => []
    | k :: r =>
        if negb (n mod ncpu =? 0) then add_loop c s1 full ncpu adds anchors r (S n) sel needs
        else
          let i0 := nth k anchors 0 in
          let first_added := length anchors - length adds in
          let sel' := if negb full then firstn (k + 1) anchors
                      else if needs && (first_added <=? k) then anchors else sel in
          let needs' := if negb full then needs
                        else if needs && (first_added <=? k) then false else needs in
          visit c s1 full 1 i0 (gen K c s1 i0 sel') ++ add_loop c s1 full ncpu adds anchors r (S n) sel' needs'
    end.
  Definition add_trace (c : cfg) (s1 : stru) (full : bool) (ncpu : nat) (adds : list nat) (n : nat)
    : list (bond * Z) :=
    let anchors := match adds with [] => [] | _ => complementary_indices (nsites K s1) adds ++ adds end in
    let first := if full then 0 else length anchors - length adds in
    add_loop c s1 full ncpu adds anchors (seq first (length anchors - first)) n adds full.

  (** the contributions of a sequence of addPairContribution calls *)
  Definition apply_trace (c : cfg) (s : stru) (t : list (bond * Z)) (v : V) : V :=
    fold_left (fun acc e => add K acc (contrib K c s (fst e) (snd e))) t v.

  (** State of one PairQuantity with its evaluator.  EventTicker values are times of the global counter
      [clock] (Ticker.v, C01-C03; the pair (epoch, count) is the integer epoch * 2^64 + count, Persist.v code, C83_times); the ticker of pq is one ticker (calculators that override ticker() combine
      several with updateFrom, which is the maximum).  mmergedvaluescount is in Merge.v.  Copies made with
      clone() are values here, and so is the structure held by pq: the data that the calculators use in
      addPairContribution and getPairMask are cached in setStructure. *)
  Record st := {
    cf : cfg;                  (* configuration of pq: rmin, rmax, masks, tables ... *)
    ptick : Z;                 (* mticker *)
    ms : stru;                 (* mstructure *)
    val : V;                   (* mvalue *)
    clock : Z;                 (* EventTicker::gtick *)
    kind : evtype;             (* class of *mevaluator *)
    fullsum : bool;            (* flag USEFULLSUM *)
    fixedidx : bool;           (* flag FIXEDSITEINDEX *)
    cpu : nat; ncpu : nat;     (* mcpuindex (taken as non-negative), mncpu *)
    vtick : Z;                 (* mvalue_ticker *)
    last : option stru;        (* mlast_structure *)
    used : evtype              (* mtypeused *)
  }.

  (** PairQuantity.cpp:69-75 setStructure. *)
  Definition setStructure (s : stru) (x : st) : st :=
    let '(c', clicked) := custom K s (cf x) in
    let t := if clicked then (clock x + 1)%Z else clock x in
    {| cf := c'; ptick := if clicked then t else ptick x; ms := s; val := zero K; clock := t;
       kind := kind x; fullsum := fullsum x; fixedidx := fixedidx x; cpu := cpu x; ncpu := ncpu x;
       vtick := vtick x; last := last x; used := used x |}.

  Definition set_val (v : V) (x : st) : st :=
    {| cf := cf x; ptick := ptick x; ms := ms x; val := v; clock := clock x;
       kind := kind x; fullsum := fullsum x; fixedidx := fixedidx x; cpu := cpu x; ncpu := ncpu x;
       vtick := vtick x; last := last x; used := used x |}.
  Definition set_used (u : evtype) (x : st) : st :=
    {| cf := cf x; ptick := ptick x; ms := ms x; val := val x; clock := clock x;
       kind := kind x; fullsum := fullsum x; fixedidx := fixedidx x; cpu := cpu x; ncpu := ncpu x;
       vtick := vtick x; last := last x; used := u |}.
  Definition set_last (l : option stru) (x : st) : st :=
    {| cf := cf x; ptick := ptick x; ms := ms x; val := val x; clock := clock x;
       kind := kind x; fullsum := fullsum x; fixedidx := fixedidx x; cpu := cpu x; ncpu := ncpu x;
       vtick := vtick x; last := l; used := used x |}.
  (** mvalue_ticker.click() *)
  Definition click_value (x : st) : st :=
    {| cf := cf x; ptick := ptick x; ms := ms x; val := val x; clock := (clock x + 1)%Z;
       kind := kind x; fullsum := fullsum x; fixedidx := fixedidx x; cpu := cpu x; ncpu := ncpu x;
       vtick := (clock x + 1)%Z; last := last x; used := used x |}.

  (** PQEvaluator.cpp:96-128 PQEvaluatorBasic::updateValue. *)
  Definition basic_update (s : stru) (x : st) : st :=
    let x1 := setStructure s (set_used EvBasic x) in
    click_value (set_val (apply_trace (cf x1) (ms x1)
                            (basic_trace (cf x1) (ms x1) (fullsum x1) (cpu x1) (ncpu x1)) (val x1)) x1).

  (** PQEvaluator.cpp:301-306 updateValueCompletely. *)
  Definition complete_update (s : stru) (x : st) : st :=
    let x1 := basic_update s x in set_last (Some (ms x1)) x1.

  (** PQEvaluator.cpp:197-297 the fast update, [d] the structure difference.
      stashPartialValue/restorePartialValue keep the value in BaseDebyeSum.cpp:192-202; BondCalculator's version
      is in BondCalc.v and PDFCalculator's in PdfGrid.v. *)
  Definition fast_update (s0 s : stru) (d : sdiff) (x : st) : st :=
    let '(t0, n1) := rm_trace (cf x) (ms x) s0 (fullsum x) (cpu x) (ncpu x) (pop0 d) in
    let left := apply_trace (cf x) (ms x) t0 (val x) in
    let x1 := setStructure s (set_val left x) in
    if (vtick x1 <=? ptick x1)%Z then complete_update s x1
    else
      let t1 := add_trace (cf x1) (ms x1) (fullsum x1) (ncpu x1) (add1 d) n1 in
      let x2 := set_val (apply_trace (cf x1) (ms x1) t1 (restash K left)) x1 in
      click_value (set_last (Some (ms x2)) x2).

  (** PQEvaluator.cpp:180-196 PQEvaluatorOptimized::updateValue. *)
  Definition optimized_update (s : stru) (x : st) : st :=
    let x := set_used EvOptimized x in
    match last x with
    | None => complete_update s x
    | Some s0 =>
        if (vtick x <=? ptick x)%Z then complete_update s x
        else
          let d := sdif K s0 s in
          if negb (allowsfast (nsites K s0) (length (pop0 d))) then complete_update s x
          else if (fixedidx x || haspairmask K (cf x)) &&
                  negb match diffmethod d with SIDEBYSIDE => true | _ => false end
          then complete_update s x
          else fast_update s0 s d x
    end.

  (** PQEvaluator.cpp:415-428 PQEvaluatorCheck::updateValue; [close] is pqresults::compare. *)
  Definition check_update (close : V -> V -> bool) (s : stru) (x : st) : outcome st :=
    let x1 := optimized_update s x in
    if evtype_eqb (used x1) EvBasic then Ok x1
    else
      let x2 := set_used EvCheck (basic_update s x1) in
      if close (val x1) (val x2) then Ok x2 else Throw LogicError x2.

  (** PairQuantity.cpp:63 mevaluator->updateValue( *this, stru) *)
  Definition update (close : V -> V -> bool) (s : stru) (x : st) : outcome st :=
    match kind x with
    | EvOptimized => Ok (optimized_update s x)
    | EvCheck => check_update close s x
    | _ => Ok (basic_update s x)
    end.
  (** PairQuantity.cpp:61-66 eval(stru); finishValue does nothing in the base class (PairQuantity.hpp). *)
  Definition finished (x : st) : st := set_val (finish K (1 <? ncpu x) (val x)) x.
  Definition eval (close : V -> V -> bool) (s : stru) (x : st) : outcome st :=
    match update close s x with Ok y => Ok (finished y) | r => r end.

  (** PairQuantity.cpp:55-58 eval(). *)
  Definition eval_current (close : V -> V -> bool) (x : st) : outcome st := eval close (ms x) x.

  (** PairQuantity.cpp:144-162 setEvaluatorType with PQEvaluator.cpp:432-463 createPQEvaluator and
      84-87, 172-177 validate.  [value] left alone by stash + restore; EvNone and other values of the enum throw
      invalid_argument in the factory.  A logic_error of validate is rethrown as invalid_argument. *)
  Definition setEvaluatorType (t : evtype) (x : st) : outcome st :=
    if evtype_eqb (kind x) t then Ok x
    else match t with
    | EvNone => Throw InvalidArgument x
    | EvBasic => Ok {| cf := cf x; ptick := ptick x; ms := ms x; val := zero K; clock := clock x;
                       kind := t; fullsum := fullsum x; fixedidx := fixedidx x; cpu := cpu x; ncpu := ncpu x;
                       vtick := vtick x; last := None; used := used x |}
    | EvOptimized | EvCheck =>
        if has_stash K then
                 Ok {| cf := cf x; ptick := ptick x; ms := ms x; val := zero K; clock := clock x;
                       kind := t; fullsum := fullsum x; fixedidx := fixedidx x; cpu := cpu x; ncpu := ncpu x;
                       vtick := vtick x; last := None; used := used x |}
        else Throw InvalidArgument x
    end.

  (** PQEvaluator.cpp:131-135 setFlag. *)
  Definition setFullSum (b : bool) (x : st) : st :=
    {| cf := cf x; ptick := ptick x; ms := ms x; val := val x; clock := clock x;
       kind := kind x; fullsum := b; fixedidx := fixedidx x; cpu := cpu x; ncpu := ncpu x;
       vtick := vtick x; last := last x; used := used x |}.
  (** Any configuration setter that clicks mticker (PairQuantity.cpp:118-140, 183-330 ...). *)
  Definition configure (f : cfg -> cfg) (x : st) : st :=
    {| cf := f (cf x); ptick := (clock x + 1)%Z; ms := ms x; val := val x; clock := (clock x + 1)%Z;
       kind := kind x; fullsum := fullsum x; fixedidx := fixedidx x; cpu := cpu x; ncpu := ncpu x;
       vtick := vtick x; last := last x; used := used x |}.
  (** PQEvaluator.cpp:144-154, PairQuantity.cpp:177-180 setupParallelRun. *)
  Definition setupParallelRun (i n : nat) (x : st) : outcome st :=
    if n <? 1 then Throw InvalidArgument x
    else Ok {| cf := cf x; ptick := ptick x; ms := ms x; val := val x; clock := clock x;
       kind := kind x; fullsum := fullsum x; fixedidx := fixedidx x; cpu := i; ncpu := n;
       vtick := vtick x; last := last x; used := used x |}.

  (** A new calculator: PairQuantity.cpp:39-51, PQEvaluator.cpp:72-75 and the evaluator type and flags chosen
      by the constructors of the calculators (e.g. BondCalculator.cpp:105-107). *)
  Definition init (c : cfg) (empty : stru) (t : evtype) (full fixed : bool) (i n : nat) : st :=
    {| cf := c; ptick := 0%Z; ms := empty; val := zero K; clock := 0%Z; kind := t; fullsum := full;
       fixedidx := fixed; cpu := i; ncpu := n; vtick := 0%Z; last := None; used := EvNone |}.

  (** Operations of a user on a calculator; an exception leaves the state given in [Throw]. *)
  Inductive op :=
  | OpEval (s : stru)
  | OpEvalCurrent
  | OpConfigure (f : cfg -> cfg)
  | OpSetStructure (s : stru)
  | OpSetType (t : evtype)
  | OpFullSum (b : bool)
  | OpParallel (i n : nat).
  Definition state_of (o : outcome st) (dflt : st) : st :=
    match o with Ok y => y | Throw _ y => y | UB => dflt end.
  Definition step (close : V -> V -> bool) (o : op) (x : st) : st :=
    match o with
    | OpEval s => state_of (eval close s x) x
    | OpEvalCurrent => state_of (eval_current close x) x
    | OpConfigure f => configure f x
    | OpSetStructure s => setStructure s x
    | OpSetType t => state_of (setEvaluatorType t x) x
    | OpFullSum b => setFullSum b x
    | OpParallel i n => state_of (setupParallelRun i n x) x
    end.
  Definition run (close : V -> V -> bool) (ops : list op) (x : st) : st :=
    fold_left (fun y o => step close o y) ops x.
End Eval.
Arguments st : clear implicits.
Arguments op : clear implicits.
