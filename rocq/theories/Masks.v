(** Model of the pair and type masks of PairQuantity.
    Source: src/diffpy/srreal/PairQuantity.cpp, PairQuantity.hpp. *)
From Verif Require Import Base AList.
From Coq Require Import String List Bool.
Import ListNotations.
Open Scope Z_scope.

(** PairQuantity.cpp:34-35 ALLATOMSINT, ALLATOMSSTR; 276-282 its upper case form. *)
Definition ALLATOMSINT : Z := -1.
Definition ALLATOMSSTR : string := "all".
Definition UPCASEALL : string := "ALL".

Definition zpair_eqd : forall x y : Z * Z, {x = y} + {x <> y}.
Proof. decide equality; apply Z.eq_dec. Defined.
Definition spair_eqd : forall x y : string * string, {x = y} + {x <> y}.
Proof. decide equality; apply string_dec. Defined.

(** PairQuantity.hpp mask members; [types] is the list of siteAtomType(i) of mstructure, [clicks]
    counts the calls of mticker.click() (see Ticker.v for what a click does).
    Simplification: customPQConfig (PairQuantity.cpp:72) is taken as the default no-op of
    StructureAdapter.hpp:92; a hash container is an association list and its iteration order a
    parameter of the operation that iterates. *)
Record pq := {
  dflt : bool;                                  (* mdefaultpairmask *)
  invp : list (Z * Z);                          (* minvertpairmask *)
  siteall : list (Z * bool);                    (* msiteallmask *)
  tmask : list ((string * string) * bool);      (* mtypemask *)
  types : list string;                          (* mstructure *)
  clicks : nat
}.

(** PairQuantity.cpp:39-51 constructor, empty structure. *)
Definition pq0 : pq :=
  {| dflt := true; invp := []; siteall := []; tmask := []; types := []; clicks := 0 |}.

(** PairQuantity.cpp:377-381 countSites. *)
Definition countSites (s : pq) : nat := length (types s).

Definition click (b : bool) (n : nat) : nat := if b then S n else n.

Definition is_nil {A} (l : list A) : bool := match l with [] => true | _ => false end.

(** PairQuantity.cpp:183-192 maskAllPairs. *)
Definition maskAllPairs (s : pq) (mask : bool) : pq :=
  let nochange := is_nil (invp s) && is_nil (siteall s) && is_nil (tmask s) && eqb (dflt s) mask in
  {| dflt := mask; invp := []; siteall := []; tmask := []; types := types s;
     clicks := click (negb nochange) (clicks s) |}.

(** PairQuantity.cpp:195-209 invertMask. *)
Definition invertMask (s : pq) : pq :=
  {| dflt := negb (dflt s); invp := invp s;
     siteall := map (fun e => (fst e, negb (snd e))) (siteall s);
     tmask := map (fun e => (fst e, negb (snd e))) (tmask s);
     types := types s; clicks := S (clicks s) |}.

(** PairQuantity.cpp:266, 483 the ordered pair of indices. *)
Definition sort2 (i j : Z) : Z * Z := if i >? j then (j, i) else (i, j).

(** PairQuantity.cpp:480-489 setPairMaskValue on minvertpairmask; second component is the
    returned "modified" flag. *)
Definition setPairMaskValue (d : bool) (l : list (Z * Z)) (i j : Z) (mask : bool) : list (Z * Z) * bool :=
  let ij := sort2 i j in
  let present := if in_dec zpair_eqd ij l then true else false in
  if eqb mask d then (remove zpair_eqd ij l, present)
  else (if present then l else ij :: l, negb present).

(** a loop of setPairMaskValue calls whose results are ignored *)
Definition setMany (d : bool) (l : list (Z * Z)) (ps : list (Z * Z)) (mask : bool) : list (Z * Z) :=
  fold_left (fun acc p => fst (setPairMaskValue d acc (fst p) (snd p) mask)) ps l.

(** 0, 1, ..., n-1 as ints *)
Definition zseq (n : nat) : list Z := map Z.of_nat (seq 0 n).

(** PairQuantity.cpp:247-252 and 253-258: drop the contradicting all-mask of one site; the
    second component is the "modified" flag. *)
Definition dropSiteAll (mask : bool) (k : Z) (sm : list (Z * bool) * bool) : list (Z * bool) * bool :=
  match afind Z.eq_dec k (fst sm) with
  | Some m => if eqb mask m then sm else (aerase Z.eq_dec k (fst sm), true)
  | None => sm
  end.

(** PairQuantity.cpp:212-261 setPairMask. *)
Definition setPairMask (s : pq) (i j : Z) (mask : bool) : pq :=
  let i := if i <? 0 then ALLATOMSINT else i in
  let j := if j <? 0 then ALLATOMSINT else j in
  if (ALLATOMSINT =? i) && (ALLATOMSINT =? j) then maskAllPairs s mask
  else
    let modified0 := negb (is_nil (tmask s)) in
    if (ALLATOMSINT =? i) || (ALLATOMSINT =? j) then
      let k := if negb (ALLATOMSINT =? i) then i else j in
      let modified := match afind Z.eq_dec k (siteall s) with
                      | None => true
                      | Some m => if eqb m mask then modified0 else true
                      end in
      {| dflt := dflt s;
         invp := setMany (dflt s) (invp s) (map (fun l => (k, l)) (zseq (countSites s))) mask;
         siteall := aset Z.eq_dec k mask (siteall s);
         tmask := []; types := types s; clicks := click modified (clicks s) |}
    else
      let '(sa, modified1) := dropSiteAll mask j (dropSiteAll mask i (siteall s, modified0)) in
      let '(ip, changed) := setPairMaskValue (dflt s) (invp s) i j mask in
      {| dflt := dflt s; invp := ip; siteall := sa; tmask := []; types := types s;
         clicks := click (if changed then true else modified1) (clicks s) |}.

(** PairQuantity.cpp:264-270 getPairMask. *)
Definition getPairMask (s : pq) (i j : Z) : bool :=
  if in_dec zpair_eqd (sort2 i j) (invp s) then negb (dflt s) else dflt s.

(** std::string operator> (unsigned byte order). *)
Definition sgt (a b : string) : bool := String.ltb b a.

(** PairQuantity.cpp:287-288, 327-332 ordered pair of symbols. *)
Definition ssort2 (a b : string) : string * string := if sgt a b then (b, a) else (a, b).

(** PairQuantity.cpp:307-308 eraseitem. *)
Definition eraseitem (smblij : string * string) (sk : string) (e : (string * string) * bool) : bool :=
  (if spair_eqd (fst e) smblij then false else true) &&
  ((if string_dec sk (fst (fst e)) then true else false) ||
   (if string_dec sk (snd (fst e)) then true else false)).

(** PairQuantity.cpp:273-322 setTypeMask. *)
Definition setTypeMask (s : pq) (smbli smblj : string) (mask : bool) : pq :=
  let smbli := if string_dec UPCASEALL smbli then ALLATOMSSTR else smbli in
  let smblj := if string_dec UPCASEALL smblj then ALLATOMSSTR else smblj in
  let smblij := ssort2 smbli smblj in
  if spair_eqd (ALLATOMSSTR, ALLATOMSSTR) smblij then maskAllPairs s mask
  else
    let isall x := if string_dec ALLATOMSSTR x then true else false in
    let '(tm, modified0) :=
      if isall smbli || isall smblj then
        let sk := if negb (isall smbli) then smbli else smblj in
        (filter (fun e => negb (eraseitem smblij sk e)) (tmask s),
         existsb (fun e => eraseitem smblij sk e && negb (eqb mask (snd e))) (tmask s))
      else (tmask s, false) in
    let modified := match afind spair_eqd smblij tm with
                    | None => true
                    | Some m => if eqb m mask then modified0 else true
                    end in
    {| dflt := dflt s; invp := invp s; siteall := []; tmask := aset spair_eqd smblij mask tm;
       types := types s; clicks := click modified (clicks s) |}.

(** PairQuantity.cpp:325-338 getTypeMask. *)
Definition getTypeMask (s : pq) (smbli smblj : string) : bool :=
  match afind spair_eqd (ssort2 smbli smblj) (tmask s) with
  | Some m => m
  | None =>
      match afind spair_eqd (ssort2 smbli ALLATOMSSTR) (tmask s) with
      | Some m => m
      | None =>
          match afind spair_eqd (ssort2 smblj ALLATOMSSTR) (tmask s) with
          | Some m => m
          | None => dflt s
          end
      end
  end.

(** PairQuantity.cpp:384-402 hasMask, hasTypeMask, hasPairMask. *)
Definition hasMask (s : pq) : bool :=
  negb (dflt s && is_nil (invp s) && is_nil (siteall s) && is_nil (tmask s)).
Definition hasTypeMask (s : pq) : bool := negb (is_nil (tmask s)).
Definition hasPairMask (s : pq) : bool := hasMask s && negb (hasTypeMask s).

(** PairQuantity.cpp:441-447 siteindices[key]: each site is pushed under its type and under "all". *)
Definition siteindices (tps : list string) (key : string) : list Z :=
  flat_map (fun it =>
      (if string_dec (snd it) key then [fst it] else []) ++
      (if string_dec ALLATOMSSTR key then [fst it] else []))
    (combine (zseq (length tps)) tps).

(** PairQuantity.cpp:452-459 orderedpairs: pairs with "all" are pushed to the front. *)
Definition orderedpairs (ord : list ((string * string) * bool)) : list (string * string) :=
  fold_left (fun acc e =>
      let p := fst e in
      if (if string_dec ALLATOMSSTR (fst p) then true else false) ||
         (if string_dec ALLATOMSSTR (snd p) then true else false)
      then p :: acc else acc ++ [p]) ord [].

(** PairQuantity.cpp:466-474 the index pairs visited for one type mask. *)
Fixpoint triangle (l : list Z) : list (Z * Z) :=
  match l with
  | [] => []
  | x :: r => map (fun y => (x, y)) (x :: r) ++ triangle r
  end.
Definition typepairs (tps : list string) (p : string * string) : list (Z * Z) :=
  let isites := siteindices tps (fst p) in
  if string_dec (fst p) (snd p) then triangle isites
  else list_prod isites (siteindices tps (snd p)).

(** PairQuantity.cpp:422-477 updateMaskData, with the iteration order [sord] of msiteallmask and
    [tord] of mtypemask. *)
Definition updateMaskData (s : pq) (sord : list (Z * bool)) (tord : list ((string * string) * bool))
  : list (Z * Z) :=
  if is_nil (tmask s) then
    fold_left (fun acc e =>
        setMany (dflt s) acc (map (fun j => (fst e, j)) (zseq (countSites s))) (snd e))
      sord (invp s)
  else
    fold_left (fun acc p =>
        match afind spair_eqd p (tmask s) with
        | Some msk => setMany (dflt s) acc (typepairs (types s) p) msk
        | None => acc                     (* at() would throw: cannot happen, p is a key *)
        end)
      (orderedpairs tord) [].

(** PairQuantity.cpp:69-75 setStructure, mask part. *)
Definition setStructure (s : pq) (tps : list string) (sord : list (Z * bool))
  (tord : list ((string * string) * bool)) : pq :=
  let s1 := {| dflt := dflt s; invp := invp s; siteall := siteall s; tmask := tmask s;
               types := tps; clicks := clicks s |} in
  {| dflt := dflt s; invp := updateMaskData s1 sord tord; siteall := siteall s; tmask := tmask s;
     types := tps; clicks := clicks s |}.

(** The public operations on masks. *)
Inductive mop :=
| MaskAll (m : bool)
| Invert
| SetPair (i j : Z) (m : bool)
| SetType (a b : string) (m : bool)
| SetStru (tps : list string) (sord : list (Z * bool)) (tord : list ((string * string) * bool)).

Definition mstep (s : pq) (o : mop) : pq :=
  match o with
  | MaskAll m => maskAllPairs s m
  | Invert => invertMask s
  | SetPair i j m => setPairMask s i j m
  | SetType a b m => setTypeMask s a b m
  | SetStru tps so to => setStructure s tps so to
  end.
