(** Model of the PDF envelopes and of PDFEnvelopeOwner: SphericalShapeEnvelope.cpp, StepCutEnvelope.cpp,
    QResolutionEnvelope.cpp, ScaleEnvelope.cpp, PDFEnvelope.cpp.
    Objects live on a heap (the owner and its user share them); an address stands for a non-null PDFEnvelopePtr. *)
From Coq Require Import String OrderedTypeEx.
From Verif Require Import Base RBase PdfGrid.
Open Scope R_scope.
Open Scope list_scope.

(** the classes with their parameters; [EUser] is a class defined by the user (e.g. in Python) *)
Inductive envelope_obj :=
| ESpherical (spdiameter : R) | EStepCut (stepcut : R) | EQResolution (qdamp : R) | EScale (scale : R)
| EUser (tp : string) (f : R -> R).

(** type(): SphericalShapeEnvelope.cpp:55-59, StepCutEnvelope.cpp:52-56, QResolutionEnvelope.cpp:54-58, ScaleEnvelope.cpp:52-56 *)
Definition etype (e : envelope_obj) : string :=
  match e with
  | ESpherical _ => "sphericalshape" | EStepCut _ => "stepcut" | EQResolution _ => "qresolution" | EScale _ => "scale"
  | EUser tp _ => tp
  end.

(** operator(): SphericalShapeEnvelope.cpp:62-69, StepCutEnvelope.cpp:59-63, QResolutionEnvelope.cpp:61-67, ScaleEnvelope.cpp:59-62 *)
Definition eval (e : envelope_obj) (r : R) : R :=
  match e with
  | ESpherical d =>
    if Rleb d 0 then 1 else if Rltb d r then 0
    else let x := r / d in 1 - 3 / 2 * x + 1 / 2 * (x * x * x)
  | EStepCut c => if Rltb 0 c && Rltb c r then 0 else 1
  | EQResolution q => if Rltb 0 q then exp (- ((r * q) * (r * q)) / 2) else 1
  | EScale s => s
  | EUser _ f => f r
  end.

(** createByType for the registered classes, constructors SphericalShapeEnvelope.cpp:31-37, StepCutEnvelope.cpp:29-34,
    QResolutionEnvelope.cpp:31-36, ScaleEnvelope.cpp:29-34 *)
Definition builtin (tp : string) : option envelope_obj :=
  if string_dec tp "sphericalshape" then Some (ESpherical 0)
  else if string_dec tp "stepcut" then Some (EStepCut 0)
  else if string_dec tp "qresolution" then Some (EQResolution 0)
  else if string_dec tp "scale" then Some (EScale 1)
  else None.

(** std::map<string, PDFEnvelopePtr>, PDFEnvelope.hpp:93: sorted by key *)
Definition emap := list (string * nat).
Fixpoint mfind (k : string) (m : emap) : option nat :=
  match m with [] => None | (k', a) :: m' => if string_dec k k' then Some a else mfind k m' end.
(** menvelope[k] = a *)
Fixpoint mset (k : string) (a : nat) (m : emap) : emap :=
  match m with
  | [] => [(k, a)]
  | (k', b) :: m' =>
    match String_as_OT.cmp k k' with Lt => (k, a) :: (k', b) :: m' | Eq => (k, a) :: m' | Gt => (k', b) :: mset k a m' end
  end.
(** menvelope.erase(key) *)
Fixpoint merase (k : string) (m : emap) : emap :=
  match m with [] => [] | (k', b) :: m' => if string_dec k k' then m' else (k', b) :: merase k m' end.

Record owner := mkOwner { heap : list envelope_obj; menv : emap }.
Definition empty_owner : owner := mkOwner [] [].

(** PDFEnvelope.cpp:62-66 addEnvelope; [None] is a null pointer (validators.hpp ensureNonNull) *)
Definition addEnvelope (p : option nat) (o : owner) : outcome owner :=
  match p with
  | None => Throw InvalidArgument o
  | Some a => match nth_error (heap o) a with None => UB | Some e => Ok (mkOwner (heap o) (mset (etype e) a (menv o))) end
  end.
(** PDFEnvelope.cpp:69-75 addEnvelopeByType, [cr] is PDFEnvelope::createByType *)
Definition addEnvelopeByType (cr : string -> option envelope_obj) (tp : string) (o : owner) : outcome owner :=
  match cr tp with
  | None => Throw InvalidArgument o
  | Some e => Ok (mkOwner (heap o ++ [e]) (mset (etype e) (List.length (heap o)) (menv o)))
  end.
(** PDFEnvelope.cpp:78-89 popEnvelope: erases the first entry with this pointer *)
Fixpoint pop_loop (a : nat) (m : emap) : emap :=
  match m with [] => [] | (k, b) :: m' => if Nat.eqb b a then m' else (k, b) :: pop_loop a m' end.
Definition popEnvelope (p : option nat) (o : owner) : outcome owner :=
  match p with None => Ok o | Some a => Ok (mkOwner (heap o) (pop_loop a (menv o))) end.
(** PDFEnvelope.cpp:92-95 popEnvelopeByType *)
Definition popEnvelopeByType (tp : string) (o : owner) : outcome owner := Ok (mkOwner (heap o) (merase tp (menv o))).
(** PDFEnvelope.cpp:98-117 getEnvelopeByType *)
Definition getEnvelopeByType (tp : string) (o : owner) : outcome (option nat) :=
  match mfind tp (menv o) with None => Throw InvalidArgument None | Some a => Ok (Some a) end.
(** PDFEnvelope.cpp:120-129 usedEnvelopeTypes *)
Definition usedEnvelopeTypes (o : owner) : list string := map fst (menv o).
(** PDFEnvelope.cpp:132-135 clearEnvelopes *)
Definition clearEnvelopes (o : owner) : outcome owner := Ok (mkOwner (heap o) []).
(** PDFEnvelope.cpp:42-59 applyEnvelopes *)
Definition applyEnvelopes (o : owner) (xs ys : list R) : outcome (list R) :=
  fold_left (fun acc ka => match nth_error (heap o) (snd ka) with
    | None => UB
    | Some e => bind acc (map2 (fun r z => z * eval e r) xs) end) (menv o) (Ok ys).

(** What a user does: make an object, change the parameter of one (an object keeps its class), and the calls above. *)
Inductive eop :=
| ONew (e : envelope_obj) | OParam (a : nat) (e : envelope_obj) | OAdd (p : option nat) | OAddByType (tp : string)
| OPop (p : option nat) | OPopType (tp : string) | OClear.
Definition estep (cr : string -> option envelope_obj) (o : owner) (x : eop) : outcome owner :=
  match x with
  | ONew e => Ok (mkOwner (heap o ++ [e]) (menv o))
  | OParam a e =>
    match nth_error (heap o) a with
    | Some e0 => if string_dec (etype e0) (etype e) then Ok (mkOwner (upd a e (heap o)) (menv o)) else UB
    | None => UB
    end
  | OAdd p => addEnvelope p o
  | OAddByType tp => addEnvelopeByType cr tp o
  | OPop p => popEnvelope p o
  | OPopType tp => popEnvelopeByType tp o
  | OClear => clearEnvelopes o
  end.
(** an exception leaves the owner as the outcome says *)
Fixpoint erun (cr : string -> option envelope_obj) (l : list eop) (o : owner) : option owner :=
  match l with
  | [] => Some o
  | x :: l' => match estep cr o x with Ok o' | Throw _ o' => erun cr l' o' | UB => None end
  end.
