(** Model of src/diffpy/Attributes.{hpp,ipp,cpp} and of the accept overrides of the PDF calculators.

    [St] is the state of one Attributes instance.  An object is the list of the instances its accept()
    visits, in that order: for a plain object only itself (Attributes.hpp:96-97), for PDFCalculator and
    DebyePDFCalculator their components and then itself.  Simplifications: no instance is visited twice;
    the dynamic_cast in DoubleAttribute (Attributes.ipp:114,123) succeeds because an attribute is registered
    by the instance itself; a getter does not throw. *)
From Coq Require Import String Reals.
From Verif Require Import Base AList.
Open Scope list_scope.

Section Attr.
  Context {St : Type}.

  (** DoubleAttribute, Attributes.ipp:100-138: getter and possibly a setter, which may throw *)
  Record attr := mkAttr { getter : St -> R; setter : option (R -> St -> outcome St) }.
  (** isreadonly, Attributes.ipp:128-131 *)
  Definition isreadonly (a : attr) : bool := match setter a with None => true | Some _ => false end.
  (** one Attributes instance: mdoubleattrs, Attributes.hpp:111-115 *)
  Record inst := mkInst { state : St; table : list (string * attr) }.
  Definition object := list inst.

  (** registerBaseDoubleAttribute, Attributes.cpp:206-210, called by registerDoubleAttribute, Attributes.ipp:146-162 *)
  Definition register (c : inst) (x : string * attr) : inst := mkInst (state c) (aset string_dec (fst x) (snd x) (table c)).
  (** a constructor: the registrations of the base classes and of the class, oldest first *)
  Definition construct (s : St) (l : list (string * attr)) : inst := fold_left register l (mkInst s []).

  Definition lookupattr (name : string) (c : inst) : option attr := afind string_dec name (table c).

  (** CountDoubleAttrVisitor, Attributes.cpp:103-121 *)
  Definition countvisit (name : string) (n : nat) (c : inst) : nat :=
    n + match lookupattr name c with Some _ => 1 | None => 0 end.
  Definition countattr (name : string) (o : object) : nat := fold_left (countvisit name) o 0.

  (** checkAttributeName, Attributes.cpp:81-97; DoubleAttributeError is a runtime_error *)
  Definition checkAttributeName (name : string) (o : object) : option exn :=
    match countattr name o with
    | 0 => Some RuntimeError
    | 1 => None
    | _ => Some LogicError
    end.

  (** GetDoubleAttrVisitor, Attributes.cpp:125-147; [None] is the uninitialized mvalue *)
  Definition getvisit (name : string) (v : option R) (c : inst) : option R :=
    match lookupattr name c with Some a => Some (getter a (state c)) | None => v end.
  Inductive getresult := Got (x : R) | GetThrow (e : exn) | GetUB.
  (** getDoubleAttr, Attributes.cpp:35-41 *)
  Definition getDoubleAttr (name : string) (o : object) : getresult :=
    match checkAttributeName name o with
    | Some e => GetThrow e
    | None => match fold_left (getvisit name) o None with Some x => Got x | None => GetUB end
    end.

  (** DoubleAttribute::setValue, Attributes.ipp:120-126; throwDoubleAttributeReadOnly, Attributes.cpp:213-218 *)
  Definition setValue (a : attr) (x : R) (s : St) : outcome St :=
    if isreadonly a then Throw RuntimeError s
    else match setter a with Some f => f x s | None => UB end.
  (** SetDoubleAttrVisitor, Attributes.cpp:151-175, over all visited instances *)
  Fixpoint setvisit (name : string) (x : R) (o : object) : outcome object :=
    match o with
    | [] => Ok []
    | c :: o =>
      match match lookupattr name c with Some a => setValue a x (state c) | None => Ok (state c) end with
      | Ok s =>
        match setvisit name x o with
        | Ok o' => Ok (mkInst s (table c) :: o')
        | Throw e o' => Throw e (mkInst s (table c) :: o')
        | UB => UB
        end
      | Throw e s => Throw e (mkInst s (table c) :: o)
      | UB => UB
      end
    end.
  (** setDoubleAttr, Attributes.cpp:44-49 *)
  Definition setDoubleAttr (name : string) (x : R) (o : object) : outcome object :=
    match checkAttributeName name o with
    | Some e => Throw e o
    | None => setvisit name x o
    end.

  (** hasDoubleAttr, Attributes.cpp:52-57 *)
  Definition hasDoubleAttr (name : string) (o : object) : bool := negb (Nat.eqb (countattr name o) 0).

  (** NamesOfDoubleAttributesVisitor, Attributes.cpp:179-202 *)
  Definition namesvisit (excludereadonly : bool) (c : inst) : list string :=
    map fst (filter (fun e => negb (excludereadonly && isreadonly (snd e))) (table c)).
  (** namesOfDoubleAttributes and namesOfWritableDoubleAttributes, Attributes.cpp:60-77 (lists standing for sets) *)
  Definition namesOfDoubleAttributes (o : object) : list string := flat_map (namesvisit false) o.
  Definition namesOfWritableDoubleAttributes (o : object) : list string := flat_map (namesvisit true) o.
End Attr.
Arguments attr : clear implicits.
Arguments inst : clear implicits.
Arguments object : clear implicits.

(** *** The attributes of the calculators, by component *)
Inductive component :=
| PwConstant | PwDebyeWaller | PwJeong                (* peak width models *)
| ProfGaussian | ProfCropped                          (* peak profiles *)
| BaseZero | BaseLinear                               (* baselines *)
| EnvQResolution | EnvScale | EnvSpherical | EnvStepCut (* envelopes *)
| CalcPdf | CalcDebyePdf                              (* the calculator itself *)
| CalcBvs | CalcOverlap | CalcPlain.                  (* calculators without components; CalcPlain: BondCalculator, PairCounter and other PairQuantity's *)

(** The names registered by the constructors, base classes first, with "has a setter".
    ConstantPeakWidth.cpp:67-72, DebyeWallerPeakWidth.cpp (none), JeongPeakWidth.cpp:35-42, PeakProfile.cpp:38-39,
    ZeroBaseline.cpp (none), LinearBaseline.cpp:32-34, QResolutionEnvelope.cpp:34-35, ScaleEnvelope.cpp:32-33,
    SphericalShapeEnvelope.cpp:34-36, StepCutEnvelope.cpp:32-33, PairQuantity.cpp:47-50, PDFCalculator.cpp:81-98,
    BaseDebyeSum.cpp:60-62, DebyePDFCalculator.cpp:62-80, BVSCalculator.cpp:46-50, OverlapCalculator.cpp:74-75 *)
Definition registered_names (c : component) : list (string * bool) :=
  match c with
  | PwConstant => [("width", true); ("bisowidth", true); ("uisowidth", true)]
  | PwDebyeWaller => []
  | PwJeong => [("delta1", true); ("delta2", true); ("qbroad", true); ("qbroad_seperable", true)]
  | ProfGaussian | ProfCropped => [("peakprecision", true)]
  | BaseZero => []
  | BaseLinear => [("slope", true)]
  | EnvQResolution => [("qdamp", true)]
  | EnvScale => [("scale", true)]
  | EnvSpherical => [("spdiameter", true)]
  | EnvStepCut => [("stepcut", true)]
  | CalcPdf => [("rmin", true); ("rmax", true); ("qmin", true); ("qmax", true); ("qstep", false); ("rmin", true); ("rmax", true);
                ("rstep", true); ("maxextension", true); ("extendedrmin", false); ("extendedrmax", false)]
  | CalcDebyePdf => [("rmin", true); ("rmax", true); ("debyeprecision", true); ("qmin", true); ("qmax", true); ("qstep", true);
                     ("rmin", true); ("rmax", true); ("rstep", true); ("maxextension", true); ("extendedrmin", false); ("extendedrmax", false)]
  | CalcBvs => [("rmin", true); ("rmax", true); ("valenceprecision", true); ("rmaxused", false)]
  | CalcOverlap => [("rmin", true); ("rmax", true); ("rmaxused", false)]
  | CalcPlain => [("rmin", true); ("rmax", true)]
  end%string.

(** pdfcalc_accept, PDFCalculator.cpp:453-468: peak width model, profile, baseline, envelopes, itself *)
Definition pdf_accept (pwm profile baseline : component) (envelopes : list component) : list component :=
  pwm :: profile :: baseline :: envelopes ++ [CalcPdf].
(** debyepdfcalc_accept, DebyePDFCalculator.cpp:235-248 *)
Definition debye_accept (pwm : component) (envelopes : list component) : list component :=
  pwm :: envelopes ++ [CalcDebyePdf].
