(** Specification for attributes (C41). *)
From Coq Require Import String Reals.
From Verif Require Import Base AList Attr.
Open Scope list_scope.

Section Spec.
  Context {St : Type}.
  (** an object is described by the state of each instance and what it has registered, oldest first *)
  Definition described := (St * list (string * attr St))%type.
  Definition build (d : list described) : object St := map (fun x => construct (fst x) (snd x)) d.
  (** the newest registration of a name *)
  Fixpoint newest_rev (name : string) (l : list (string * attr St)) : option (attr St) :=
    match l with [] => None | (n, a) :: l => if string_dec name n then Some a else newest_rev name l end.
  Definition newest (name : string) (l : list (string * attr St)) : option (attr St) := newest_rev name (rev l).
  (** the instances that have the name *)
  Definition providers (name : string) (d : list described) : list described :=
    filter (fun x => match newest name (snd x) with Some _ => true | None => false end) d.
End Spec.

(** the choices of components *)
Definition is_pwm (c : component) : Prop := c = PwConstant \/ c = PwDebyeWaller \/ c = PwJeong.
Definition is_profile (c : component) : Prop := c = ProfGaussian \/ c = ProfCropped.
Definition is_baseline (c : component) : Prop := c = BaseZero \/ c = BaseLinear.
Definition is_envelope (c : component) : Prop := c = EnvQResolution \/ c = EnvScale \/ c = EnvSpherical \/ c = EnvStepCut.
(** a component with some state and some getters and setters for its names *)
Definition instance_of {St} (c : component) (x : St * list (string * attr St)) : Prop :=
  map (fun e => (fst e, negb (isreadonly (snd e)))) (snd x) = registered_names c.

(** What the documentation says a calculator made of these components offers: the names it can read ... *)
Definition documented (c : component) : list string :=
  match c with
  | PwConstant => ["width"; "bisowidth"; "uisowidth"]
  | PwDebyeWaller | BaseZero => []
  | PwJeong => ["delta1"; "delta2"; "qbroad"; "qbroad_seperable"]
  | ProfGaussian | ProfCropped => ["peakprecision"]
  | BaseLinear => ["slope"]
  | EnvQResolution => ["qdamp"] | EnvScale => ["scale"] | EnvSpherical => ["spdiameter"] | EnvStepCut => ["stepcut"]
  | CalcPdf => ["qmin"; "qmax"; "qstep"; "rmin"; "rmax"; "rstep"; "maxextension"; "extendedrmin"; "extendedrmax"]
  | CalcDebyePdf => ["debyeprecision"; "qmin"; "qmax"; "qstep"; "rmin"; "rmax"; "rstep"; "maxextension"; "extendedrmin"; "extendedrmax"]
  | CalcBvs => ["rmin"; "rmax"; "valenceprecision"; "rmaxused"]
  | CalcOverlap => ["rmin"; "rmax"; "rmaxused"]
  | CalcPlain => ["rmin"; "rmax"]
  end%string.
(** ... and those among them that are computed and cannot be written *)
Definition computed (c : component) : list string :=
  match c with
  | CalcPdf => ["qstep"; "extendedrmin"; "extendedrmax"]
  | CalcDebyePdf => ["extendedrmin"; "extendedrmax"]
  | CalcBvs | CalcOverlap => ["rmaxused"]
  | _ => []
  end%string.
