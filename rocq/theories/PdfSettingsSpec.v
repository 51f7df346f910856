(** Specification for the settings of PDFCalculator (C104): what a history of calls leaves. *)
From Coq Require Import String.
From Verif Require Import RBase Trig PdfGrid PdfSpec.
Open Scope R_scope.

(** The argument of the last call for which [f] gives one, [d] without any. *)
Definition last_of {A B : Type} (f : A -> option B) (d : B) (ops : list A) : B :=
  match find (fun o => match f o with Some _ => true | None => false end) (rev ops) with
  | Some o => match f o with Some v => v | None => d end
  | None => d
  end.
(** The accepted arguments of each setter *)
Definition good_rmin (o : pop) : option R := match o with PRmin r => if Rle_dec 0 r then Some r else None | _ => None end.
Definition good_rmax (o : pop) : option R := match o with PRmax r => if Rle_dec 0 r then Some r else None | _ => None end.
Definition good_rstep (o : pop) : option R := match o with PRstep r => if Rlt_dec SQRT_DOUBLE_EPS r then Some r else None | _ => None end.
Definition good_qmin (o : pop) : option R := match o with PQmin q => if Rle_dec 0 q then Some q else None | _ => None end.
(** zero stands for no limit *)
Definition good_qmax (o : pop) : option R :=
  match o with PQmax q => if Rle_dec 0 q then Some (if Req_EM_T q 0 then DOUBLE_MAX else q) else None | _ => None end.
Definition good_maxext (o : pop) : option R := match o with PMaxExt m => if Rle_dec 0 m then Some m else None | _ => None end.
Definition good_objects (o : pop) : option (profile * (string -> R) * list (R -> R) * bool * list (Z * Z)) :=
  match o with PObjects pk sf env d inv _ => Some (pk, sf, env, d, inv) | _ => None end.
(** The baseline in use: linear with a slope computed for each structure, or the function that was set *)
Definition good_baseline (o : pop) : option (option (R -> R)) :=
  match o with PObjects _ _ _ _ _ (Linear _) => Some None | PObjects _ _ _ _ _ (OtherBaseline f) => Some (Some f) | _ => None end.
Definition own_baseline (b : baseline) : option (R -> R) := match b with Linear _ => None | OtherBaseline f => Some f end.

(** The settings of c are what the history [ops] of a new calculator with these objects leaves. *)
Record settings_of (ops : list pop) (pk : profile) (sf : string -> R) (env : list (R -> R)) (x : pdfc) : Prop := {
  so_rmin : c_rmin (cf x) = last_of good_rmin 0 ops;
  so_rmax : c_rmax (cf x) = last_of good_rmax 10 ops;
  so_rstep : c_rstep (cf x) = last_of good_rstep (1 / 100) ops;
  so_qmin : c_qmin (cf x) = last_of good_qmin 0 ops;
  so_qmax : c_qmax (cf x) = last_of good_qmax DOUBLE_MAX ops;
  so_maxext : c_maxext (cf x) = last_of good_maxext 10 ops;
  so_objects : (c_pk (cf x), c_sftable (cf x), c_env (cf x), c_dflt (cf x), c_inv (cf x)) = last_of good_objects (pk, sf, env, true, []) ops;
  so_baseline : own_baseline (base x) = last_of good_baseline None ops }.

(** Everything that can be asked from a calculator *)
Record same_results (x y : pdfc) : Prop := {
  sr_rgrid : getRgrid x = getRgrid y; sr_qgrid : getQgrid x = getQgrid y;
  sr_rdf : getRDF x = getRDF y; sr_per : getRDFperR x = getRDFperR y; sr_f : getF x = getF y; sr_pdf : getPDF x = getPDF y;
  sr_limits : bondLimits x = bondLimits y; sr_slope : baseline_value (base x) = baseline_value (base y) }.
