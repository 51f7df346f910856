(** Specification for the settings of DebyePDFCalculator (C69): what a history of calls leaves. *)
From Coq Require Import String.
From Verif Require Import RBase Trig Debye PdfSettingsSpec.
Open Scope R_scope.

(** The arguments inside of the range of each setter. A setter that fails for another reason keeps the argument. *)
Definition d_rmin (o : dop) : option R := match o with DRmin r => if Rle_dec 0 r then Some r else None | _ => None end.
Definition d_rmax (o : dop) : option R := match o with DRmax r => if Rle_dec 0 r then Some r else None | _ => None end.
Definition d_rstep (o : dop) : option R := match o with DRstep r => if Rlt_dec SQRT_DOUBLE_EPS r then Some r else None | _ => None end.
Definition d_qmin (o : dop) : option R := match o with DQmin q => if Rle_dec 0 q then Some q else None | _ => None end.
Definition d_qmax (o : dop) : option R := match o with DQmax q => if Rle_dec 0 q then Some q else None | _ => None end.
Definition d_maxext (o : dop) : option R := match o with DMaxExt m => if Rle_dec 0 m then Some m else None | _ => None end.
Definition d_objects (o : dop) : option (R * (string -> R -> R) * (dstru -> R -> R -> R) * list (R -> R)) :=
  match o with DObjects prec sf mw env => Some (prec, sf, mw, env) | _ => None end.

(** The settings of x are what the history [ops] of a new calculator leaves. *)
Record d_settings_of (ops : list dop) (sf : string -> R -> R) (mw : dstru -> R -> R -> R) (env : list (R -> R)) (x : deb) : Prop := {
  do_rmin : k_rmin (dc x) = last_of d_rmin 0 ops;
  do_rmax : k_rmax (dc x) = last_of d_rmax 10 ops;
  do_rstep : k_rstep (dc x) = last_of d_rstep (1 / 100) ops;
  do_qmin : k_qmin (dc x) = last_of d_qmin 0 ops;
  do_qmax : k_qmax (dc x) = last_of d_qmax 25 ops;
  do_maxext : k_maxext (dc x) = last_of d_maxext 10 ops;
  do_objects : (k_prec (dc x), k_sf (dc x), k_mw (dc x), k_env (dc x)) = last_of d_objects (1 / 1000000, sf, mw, env) ops }.
