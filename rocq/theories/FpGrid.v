(** The grids and range limits of PDFCalculator in double arithmetic. Every operation on doubles is rounded (Fp.v); an int is
    exact as a double. Source: src/diffpy/srreal/PDFUtils.ipp, PDFCalculator.cpp, src/diffpy/mathutils.ipp. *)
From Flocq Require Import Core.
From Verif Require Import RBase Fp PdfGrid.
Import ListNotations.
Open Scope R_scope.

(** mathutils.ipp:113-131 eps_eq, eps_gt, eps_lt *)
Definition fp_eps_eq (x y eps : R) : bool := Rleb (Rabs (rnd (x - y))) eps.
Definition fp_eps_gt (x y eps : R) : bool := Rltb (rnd (y + eps)) x.
Definition fp_eps_lt (x y eps : R) : bool := Rltb x (rnd (y - eps)).
(** mathutils.hpp:33-34 DOUBLE_EPS, SQRT_DOUBLE_EPS *)
Definition FP_EPS : R := bpow radix2 (-52).
Definition FP_SQRT_EPS : R := rnd (rnd (rnd (sqrt FP_EPS) + 1) - 1).
(** M_PI of math.h, used in PDFCalculator.cpp:288, 587-588 *)
Definition FP_PI : R := IZR 884279719003555 * bpow radix2 (-48).

(** PDFUtils.ipp:87-94 pdfutils_rminSteps(rmin, rstep) *)
Definition fp_rminSteps (rmin rstep : R) : Z :=
  let rv := Rceil (rnd (rmin / rstep)) in
  if fp_eps_eq rmin (rnd (IZR (rv - 1) * rstep)) FP_SQRT_EPS then (rv - 1)%Z else rv.
(** PDFUtils.ipp:107-112 pdfutils_rmaxSteps(rmax, rstep) *)
Definition fp_rmaxSteps (rmax rstep : R) : Z := Rceil (rnd (rmax / rstep)).
(** PDFUtils.ipp:71-84 getRgrid *)
Definition fp_rgrid (rmin rmax rstep : R) : list R :=
  map (fun n => rnd (IZR n * rstep)) (zrange (fp_rminSteps rmin rstep) (fp_rmaxSteps rmax rstep)).
(** PDFUtils.ipp:28-37, 61-68 getQgrid for a given Q-step *)
Definition fp_qgrid (qmax qstep : R) : list R :=
  map (fun n => rnd (IZR n * qstep)) (zrange 0 (if Rleb qstep 0 then 0%Z else Rceil (rnd (qmax / qstep)))).

(** PDFCalculator.cpp:285-290 getQmax, 579-590 extFromTerminationRipples; nripples * 2 is the int 12 *)
Definition fp_getQmax (mqmax rstep : R) : R := Rmin mqmax (rnd (FP_PI / rstep)).
Definition fp_ripples (mqmax rstep : R) : R :=
  let qmax := fp_getQmax mqmax rstep in
  if fp_eps_gt qmax 0 FP_SQRT_EPS && fp_eps_lt qmax (rnd (FP_PI / rstep)) FP_SQRT_EPS then rnd (rnd (12 * FP_PI) / qmax) else 0.
(** PDFCalculator.cpp:728-754 cacheRlimitsData; [tails]: the result of extFromPeakTails *)
Definition fp_limits (rmin rmax rstep maxext mqmax tails : R) : rlims :=
  if (fp_rmaxSteps rmax rstep <=? fp_rminSteps rmin rstep)%Z
  then {| extmin := 0; extmax := 0; calclo := 0; calchi := 0 |}
  else
    let ripples := fp_ripples mqmax rstep in
    let total := rnd (ripples + tails) in
    let '(ripples, total) :=
      if Rltb maxext total then (let sc := rnd (maxext / total) in (rnd (ripples * sc), maxext)) else (ripples, total) in
    {| extmin := Z.max 0 (fp_rminSteps (rnd (rmin - ripples)) rstep);
       extmax := fp_rmaxSteps (rnd (rmax + ripples)) rstep;
       calclo := Z.max 0 (fp_rminSteps (rnd (rmin - total)) rstep);
       calchi := fp_rmaxSteps (rnd (rmax + total)) rstep |}.
(** PDFCalculator.cpp:486-503 resetValue: the array has countCalcPoints elements; 187-208 getExtendedRDF with [scale] for rdf_scale
    and 654-664 cutRipplePoints, together getRDF (PDFCalculator.cpp:126-131) from the array [v] *)
Definition fp_getRDF (rmin rmax rstep : R) (l : rlims) (scale : R) (v : list R) : outcome (list R) :=
  bind (range v (extmin l - calclo l) (extmax l - calclo l)) (fun y =>
  let y := map (fun a => rnd (a * scale)) y in
  match y with
  | [] => Ok []
  | _ =>
    let ncutlo := (fp_rminSteps rmin rstep - extmin l)%Z in
    let ncuthi := (extmax l - fp_rmaxSteps rmax rstep)%Z in
    if (ncuthi <? 0)%Z then UB else
    bind (range y 0 (Z.of_nat (length y) - ncuthi)) (fun y1 =>
    if (ncutlo <? 0)%Z then UB else range y1 ncutlo (Z.of_nat (length y1)))
  end).
