(** Model of the peak profiles: GaussianProfile.cpp, CroppedGaussianProfile.cpp and PeakProfile.cpp.
    Reals stand for doubles.  A NaN result is [None]; division by a zero width follows IEEE 754
    (x/0 is infinite for x <> 0 and NaN for x = 0).  gsl_sf_erf is the error function, defined here by its integral. *)
From Coq Require Import Reals Lra.
From Verif Require Import Base RBase.
Open Scope R_scope.

(** mathutils.hpp:33 DOUBLE_EPS, 2^-52 *)
Definition DOUBLE_EPS : R := / 4503599627370496.

(** the error function: its integrand is continuous *)
Definition erf_integrand (t : R) : R := 2 / sqrt PI * exp (- (t * t)).
Lemma erf_integrand_cont : continuity erf_integrand.
Proof.
  unfold erf_integrand. intros x. apply derivable_continuous_pt.
  exists (2 / sqrt PI * (exp (- (x * x)) * (- (x + x)))).
  apply derivable_pt_lim_scal with (f := fun t => exp (- (t * t))).
  apply (derivable_pt_lim_comp (fun t => - (t * t)) exp).
  - apply (derivable_pt_lim_opp (fun t => t * t)).
    replace (x + x) with (1 * x + x * 1) by ring.
    apply (derivable_pt_lim_mult (fun t => t) (fun t => t)); apply derivable_pt_lim_id.
  - apply derivable_pt_lim_exp.
Qed.
Lemma erf_integrable a b : Riemann_integrable erf_integrand a b.
Proof.
  destruct (Rle_dec a b) as [H|H].
  - apply continuity_implies_RiemannInt; auto. intros; apply erf_integrand_cont.
  - apply RiemannInt_P1. apply continuity_implies_RiemannInt; [lra|]. intros; apply erf_integrand_cont.
Qed.
(** gsl_sf_erf(x), the integral of 2/sqrt(pi) exp(-t^2) from 0 to x *)
Definition erf (x : R) : R := RiemannInt (erf_integrable 0 x).

(** PeakProfile.hpp mprecision, the ticker as a click count; GaussianProfile.hpp mhalfboundrel *)
Record gaussp := mkGP { gprec : R; ghalf : R; gclicks : nat }.

(** PeakProfile.cpp:44-48 setPrecision *)
Definition base_setPrecision (eps : R) (p : gaussp) : gaussp :=
  mkGP eps (ghalf p) (if Reqb (gprec p) eps then gclicks p else S (gclicks p)).

(** GaussianProfile.cpp:86-93 setPrecision *)
Definition gauss_setPrecision (eps : R) (p : gaussp) : gaussp :=
  let eps1 := Rmax eps DOUBLE_EPS in
  let p1 := base_setPrecision eps1 p in
  mkGP (gprec p1) (if Rltb eps1 1 then sqrt (- ln eps1 / (4 * ln 2)) else 0) (gclicks p1).

(** GaussianProfile.cpp:35-39, PeakProfile.cpp:36-40 constructors *)
Definition gauss_new : gaussp := gauss_setPrecision DOUBLE_EPS (mkGP 0 0 0).

(** GaussianProfile.cpp:64-70 operator() *)
Definition gauss_at (p : gaussp) (x fwhm : R) : R :=
  if Rleb fwhm 0 then 0
  else let xrel := x / fwhm in 2 * sqrt (ln 2 / PI) / fwhm * exp (-4 * ln 2 * xrel * xrel).

(** GaussianProfile.cpp:79-83 xboundhi *)
Definition gauss_hi (p : gaussp) (fwhm : R) : R := if Rleb fwhm 0 then 0 else ghalf p * fwhm.
(** GaussianProfile.cpp:73-76 xboundlo *)
Definition gauss_lo (p : gaussp) (fwhm : R) : R := -1 * gauss_hi p fwhm.

(** CroppedGaussianProfile.hpp: mscale beside the base object *)
Record croppedp := mkCP { cbase : gaussp; cscale : R }.

(** CroppedGaussianProfile.cpp:74-84 setPrecision *)
Definition cropped_setPrecision (eps : R) (p : croppedp) : croppedp :=
  let b := gauss_setPrecision eps (cbase p) in
  let eps1 := gprec b in
  mkCP b (if Rltb eps1 1 then 1 / erf (sqrt (- ln eps1)) else 1).

(** CroppedGaussianProfile.cpp:34-38 constructor *)
Definition cropped_new : croppedp :=
  let p := mkCP gauss_new 0 in cropped_setPrecision (gprec (cbase p)) p.

(** CroppedGaussianProfile.cpp:64-71 operator() *)
Definition cropped_at (p : croppedp) (x fwhm : R) : option R :=
  if Reqb fwhm 0 then (if Reqb x 0 then None (* 0/0 *) else Some 0 (* infinite xrel *))
  else
    let xrel := x / fwhm in
    Some (if Rleb (ghalf (cbase p)) (Rabs xrel) then 0
          else 2 * sqrt (ln 2 / PI) / fwhm * cscale p * exp (-4 * ln 2 * xrel * xrel)).

(** histories: a new object followed by any number of setPrecision calls *)
Definition gauss_hist (es : list R) : gaussp := fold_left (fun p e => gauss_setPrecision e p) es gauss_new.
Definition cropped_hist (es : list R) : croppedp := fold_left (fun p e => cropped_setPrecision e p) es cropped_new.
