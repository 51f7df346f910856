(** Peak widths in double arithmetic: the mean square displacement of a pair along its bond and the Debye-Waller and Jeong widths. Overflow
    and NaN are left out, so the length of the bond is not zero. pow(x, 2) with a literal 2 is the rounded product (gcc replaces it).
    Source: src/diffpy/srreal/StructureAdapter.cpp, BaseBondGenerator.cpp, DebyeWallerPeakWidth.cpp, JeongPeakWidth.cpp. *)
From Coq Require Import Reals Lra.
From Flocq Require Import Core.
From Verif Require Import RBase R3 Peaks PeakWidth Fp FpAngle FpSphere.
Open Scope R_scope.

(** mathutils.hpp:35 M_LN2 of math.h as a double *)
Definition FP_LN2 : R := IZR 6243314768165359 * bpow radix2 (-53).
(** mathutils.hpp:35 *)
Definition FP_FWHM : R := rnd (2 * rnd (sqrt (rnd (2 * FP_LN2)))).

(** StructureAdapter.cpp:82-108 meanSquareDisplacement; the sum from left to right *)
Definition fp_usq (U : mat) (s : vec) (aniso : bool) : R :=
  if aniso then
    let sn := fp_over s (fp_norm s) in
    let t0 := rnd (rnd (x00 U * vx sn) * vx sn) in
    let t1 := rnd (rnd (x11 U * vy sn) * vy sn) in
    let t2 := rnd (rnd (x22 U * vz sn) * vz sn) in
    let t3 := rnd (rnd (rnd (2 * x01 U) * vx sn) * vy sn) in
    let t4 := rnd (rnd (rnd (2 * x02 U) * vx sn) * vz sn) in
    let t5 := rnd (rnd (rnd (2 * x12 U) * vy sn) * vz sn) in
    rnd (rnd (rnd (rnd (rnd (t0 + t1) + t2) + t3) + t4) + t5)
  else x00 U.
(** BaseBondGenerator.cpp:198-208 msd *)
Definition fp_msd (b : ubond) : R := rnd (fp_usq (b_U0 b) (b_r01 b) (b_a0 b) + fp_usq (b_U1 b) (b_r01 b) (b_a1 b)).

(** DebyeWallerPeakWidth.cpp:53-59 calculate *)
Definition fp_dw (b : ubond) : R := let m := fp_msd b in if Rltb m 0 then 0 else rnd (FP_FWHM * rnd (sqrt m)).
(** DebyeWallerPeakWidth.cpp:62-69 maxWidth; maxUii (StructureAdapter.cpp:111-124) only compares *)
Definition fp_dw_max (stru : option (list usite)) : R :=
  let m := rnd (2 * maxUii stru) in if Rleb m 0 then 0 else rnd (FP_FWHM * rnd (sqrt m)).

(** JeongPeakWidth.cpp:145-153 msdSharpeningRatio *)
Definition fp_ratio (j : jeong) (r : R) : R :=
  if Rltb r DOUBLE_EPS then 0
  else rnd (rnd (rnd (1 - rnd (j_delta1 j / r)) - rnd (j_delta2 j / fp_sq r)) + fp_sq (rnd (j_qbroad j * r))).
(** JeongPeakWidth.cpp:68-77 calculate; BaseBondGenerator.cpp:234-240: the distance is the norm of r01 *)
Definition fp_jeong (j : jeong) (b : ubond) : R :=
  let r := fp_norm (b_r01 b) in
  let corr := fp_ratio j r in
  if Rleb corr 0 then 0 else rnd (rnd (rnd (sqrt corr) * fp_dw b) + fp_sq (rnd (j_qbroad_sep j * r))).
(** JeongPeakWidth.cpp:80-90 maxWidth *)
Definition fp_jeong_max (j : jeong) (stru : option (list usite)) (rmin rmax : R) : R :=
  let sharp := Rmax (fp_ratio j rmin) (fp_ratio j rmax) in
  rnd (rnd (fp_dw_max stru * rnd (sqrt (Rmax 1 sharp))) + fp_sq (rnd (j_qbroad_sep j * rmax))).
