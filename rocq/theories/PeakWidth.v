(** Model of the peak width models: ConstantPeakWidth.cpp, DebyeWallerPeakWidth.cpp, JeongPeakWidth.cpp, and of
    meanSquareDisplacement and maxUii in StructureAdapter.cpp.  Reals stand for doubles; asserts are off (release build). *)
From Coq Require Import Reals Lra.
From Verif Require Import Base RBase R3 Peaks.
Open Scope R_scope.

(** mathutils.hpp:35 *)
Definition GAUSS_SIGMA_TO_FWHM : R := 2 * sqrt (2 * ln 2).

(** what siteCartesianUij and siteAnisotropy return *)
Record usite := mkUS { s_U : mat; s_aniso : bool }.
(** what a bond generator reports at its current position: distance(), r01(), Ucartesian0(), Ucartesian1() and the
    anisotropy of the two sites, BaseBondGenerator.cpp:162-196 *)
Record ubond := mkUB { b_r01 : vec; b_U0 : mat; b_a0 : bool; b_U1 : mat; b_a1 : bool }.
Definition b_dist (b : ubond) : R := vnorm (b_r01 b).

(** StructureAdapter.cpp:82-108 meanSquareDisplacement *)
Definition meanSquareDisplacement (U : mat) (s : vec) (aniso : bool) : R :=
  if aniso then
    let sn := vscale (/ vnorm s) s in
    x00 U * vx sn * vx sn + x11 U * vy sn * vy sn + x22 U * vz sn * vz sn +
    2 * x01 U * vx sn * vy sn + 2 * x02 U * vx sn * vz sn + 2 * x12 U * vy sn * vz sn
  else x00 U.

(** StructureAdapter.cpp:111-124 maxUii, [None] for a null structure *)
Definition max_step (rv u : R) : R := if Rltb rv u then u else rv.
Definition maxUii (stru : option (list usite)) : R :=
  match stru with
  | None => 0
  | Some l => fold_left (fun rv s => max_step (max_step (max_step rv (x00 (s_U s))) (x11 (s_U s))) (x22 (s_U s))) l 0
  end.

(** BaseBondGenerator.cpp:198-208 msd *)
Definition msd (b : ubond) : R :=
  meanSquareDisplacement (b_U0 b) (b_r01 b) (b_a0 b) + meanSquareDisplacement (b_U1 b) (b_r01 b) (b_a1 b).

(** DebyeWallerPeakWidth.cpp:53-59 calculate *)
Definition dw_calculate (b : ubond) : R :=
  let m := msd b in if Rltb m 0 then 0 else GAUSS_SIGMA_TO_FWHM * sqrt m.
(** DebyeWallerPeakWidth.cpp:62-69 maxWidth *)
Definition dw_maxWidth (stru : option (list usite)) (rmin rmax : R) : R :=
  let m := 2 * maxUii stru in if Rleb m 0 then 0 else GAUSS_SIGMA_TO_FWHM * sqrt m.

(** JeongPeakWidth.hpp: parameters *)
Record jeong := mkJ { j_delta1 : R; j_delta2 : R; j_qbroad : R; j_qbroad_sep : R }.
(** JeongPeakWidth.cpp:145-153 msdSharpeningRatio *)
Definition msdSharpeningRatio (j : jeong) (r : R) : R :=
  if Rltb r DOUBLE_EPS then 0
  else 1 - j_delta1 j / r - j_delta2 j / (r * r) + (j_qbroad j * r) * (j_qbroad j * r).
(** JeongPeakWidth.cpp:68-77 calculate *)
Definition jeong_calculate (j : jeong) (b : ubond) : R :=
  let r := b_dist b in
  let corr := msdSharpeningRatio j r in
  if Rleb corr 0 then 0 else sqrt corr * dw_calculate b + (j_qbroad_sep j * r) * (j_qbroad_sep j * r).
(** JeongPeakWidth.cpp:80-90 maxWidth *)
Definition jeong_maxWidth (j : jeong) (stru : option (list usite)) (rmin rmax : R) : R :=
  let maxwidth0 := dw_maxWidth stru rmin rmax in
  let maxmsdsharp := Rmax (msdSharpeningRatio j rmin) (msdSharpeningRatio j rmax) in
  maxwidth0 * sqrt (Rmax 1 maxmsdsharp) + (j_qbroad_sep j * rmax) * (j_qbroad_sep j * rmax).

(** ConstantPeakWidth.hpp: mwidth; the ticker as a click count *)
Record constw := mkCW { cw_width : R; cw_clicks : nat }.
(** ConstantPeakWidth.cpp:65-73 constructor *)
Definition cw_new : constw := mkCW 0 0.
(** ConstantPeakWidth.cpp:118-122 setWidth *)
Definition cw_setWidth (width : R) (c : constw) : constw :=
  mkCW width (if Reqb (cw_width c) width then cw_clicks c else S (cw_clicks c)).
(** ConstantPeakWidth.cpp:98-108 calculate and maxWidth *)
Definition cw_calculate (c : constw) (b : ubond) : R := cw_width c.
Definition cw_maxWidth (c : constw) (stru : option (list usite)) (rmin rmax : R) : R := cw_width c.
(** ConstantPeakWidth.cpp:32 UtoB *)
Definition UtoB : R := 8 * PI * PI.
(** ConstantPeakWidth.cpp:35-40 getuisowidth *)
Definition getuisowidth (c : constw) : R :=
  let rmsd := cw_width c / GAUSS_SIGMA_TO_FWHM in
  let pm := if Rleb 0 rmsd then 1 else -1 in
  pm * (1 / 2) * rmsd * rmsd.
(** ConstantPeakWidth.cpp:42-48 setuisowidth *)
Definition setuisowidth (uiso : R) (c : constw) : constw :=
  let pm := if Rleb 0 uiso then 1 else -1 in
  let uisoplus := pm * uiso in
  let fwhm := pm * GAUSS_SIGMA_TO_FWHM * sqrt (2 * uisoplus) in
  cw_setWidth fwhm c.
(** ConstantPeakWidth.cpp:51-59 getbisowidth, setbisowidth *)
Definition getbisowidth (c : constw) : R := UtoB * getuisowidth c.
Definition setbisowidth (biso : R) (c : constw) : constw := setuisowidth (biso / UtoB) c.
