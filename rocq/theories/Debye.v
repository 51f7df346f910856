(** Model of BaseDebyeSum and DebyePDFCalculator: settings, r-range and Q-step, Debye sum, F and PDF.
    Source: src/diffpy/srreal/BaseDebyeSum.cpp, DebyePDFCalculator.cpp, PDFUtils.ipp, GaussianProfile.cpp.
    double is R, int is Z without overflow. *)
From Coq Require Import String.
From Verif Require Import RBase AList Trig PdfGrid.
Open Scope R_scope.

(** what the calculator reads from a structure *)
Record dstru := { d_n : nat; d_type : nat -> string; d_occ : nat -> R; d_mult : nat -> nat }.
(** BaseDebyeSum.hpp:86-89, DebyePDFCalculator.hpp:121-124 and PairQuantity.hpp: the settings, [k_qmin] being mqminpdf: the
    mqmin of BaseDebyeSum is always 0 here (DebyePDFCalculator.cpp:130).  [k_mw]: maxWidth(stru, rmin, rmax) of the peak
    width model; [k_sf]: lookup(smbl, Q) of the scattering factor table. *)
Record dconf := { k_rmin : R; k_rmax : R; k_rstep : R; k_qmin : R; k_qmax : R; k_qstep : R; k_opt : bool; k_maxext : R;
                  k_prec : R; k_sf : string -> R -> R; k_mw : dstru -> R -> R -> R; k_env : list (R -> R) }.
(** BaseDebyeSum.hpp:90-95 mstructure_cache *)
Record dcache := { typeofsite : list nat; sftypeatkq : list (list R); sfaverageatkq : list R; totaloccupancy : R }.
(** [dtick]: number of clicks of mticker *)
Record deb := { dc : dconf; ds : dstru; dsc : dcache; closteps : Z; chisteps : Z; rcached : bool; dval : list R; dtick : nat }.

Definition with_conf (x : deb) (c : dconf) (click : bool) : deb :=
  {| dc := c; ds := ds x; dsc := dsc x; closteps := closteps x; chisteps := chisteps x; rcached := rcached x; dval := dval x;
     dtick := if click then S (dtick x) else dtick x |}.
Definition with_lims (x : deb) (lo hi : Z) (cached : bool) : deb :=
  {| dc := dc x; ds := ds x; dsc := dsc x; closteps := lo; chisteps := hi; rcached := cached; dval := dval x; dtick := dtick x |}.
Definition with_dval (x : deb) (v : list R) : deb :=
  {| dc := dc x; ds := ds x; dsc := dsc x; closteps := closteps x; chisteps := chisteps x; rcached := rcached x; dval := v; dtick := dtick x |}.
Definition upd_dconf (c : dconf) (rmin rmax rstep qmin qmax qstep : R) (opt : bool) (maxext : R) : dconf :=
  {| k_rmin := rmin; k_rmax := rmax; k_rstep := rstep; k_qmin := qmin; k_qmax := qmax; k_qstep := qstep; k_opt := opt;
     k_maxext := maxext; k_prec := k_prec c; k_sf := k_sf c; k_mw := k_mw c; k_env := k_env c |}.
(** statements in sequence: an exception leaves the changes made so far *)
Definition andthen (o : outcome deb) (f : deb -> outcome deb) : outcome deb :=
  match o with Ok x => f x | Throw e x => Throw e x | UB => UB end.

(** ** r-range *)
(** GaussianProfile.cpp:79-93 xboundhi with setPrecision(3.33e-6) *)
Definition halfboundrel : R := sqrt (- ln (333 / 100000000) / (4 * ln 2)).
Definition gauss_hi (fwhm : R) : R := if Rleb fwhm 0 then 0 else halfboundrel * fwhm.
(** DebyePDFCalculator.cpp:352-360 extFromTerminationRipples *)
Definition ext_ripples (c : dconf) : R := if Rltb 0 (k_qmax c) then 6 * 2 * PI / k_qmax c else 0.
(** DebyePDFCalculator.cpp:363-374 extFromPeakTails *)
Definition ext_tails (c : dconf) (s : dstru) : R := gauss_hi (k_mw c s (k_rmin c) (k_rmax c)).
Definition ext_total (c : dconf) (s : dstru) : R := Rmin (k_maxext c) (ext_ripples c + ext_tails c s).
(** DebyePDFCalculator.cpp:377-395 cacheRlimitsData *)
Definition cacheRlimits (x : deb) : deb :=
  let c := dc x in
  let e := ext_total c (ds x) in
  let lo := Z.max 0 (rminSteps (k_rmin c - e) (k_rstep c)) in
  let nhi := rmaxSteps (k_rmax c + e) (k_rstep c) in
  let hi := if ((nhi <=? chisteps x - 50) || (chisteps x <? nhi))%Z then nhi else chisteps x in
  with_lims x lo hi true.
(** DebyePDFCalculator.cpp:336-349: rcalclo and rcalchi compute the limits when they are not cached *)
Definition cached (x : deb) : deb := if rcached x then x else cacheRlimits x.
Definition rcalclo (x : deb) : R := IZR (closteps (cached x)) * k_rstep (dc x).
Definition rcalchi (x : deb) : R := IZR (chisteps (cached x)) * k_rstep (dc x).

(** ** Settings *)
(** BaseDebyeSum.cpp:129-134 setQstep *)
Definition base_setQstep (q : R) (x : deb) : outcome deb :=
  if negb (eps_gt q 0 SQRT_DOUBLE_EPS) then Throw InvalidArgument x else
  let c := dc x in
  Ok (with_conf x (upd_dconf c (k_rmin c) (k_rmax c) (k_rstep c) (k_qmin c) (k_qmax c) q (k_opt c) (k_maxext c)) (negb (Reqb (k_qstep c) q))).
Definition set_opt (b : bool) (x : deb) : deb :=
  let c := dc x in with_conf x (upd_dconf c (k_rmin c) (k_rmax c) (k_rstep c) (k_qmin c) (k_qmax c) (k_qstep c) b (k_maxext c)) false.
(** DebyePDFCalculator.cpp:326-327 *)
Definition oqstep (qmax rmaxext : R) : R := if Rltb 4 (qmax * rmaxext / PI) then PI / rmaxext else qmax / 4.
(** DebyePDFCalculator.cpp:322-333 updateQstep *)
Definition updateQstep (x : deb) : outcome deb :=
  let x := cached x in
  let o := oqstep (k_qmax (dc x)) (rcalchi x) in
  let x := if Rleb o (k_qstep (dc x)) then set_opt true x else x in
  if k_opt (dc x) then base_setQstep o x else Ok x.
(** DebyePDFCalculator.cpp:125-132 with BaseDebyeSum::setQmin(0.0), which changes nothing *)
Definition setQmin (q : R) (x : deb) : outcome deb :=
  if Rltb q 0 then Throw InvalidArgument x else
  let c := dc x in Ok (with_conf x (upd_dconf c (k_rmin c) (k_rmax c) (k_rstep c) q (k_qmax c) (k_qstep c) (k_opt c) (k_maxext c)) false).
(** DebyePDFCalculator.cpp:141-145 with BaseDebyeSum.cpp:115-120 *)
Definition setQmax (q : R) (x : deb) : outcome deb :=
  if Rltb q 0 then Throw InvalidArgument x else
  let c := dc x in
  updateQstep (with_conf x (upd_dconf c (k_rmin c) (k_rmax c) (k_rstep c) (k_qmin c) q (k_qstep c) (k_opt c) (k_maxext c)) (negb (Reqb (k_qmax c) q))).
(** DebyePDFCalculator.cpp:148-153 *)
Definition setQstep (q : R) (x : deb) : outcome deb := andthen (base_setQstep q x) (fun x => updateQstep (set_opt false x)).
(** DebyePDFCalculator.cpp:156-160 *)
Definition setOptimumQstep (x : deb) : outcome deb := updateQstep (set_opt true x).
Definition uncache (b : bool) (x : deb) : deb := if b then with_lims x (closteps x) (chisteps x) false else x.
(** DebyePDFCalculator.cpp:177-182 *)
Definition setRmin (r : R) (x : deb) : outcome deb :=
  if Rltb r 0 then Throw InvalidArgument x else
  let c := dc x in
  let changed := negb (Reqb (k_rmin c) r) in
  Ok (with_conf (uncache changed x) (upd_dconf c r (k_rmax c) (k_rstep c) (k_qmin c) (k_qmax c) (k_qstep c) (k_opt c) (k_maxext c)) changed).
(** DebyePDFCalculator.cpp:185-191 *)
Definition setRmax (r : R) (x : deb) : outcome deb :=
  if Rltb r 0 then Throw InvalidArgument x else
  let c := dc x in
  let changed := negb (Reqb (k_rmax c) r) in
  updateQstep (with_conf (uncache changed x) (upd_dconf c (k_rmin c) r (k_rstep c) (k_qmin c) (k_qmax c) (k_qstep c) (k_opt c) (k_maxext c)) changed).
(** DebyePDFCalculator.cpp:194-201 *)
Definition setRstep (r : R) (x : deb) : outcome deb :=
  if negb (eps_gt r 0 SQRT_DOUBLE_EPS) then Throw InvalidArgument x else
  let c := dc x in
  Ok (with_conf (uncache (negb (Reqb (k_rstep c) r)) x)
        (upd_dconf c (k_rmin c) (k_rmax c) r (k_qmin c) (k_qmax c) (k_qstep c) (k_opt c) (k_maxext c)) false).
(** DebyePDFCalculator.cpp:210-220 *)
Definition setMaxExtension (m : R) (x : deb) : outcome deb :=
  if Rltb m 0 then Throw InvalidArgument x else
  let c := dc x in
  let changed := negb (Reqb (k_maxext c) m) in
  updateQstep (with_conf (uncache changed x) (upd_dconf c (k_rmin c) (k_rmax c) (k_rstep c) (k_qmin c) (k_qmax c) (k_qstep c) (k_opt c) m) changed).
(** setScatteringFactorTable, setPeakWidthModel, the envelopes and BaseDebyeSum.cpp:143-147 setDebyePrecision; the tickers of
    the owned objects are part of the ticker of the calculator *)
Definition setObjects (prec : R) (sf : string -> R -> R) (mw : dstru -> R -> R -> R) (env : list (R -> R)) (x : deb) : deb :=
  let c := dc x in
  with_conf x {| k_rmin := k_rmin c; k_rmax := k_rmax c; k_rstep := k_rstep c; k_qmin := k_qmin c; k_qmax := k_qmax c;
                 k_qstep := k_qstep c; k_opt := k_opt c; k_maxext := k_maxext c; k_prec := prec; k_sf := sf; k_mw := mw; k_env := env |} true.

(** ** Structure and Debye sum *)
(** PDFUtils.ipp:61-68 pdfutils_qmaxSteps *)
Definition qmaxSteps (c : dconf) : Z := if Rleb (k_qstep c) 0 then 0%Z else Rceil (k_qmax c / k_qstep c).
(** the loops over kq start at pdfutils_qminSteps(this), 0 for Qmin = 0 *)
Definition kfirst (c : dconf) : Z := qminSteps 0 (k_qstep c).
(** DebyePDFCalculator.cpp:281-288 sfSiteAtQ *)
Definition sfSiteAtQ (c : dconf) (s : dstru) (i : nat) (q : R) : R := k_sf c (d_type s i) q * d_occ s i.
(** BaseDebyeSum.cpp:254-261 the array of one site *)
Definition sfarray (c : dconf) (s : dstru) (i : nat) : list R :=
  map (fun kq => if (kfirst c <=? kq)%Z then sfSiteAtQ c s i (k_qstep c * IZR kq) else 0) (zrange 0 (qmaxSteps c)).
(** BaseDebyeSum.cpp:241-262 the loop over sites: atomtypeidx, typeofsite, sftypeatkq *)
Definition type_step (c : dconf) (s : dstru) (st : list (string * nat) * list nat * list (list R)) (i : nat) :=
  let '(idx, tos, sft) := st in
  let smbl := d_type s i in
  let idx := match afind string_dec smbl idx with Some _ => idx | None => aset string_dec smbl (length idx) idx end in
  let tpidx := match afind string_dec smbl idx with Some k => k | None => 0%nat end in
  let tos := tos ++ [tpidx] in
  (idx, tos, if (tpidx <? length sft)%nat then sft else sft ++ [sfarray c s i]).
Definition cacheTypes (c : dconf) (s : dstru) : list nat * list (list R) :=
  let '(_, tos, sft) := fold_left (type_step c s) (seq 0 (d_n s)) ([], [], []) in (tos, sft).
(** StructureAdapter.cpp:36-45 totalOccupancy *)
Definition totalOccupancy (s : dstru) : R := fold_left (fun t i => t + d_occ s i * INR (d_mult s i)) (seq 0 (d_n s)) 0.
(** BaseDebyeSum.cpp:271-277 tpmultipl *)
Definition tpmultipl (s : dstru) (tos : list nat) (tp : nat) : R :=
  fold_left (fun t i => if (nth i tos 0 =? tp)%nat then t + INR (d_mult s i) else t) (seq 0 (d_n s)) 0.
(** BaseDebyeSum.cpp:231-290 cacheStructureData *)
Definition cacheStructureData (c : dconf) (s : dstru) : dcache :=
  let '(tos, sft) := cacheTypes c s in
  let tot := totalOccupancy s in
  let sfak k := fold_left (fun t tp => t + nth k (nth tp sft []) 0 * tpmultipl s tos tp) (seq 0 (length sft)) 0 in
  let tosc := if eps_gt tot 0 SQRT_DOUBLE_EPS then 1 / tot else 1 in
  {| typeofsite := tos; sftypeatkq := sft; totaloccupancy := tot;
     sfaverageatkq := map (fun k => tosc * sfak k) (seq 0 (Z.to_nat (qmaxSteps c))) |}.
(** BaseDebyeSum.cpp:213-221 sfSiteAtkQ *)
Definition sfSiteAtkQ (x : deb) (i : nat) (kq : Z) : R := nth (Z.to_nat kq) (nth (nth i (typeofsite (dsc x)) 0%nat) (sftypeatkq (dsc x)) []) 0.
(** DebyePDFCalculator.cpp:266-271 resetValue with BaseDebyeSum.cpp:159-164 *)
Definition resetValue (x : deb) : outcome deb :=
  andthen (updateQstep (cacheRlimits x)) (fun x =>
  Ok {| dc := dc x; ds := ds x; dsc := cacheStructureData (dc x) (ds x); closteps := closteps x; chisteps := chisteps x;
        rcached := rcached x; dval := repeat 0 (Z.to_nat (qmaxSteps (dc x))); dtick := dtick x |}).
(** PairQuantity.cpp:69-75 setStructure; masks and customPQConfig are in Masks.v and Evaluator.v *)
Definition setStructure (s : dstru) (x : deb) : outcome deb :=
  resetValue {| dc := dc x; ds := s; dsc := dsc x; closteps := closteps x; chisteps := chisteps x; rcached := rcached x;
                dval := dval x; dtick := dtick x |}.
(** the limits of the bond generator, DebyePDFCalculator.cpp:274-278 *)
Definition bondLimits (x : deb) : R * R := (rcalclo x, rcalchi x).
(** BaseDebyeSum.cpp:182-186 sinescale *)
Definition dwsigma (fwhm : R) : R := 1 / (2 * sqrt (2 * ln 2)) * fwhm.
Definition sinescale (x : deb) (b : pbond) (z : Z) (kq : Z) : R :=
  let q := IZR kq * k_qstep (dc x) in
  let dwscale := exp (- / 2 * (dwsigma (b_fwhm b) * q) ^ 2) in
  IZR z * b_mult b * dwscale * sfSiteAtkQ x (b_s0 b) kq * sfSiteAtkQ x (b_s1 b) kq / b_dist b.
(** BaseDebyeSum.cpp:179-189 the loop with its break *)
Fixpoint sine_loop (x : deb) (b : pbond) (z : Z) (ks : list Z) (v : list R) : outcome (list R) :=
  match ks with
  | [] => Ok v
  | kq :: r =>
    let ss := sinescale x b z kq in
    if eps_eq 0 ss (k_prec (dc x)) then Ok v
    else bind (addat v kq (ss * sin (IZR kq * k_qstep (dc x) * b_dist b))) (fun v => sine_loop x b z r v)
  end.
(** BaseDebyeSum.cpp:167-189 addPairContribution *)
Definition addPair (x : deb) (b : pbond) (z : Z) : outcome (list R) :=
  if eps_eq 0 (b_dist b) SQRT_DOUBLE_EPS then Ok (dval x)
  else sine_loop x b z (zrange (kfirst (dc x)) (qmaxSteps (dc x))) (dval x).
Definition addPairs (x : deb) (t : list (pbond * Z)) : outcome deb :=
  fold_left (fun r e => match r with Ok y => match addPair y (fst e) (snd e) with Ok v => Ok (with_dval y v) | _ => UB end | r => r end) t (Ok x).
(** eval(s) by the BASIC evaluator; t are the pairs visited (Evaluator.v) *)
Definition eval (s : dstru) (t : list (pbond * Z)) (x : deb) : outcome deb := andthen (setStructure s x) (fun x => addPairs x t).
(** PQEvaluator.cpp:195-297 a fast update by the OPTIMIZED evaluator: t0 are the removed pairs, t1 the added ones, t all pairs in
    case it falls back; stashPartialValue and restorePartialValue of BaseDebyeSum.cpp:192-203 keep the array *)
Definition fastUpdate (t0 : list (pbond * Z)) (s : dstru) (t1 t : list (pbond * Z)) (x : deb) : outcome deb :=
  andthen (addPairs x t0) (fun x1 =>
  andthen (setStructure s x1) (fun x2 =>
  if (dtick x2 =? dtick x1)%nat then addPairs (with_dval x2 (dval x1)) t1 else eval s t x2)).

(** ** Results *)
(** BaseDebyeSum.cpp:94-97, PDFUtils.ipp:28-37 getQgrid *)
Definition getQgrid (x : deb) : list R := grid 0 (qmaxSteps (dc x)) (k_qstep (dc x)).
(** DebyePDFCalculator.cpp:170-173 getRgrid *)
Definition getRgrid (x : deb) : list R :=
  grid (rminSteps (k_rmin (dc x)) (k_rstep (dc x))) (rmaxSteps (k_rmax (dc x)) (k_rstep (dc x))) (k_rstep (dc x)).
(** BaseDebyeSum.cpp:83-85 fscale *)
Definition fscale (x : deb) (kq : Z) : R :=
  let sfavg := nth (Z.to_nat kq) (sfaverageatkq (dsc x)) 0 in
  let tot := totaloccupancy (dsc x) in
  if Reqb (sfavg * tot) 0 then 0 else 1 / (sfavg * sfavg * tot).
(** BaseDebyeSum.cpp:77-90 getF; an index outside of the array is undefined *)
Definition getF (x : deb) : outcome (list R) :=
  let npts := qmaxSteps (dc x) in
  if ((kfirst (dc x) <? 0) || (Z.of_nat (length (dval x)) <? npts) || (Z.of_nat (length (sfaverageatkq (dsc x))) <? npts))%Z then UB
  else Ok (map (fun kq => nth (Z.to_nat kq) (dval x) 0 * (if ((kfirst (dc x) <=? kq) && (kq <? npts))%Z then fscale x kq else 1))
             (zrange 0 (Z.of_nat (length (dval x))))).
(** resize(n, 0.0) to a greater length *)
Definition pad0 (l : list R) (n : Z) : list R := l ++ repeat 0 (Z.to_nat n - length l).
(** DebyePDFCalculator.cpp:306-317 the interpolation at r in gpad *)
Definition interpolate (gpad : list R) (drpad r : R) : outcome R :=
  let xdrp := r / drpad in
  let iplo := Rfloor xdrp in
  let iphi := (iplo + 1)%Z in
  let wphi := xdrp - IZR iplo in
  let wplo := 1 - wphi in
  if ((iplo <? 0) || (Z.of_nat (length gpad) <=? iphi))%Z then UB
  else Ok (wplo * nth (Z.to_nat iplo) gpad 0 + wphi * nth (Z.to_nat iphi) gpad 0).
Fixpoint mapo (f : R -> outcome R) (l : list R) : outcome (list R) :=
  match l with
  | [] => Ok []
  | x :: r => match f x with Ok y => bind (mapo f r) (fun z => Ok (y :: z)) | _ => UB end
  end.
(** DebyePDFCalculator.cpp:292-319 getPDFAtQmin *)
Definition getPDFAtQmin (qmin : R) (x : deb) : outcome (list R) :=
  bind (getF x) (fun fpad =>
  let nqmin := Z.min (qminSteps qmin (k_qstep (dc x))) (Z.of_nat (length fpad)) in
  bind (fill0 fpad 0 nqmin) (fun fpad =>
  let nfromdr := Rceil (PI / k_rstep (dc x) / k_qstep (dc x)) in
  let fpad := if (Z.of_nat (length fpad) <? nfromdr)%Z then pad0 fpad nfromdr else fpad in
  bind (fftftog fpad (k_qstep (dc x)) 0) (fun gpad =>
  let drpad := PI / (INR (length gpad) * k_qstep (dc x)) in
  mapo (interpolate gpad drpad) (getRgrid x)))).
Definition applyEnvelopes (x : deb) (xs ys : list R) : outcome (list R) :=
  fold_left (fun o f => bind o (map2 (fun r z => z * f r) xs)) (k_env (dc x)) (Ok ys).
(** DebyePDFCalculator.cpp:98-121 getPDF, getRDF, getRDFperR *)
Definition getPDF (x : deb) : outcome (list R) := bind (getPDFAtQmin (k_qmin (dc x)) x) (applyEnvelopes x (getRgrid x)).
Definition getRDFperR (x : deb) : outcome (list R) := getPDFAtQmin 0 x.
Definition getRDF (x : deb) : outcome (list R) := bind (getRDFperR x) (map2 Rmult (getRgrid x)).

(** ** Construction and histories *)
(** DebyePDFCalculator.cpp:41-66 with BaseDebyeSum.cpp:48-63 and PairQuantity.cpp:39-47; the structure is the empty adapter *)
Definition empty_stru : dstru := {| d_n := 0; d_type := fun _ => EmptyString; d_occ := fun _ => 0; d_mult := fun _ => 0%nat |}.
Definition rawDebye (sf : string -> R -> R) (mw : dstru -> R -> R -> R) (env : list (R -> R)) : deb :=
  {| dc := {| k_rmin := 0; k_rmax := 0; k_rstep := 1 / 100; k_qmin := 0; k_qmax := 10; k_qstep := 5 / 100; k_opt := false;
              k_maxext := 10; k_prec := 1 / 1000000; k_sf := sf; k_mw := mw; k_env := env |};
     ds := empty_stru; dsc := {| typeofsite := []; sftypeatkq := []; sfaverageatkq := []; totaloccupancy := 0 |};
     closteps := 0; chisteps := 0; rcached := false; dval := []; dtick := 0 |}.
Definition newDebye sf mw env : outcome deb :=
  andthen (setRmax 10 (rawDebye sf mw env)) (fun x =>
  andthen (setQmax 25 x) (fun x =>
  andthen (setOptimumQstep x) (fun x => setStructure empty_stru x))).
Inductive dop :=
| DRmin (r : R) | DRmax (r : R) | DRstep (r : R) | DQmin (q : R) | DQmax (q : R) | DQstep (q : R) | DOptimum | DMaxExt (m : R)
| DObjects (prec : R) (sf : string -> R -> R) (mw : dstru -> R -> R -> R) (env : list (R -> R))
| DSetStructure (s : dstru)
| DEval (s : dstru) (t : list (pbond * Z)).
Definition dstep (o : dop) (x : deb) : outcome deb :=
  match o with
  | DRmin r => setRmin r x
  | DRmax r => setRmax r x
  | DRstep r => setRstep r x
  | DQmin q => setQmin q x
  | DQmax q => setQmax q x
  | DQstep q => setQstep q x
  | DOptimum => setOptimumQstep x
  | DMaxExt m => setMaxExtension m x
  | DObjects prec sf mw env => Ok (setObjects prec sf mw env x)
  | DSetStructure s => setStructure s x
  | DEval s t => eval s t x
  end.
(** a caught exception leaves the changes made before it *)
Definition drun_from (r : outcome deb) (o : dop) : outcome deb :=
  match r with Ok y => match dstep o y with Throw _ z => Ok z | r => r end | r => r end.
Definition drun (ops : list dop) (x : outcome deb) : outcome deb := fold_left drun_from ops x.
