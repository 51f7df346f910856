(** Model of PDFCalculator: configuration, r- and Q-grids, range limits, peak summation, stash and results.
    Source: src/diffpy/srreal/PDFCalculator.cpp, PDFCalculator.hpp, PDFUtils.ipp, PDFUtils.cpp.
    double is R, int is Z without overflow. *)
From Coq Require Import String.
From Verif Require Import RBase AList Trig.
Open Scope R_scope.

(** ** Grids: PDFUtils.ipp *)
(** PDFUtils.ipp:87-94 pdfutils_rminSteps(rmin, rstep) *)
Definition rminSteps (rmin rstep : R) : Z :=
  let rv := Rceil (rmin / rstep) in
  if eps_eq rmin (IZR (rv - 1) * rstep) SQRT_DOUBLE_EPS then (rv - 1)%Z else rv.
(** PDFUtils.ipp:107-112 pdfutils_rmaxSteps(rmax, rstep) *)
Definition rmaxSteps (rmax rstep : R) : Z := Rceil (rmax / rstep).
(** PDFUtils.ipp:40-48 pdfutils_qminSteps(qmin, qstep) *)
Definition qminSteps (qmin qstep : R) : Z :=
  if Rleb qstep 0 then 0%Z else
  let rv := Rceil (qmin / qstep) in
  if eps_eq qmin (IZR (rv - 1) * qstep) SQRT_DOUBLE_EPS then (rv - 1)%Z else rv.
(** the loop "for (int ndr = a; ndr < b; ++ndr) rv.push_back(ndr * dr)" of PDFUtils.ipp:79-82 and
    PDFCalculator.cpp:244-247 *)
Definition grid (a b : Z) (dr : R) : list R := map (fun n => IZR n * dr) (zrange a b).

(** ** Parts of the calculator *)
(** PeakProfile: xboundlo(fwhm), xboundhi(fwhm) and operator()(x, fwhm) *)
Record profile := { xboundlo : R -> R; xboundhi : R -> R; pkf : R -> R -> R }.
(** What PDFCalculator reads from a structure and the objects it owns: countSites, siteAtomType, siteOccupancy,
    siteMultiplicity, numberDensity of the adapter and maxWidth(stru, rmin, rmax) of the peak width model. *)
Record pstru := { p_n : nat; p_type : nat -> string; p_occ : nat -> R; p_mult : nat -> nat; p_numdens : R;
                  p_maxwidth : R -> R -> R; p_empty : bool (* == emptyStructureAdapter() *) }.
(** baseline: the class "linear" with its slope (LinearBaseline.cpp:60-63), or any other function of r *)
Inductive baseline := Linear (slope : R) | OtherBaseline (f : R -> R).
Definition baseline_at (b : baseline) (r : R) : R := match b with Linear s => s * r | OtherBaseline f => f r end.
(** mathutils.hpp:32 DOUBLE_MAX *)
Definition DOUBLE_MAX : R := IZR (2 ^ 1024 - 2 ^ 971).

(** PDFCalculator.hpp:157-168 and PairQuantity.hpp: the user's settings *)
Record conf := {
  c_rmin : R; c_rmax : R; c_rstep : R; c_qmin : R; c_qmax : R (* mqmax *); c_maxext : R;
  c_pk : profile; c_sftable : string -> R; c_env : list (R -> R) (* envelopes in map order *);
  c_dflt : bool; c_inv : list (Z * Z) (* mdefaultpairmask, minvertpairmask *) }.
(** PDFCalculator.hpp:163-168 mstructure_cache *)
Record scache := { sfsite : list R; sfaverage : R; totocc : R; actocc : R }.
(** PDFCalculator.hpp:169-174 mrlimits_cache *)
Record rlims := { extmin : Z; extmax : Z; calclo : Z; calchi : Z }.
Record pdfc := { cf : conf; str : pstru; sc : scache; lim : rlims; base : baseline;
                 mvalue : list R; stashed : list R * Z }.

(** PDFCalculator.cpp:285-290 getQmax *)
Definition getQmax (c : conf) : R := Rmin (c_qmax c) (PI / c_rstep c).
(** PDFCalculator.cpp:579-590 extFromTerminationRipples *)
Definition extFromTerminationRipples (c : conf) : R :=
  let qmax := getQmax c in
  if eps_gt qmax 0 SQRT_DOUBLE_EPS && eps_lt qmax (PI / c_rstep c) SQRT_DOUBLE_EPS then 6 * 2 * PI / qmax else 0.
(** PDFCalculator.cpp:593-604 extFromPeakTails *)
Definition extFromPeakTails (c : conf) (s : pstru) : R :=
  let maxfwhm := p_maxwidth s (c_rmin c) (c_rmax c) in
  Rmax (Rabs (xboundlo (c_pk c) maxfwhm)) (Rabs (xboundhi (c_pk c) maxfwhm)).
(** PDFCalculator.cpp:728-754 cacheRlimitsData *)
Definition cacheRlimitsData (c : conf) (s : pstru) : rlims :=
  if (rmaxSteps (c_rmax c) (c_rstep c) <=? rminSteps (c_rmin c) (c_rstep c))%Z
  then {| extmin := 0; extmax := 0; calclo := 0; calchi := 0 |}
  else
    let ext_ripples := extFromTerminationRipples c in
    let ext_pktails := extFromPeakTails c s in
    let ext_total := ext_ripples + ext_pktails in
    let '(ext_ripples, ext_total) :=
      if Rltb (c_maxext c) ext_total then (ext_ripples * (c_maxext c / ext_total), c_maxext c)
      else (ext_ripples, ext_total) in
    {| extmin := Z.max 0 (rminSteps (c_rmin c - ext_ripples) (c_rstep c));
       extmax := rmaxSteps (c_rmax c + ext_ripples) (c_rstep c);
       calclo := Z.max 0 (rminSteps (c_rmin c - ext_total) (c_rstep c));
       calchi := rmaxSteps (c_rmax c + ext_total) (c_rstep c) |}.

(** StructureAdapter.cpp:36-45 totalOccupancy *)
Definition totalOccupancy (s : pstru) : R :=
  fold_left (fun t i => t + p_occ s i * INR (p_mult s i)) (seq 0 (p_n s)) 0.
(** PDFCalculator.cpp:680-697 the sfsite loop with its per-type cache *)
Definition sfsites (c : conf) (s : pstru) : list R :=
  snd (fold_left (fun '(fcache, rv) i =>
    let smbl := p_type s i in
    let '(fcache, f) := match afind string_dec smbl fcache with
                        | Some v => (fcache, v)
                        | None => let v := c_sftable c smbl in (aset string_dec smbl v fcache, v)
                        end in
    (fcache, rv ++ [f * p_occ s i])) (seq 0 (p_n s)) ([], [])).
(** PDFCalculator.cpp:709-721 the sum over the inverted pairs *)
Definition invmask_sum (c : conf) (s : pstru) : R :=
  fold_left (fun t '(i, j) =>
    if ((i <? 0) || (Z.of_nat (p_n s) <=? i) || (j <? 0) || (Z.of_nat (p_n s) <=? j))%Z then t
    else t + (if (i =? j)%Z then 1 else 2) *
             p_occ s (Z.to_nat i) * INR (p_mult s (Z.to_nat i)) *
             p_occ s (Z.to_nat j) * INR (p_mult s (Z.to_nat j))) (c_inv c) 0.
(** PDFCalculator.cpp:680-725 cacheStructureData *)
Definition cacheStructureData (c : conf) (s : pstru) : scache :=
  let sf := sfsites c s in
  let tot := totalOccupancy s in
  let totsf := fold_left (fun t i => t + nth i sf 0 * INR (p_mult s i)) (seq 0 (p_n s)) 0 in
  let inv := invmask_sum c s in
  let inv := if Rltb 0 tot then inv / tot else inv in
  {| sfsite := sf; sfaverage := if Reqb tot 0 then 0 else totsf / tot; totocc := tot;
     actocc := if c_dflt c then tot - inv else inv |}.

(** PDFCalculator.cpp:639-644 countCalcPoints, 631-636 countExtendedPoints *)
Definition countCalcPoints (l : rlims) : Z := (calchi l - calclo l)%Z.
(** PDFCalculator.cpp:486-503 resetValue; the resize followed by fill leaves zeros everywhere *)
Definition resetValue (x : pdfc) : pdfc :=
  let sc' := cacheStructureData (cf x) (str x) in
  let l := cacheRlimitsData (cf x) (str x) in
  {| cf := cf x; str := str x; sc := sc'; lim := l;
     base := match base x with
             | Linear _ => Linear (-4 * PI * ((if Reqb 0 (totocc sc') then 0 else actocc sc' / totocc sc') * p_numdens (str x)))
             | b => b
             end;
     mvalue := repeat 0 (Z.to_nat (countCalcPoints l)); stashed := stashed x |}.
(** PairQuantity.cpp:69-75 setStructure; masks and customPQConfig are in Masks.v and Evaluator.v *)
Definition setStructure (s : pstru) (x : pdfc) : pdfc :=
  resetValue {| cf := cf x; str := s; sc := sc x; lim := lim x; base := base x; mvalue := mvalue x; stashed := stashed x |}.

(** A bond as the calculator sees it: site0(), site1(), multiplicity(), distance() of the generator and
    the width calculate(bnds) of the peak width model. *)
Record pbond := { b_s0 : nat; b_s1 : nat; b_mult : R; b_dist : R; b_fwhm : R }.
Definition sfSite (x : pdfc) (i : nat) : R := nth i (sfsite (sc x)) 0.
(** PDFCalculator.cpp:647-651 calcIndex *)
Definition calcIndex (x : pdfc) (r : R) : Z := (Rfloor (r / c_rstep (cf x)) - calclo (lim x))%Z.
(** [v[i] += y] at a valid index, anything else is undefined behaviour *)
Definition addat (v : list R) (i : Z) (y : R) : outcome (list R) :=
  if ((0 <=? i) && (i <? Z.of_nat (length v)))%Z then Ok (upd (Z.to_nat i) (nth (Z.to_nat i) v 0 + y) v) else UB.
(** PDFCalculator.cpp:513-537 addPairContribution *)
Definition addPairContribution (x : pdfc) (b : pbond) (summationscale : Z) : outcome (list R) :=
  let sfprod := sfSite x (b_s0 b) * sfSite x (b_s1 b) in
  let peakscale := sfprod * b_mult b * IZR summationscale in
  let fwhm := b_fwhm b in
  let pk := c_pk (cf x) in
  let dist := b_dist b in
  let xlo := dist + xboundlo pk fwhm in
  let xhi := dist + xboundhi pk fwhm in
  let i := Z.max 0 (calcIndex x xlo) in
  let ilast := Z.min (countCalcPoints (lim x)) (calcIndex x xhi + 1) in
  fold_left (fun r i =>
    match r with
    | Ok v =>
        let x' := IZR (calclo (lim x) + i) * c_rstep (cf x) - dist in
        let y := pkf pk x' fwhm in
        let yrdf := y * (x' / dist + 1) in
        addat v i (peakscale * yrdf)
    | r => r
    end) (zrange i ilast) (Ok (mvalue x)).

Definition with_value (x : pdfc) (v : list R) : pdfc :=
  {| cf := cf x; str := str x; sc := sc x; lim := lim x; base := base x; mvalue := v; stashed := stashed x |}.
(** a sequence of addPairContribution calls, see Evaluator.v for which they are *)
Definition addPairs (x : pdfc) (t : list (pbond * Z)) : outcome pdfc :=
  fold_left (fun r e => match r with
                        | Ok y => match addPairContribution y (fst e) (snd e) with
                                  | Ok v => Ok (with_value y v) | Throw er v => Throw er (with_value y v) | UB => UB end
                        | r => r end) t (Ok x).

(** PDFCalculator.cpp:506-510 configureBondGenerator with 567-576 rcalclo, rcalchi: the limits of the bond generator *)
Definition bondLimits (x : pdfc) : R * R :=
  (IZR (calclo (lim x)) * c_rstep (cf x), IZR (calchi (lim x)) * c_rstep (cf x)).
(** PDFCalculator.cpp:540-544 stashPartialValue *)
Definition stashPartialValue (x : pdfc) : pdfc :=
  {| cf := cf x; str := str x; sc := sc x; lim := lim x; base := base x; mvalue := mvalue x;
     stashed := (mvalue x, calclo (lim x)) |}.
(** PDFCalculator.cpp:559 the copy loop from si to ti *)
Fixpoint copy_loop (src dst : list R) : list R :=
  match src, dst with s :: src', _ :: dst' => s :: copy_loop src' dst' | _, _ => dst end.
(** PDFCalculator.cpp:547-561 restorePartialValue *)
Definition restorePartialValue (x : pdfc) : pdfc :=
  let '(sv, slo) := stashed x in
  let leftshift := (calclo (lim x) - slo)%Z in
  let sz := Z.of_nat (length sv) in
  let v := if (0 <=? leftshift)%Z
           then copy_loop (skipn (Z.to_nat (Z.min leftshift sz)) sv) (mvalue x)
           else let n := Z.to_nat (Z.min (- leftshift) (Z.of_nat (length (mvalue x)))) in
                firstn n (mvalue x) ++ copy_loop sv (skipn n (mvalue x)) in
  {| cf := cf x; str := str x; sc := sc x; lim := lim x; base := base x; mvalue := v; stashed := ([], slo) |}.

(** ** Results *)
(** iterators begin + i and begin + j of a vector as a range; outside the vector undefined *)
Definition range (v : list R) (i j : Z) : outcome (list R) :=
  if ((0 <=? i) && (i <=? j) && (j <=? Z.of_nat (length v)))%Z
  then Ok (firstn (Z.to_nat (j - i)) (skipn (Z.to_nat i) v)) else UB.
Definition bind {A B} (o : outcome A) (f : A -> outcome B) : outcome B :=
  match o with Ok a => f a | Throw _ _ => UB | UB => UB end.
(** the result functions below never throw; [Throw] does not occur *)

(** PDFCalculator.cpp:654-664 cutRipplePoints: erases ncuthi points at the end, then ncutlo at the beginning *)
Definition cutRipplePoints (x : pdfc) (y : list R) : outcome (list R) :=
  match y with
  | [] => Ok []
  | _ =>
    let ncutlo := (rminSteps (c_rmin (cf x)) (c_rstep (cf x)) - extmin (lim x))%Z in
    let ncuthi := (extmax (lim x) - rmaxSteps (c_rmax (cf x)) (c_rstep (cf x)))%Z in
    if (ncuthi <? 0)%Z then UB else
    bind (range y 0 (Z.of_nat (length y) - ncuthi)) (fun y1 =>
    if (ncutlo <? 0)%Z then UB else range y1 ncutlo (Z.of_nat (length y1)))
  end.
(** PDFCalculator.cpp:187-208 getExtendedRDF *)
Definition getExtendedRDF (x : pdfc) : outcome (list R) :=
  let tot := totocc (sc x) in
  let sfavg := sfaverage (sc x) in
  let rdf_scale := if Reqb (tot * sfavg) 0 then 0 else 1 / (tot * sfavg * sfavg) in
  bind (range (mvalue x) (extmin (lim x) - calclo (lim x)) (extmax (lim x) - calclo (lim x)))
       (fun v => Ok (map (fun y => y * rdf_scale) v)).
(** PDFCalculator.cpp:239-251 getExtendedRgrid *)
Definition getExtendedRgrid (x : pdfc) : list R := grid (extmin (lim x)) (extmax (lim x)) (c_rstep (cf x)).
(** PDFCalculator.cpp:305-308 and PDFUtils.ipp:71-84 getRgrid *)
Definition getRgrid (x : pdfc) : list R :=
  grid (rminSteps (c_rmin (cf x)) (c_rstep (cf x))) (rmaxSteps (c_rmax (cf x)) (c_rstep (cf x))) (c_rstep (cf x)).
(** loops over two vectors in parallel, x driving: reading y past its end is undefined *)
Fixpoint map2 (f : R -> R -> R) (xs ys : list R) : outcome (list R) :=
  match xs, ys with
  | [], _ => Ok ys
  | x :: xs', y :: ys' => bind (map2 f xs' ys') (fun r => Ok (f x y :: r))
  | _ :: _, [] => UB
  end.
(** PDFCalculator.cpp:211-223 getExtendedRDFperR *)
Definition getExtendedRDFperR (x : pdfc) : outcome (list R) :=
  bind (getExtendedRDF x) (fun rdf =>
  map2 (fun r y => if eps_gt r 0 SQRT_DOUBLE_EPS then y / r else 0) (getExtendedRgrid x) rdf).
(** PDFCalculator.cpp:405-418 applyBaseline *)
Definition applyBaseline (x : pdfc) (xs ys : list R) : outcome (list R) :=
  map2 (fun r y => y + baseline_at (base x) r) xs ys.
(** PDFEnvelope.cpp:42-59 applyEnvelopes *)
Definition applyEnvelopes (x : pdfc) (xs ys : list R) : outcome (list R) :=
  fold_left (fun o f => bind o (map2 (fun r z => z * f r) xs)) (c_env (cf x)) (Ok ys).

(** 1 << int(ceil(log2(n))) of PDFUtils.cpp:51 and PDFCalculator.cpp:298, for n >= 1 *)
Definition padded (n : Z) : Z := (2 ^ Rceil (ln (IZR n) / ln 2))%Z.
(** PDFCalculator.cpp:293-301 getQstep *)
Definition getQstep (x : pdfc) : R :=
  let Npad1 := extmax (lim x) in
  let Npad2 := if (0 <? Npad1)%Z then padded Npad1 else 0%Z in
  if (0 <? Npad2)%Z then PI / (IZR Npad2 * c_rstep (cf x)) else 0.
(** PDFUtils.ipp:61-68 pdfutils_qmaxSteps *)
Definition qmaxSteps (x : pdfc) : Z :=
  let dq := getQstep x in if Rleb dq 0 then 0%Z else Rceil (getQmax (cf x) / dq).
(** PDFUtils.ipp:28-37, PDFCalculator.cpp:255-258 getQgrid *)
Definition getQgrid (x : pdfc) : list R := grid 0 (qmaxSteps x) (getQstep x).

(** gsl_fft_complex_radix2_inverse(data, 1, n) of GSL on n complex numbers, the sum in its documentation; it
    fails unless n is a power of two. *)
Definition csum (f : nat -> R) (n : nat) : R := fold_left (fun s k => s + f k) (seq 0 n) 0.
Definition is_pow2 (n : Z) : bool := (0 <? n)%Z && (n =? 2 ^ Z.log2 n)%Z.
Definition gsl_inverse (d : nat -> R) (n : nat) : option (nat -> R) :=
  if is_pow2 (Z.of_nat n) then
    Some (fun a =>
      let j := (a / 2)%nat in
      let arg k := 2 * PI * INR j * INR k / INR n in
      if Nat.even a
      then csum (fun k => d (2 * k)%nat * cos (arg k) - d (2 * k + 1)%nat * sin (arg k)) n / INR n
      else csum (fun k => d (2 * k)%nat * sin (arg k) + d (2 * k + 1)%nat * cos (arg k)) n / INR n)
  else None.
Definition fset (d : nat -> R) (i : nat) (x : R) : nat -> R := fun a => if (a =? i)%nat then x else d a.
(** round() of a non-negative double *)
Definition cround (x : R) : Z := Rfloor (x + / 2).
(** PDFUtils.cpp:45-84 fftgtof; the array gpadc is a function of its index *)
Definition fftgtof (g : list R) (rstep rmin : R) : outcome (list R) :=
  match g with
  | [] => Ok []
  | _ =>
    let padrmin := cround (rmin / rstep) in
    let Npad1 := (padrmin + Z.of_nat (length g))%Z in
    let Npad2 := padded Npad1 in
    let n := Z.to_nat Npad2 in
    let gpadc := fun _ : nat => 0 in
    let gpadc := fold_left (fun a k => fset a (2 * (Z.to_nat padrmin + k)) (nth k g 0)) (seq 0 (length g)) gpadc in
    let gpadc := fold_left (fun a ilo => fset a (2 * (2 * n - ilo)) (-1 * a (2 * ilo)%nat)) (seq 1 (n - 1)) gpadc in
    match gsl_inverse gpadc (2 * n) with
    | None => Throw InvalidArgument []
    | Some z => Ok (map (fun i => z (2 * i + 1)%nat * IZR Npad2 * rstep) (seq 0 n))
    end
  end.
(** PDFUtils.cpp:87-94 fftftog *)
Definition fftftog (f : list R) (qstep qmin : R) : outcome (list R) :=
  bind (fftgtof f qstep qmin) (fun g => Ok (map (fun y => y * (2 / PI)) g)).

(** PDFCalculator.cpp:226-236 getExtendedF *)
Definition getExtendedF (x : pdfc) : outcome (list R) :=
  bind (getExtendedRDFperR x) (fun rdfperr =>
  bind (applyBaseline x (getExtendedRgrid x) rdfperr) (fun rdfperr1 =>
  fftgtof rdfperr1 (c_rstep (cf x)) (IZR (extmin (lim x)) * c_rstep (cf x)))).
(** PDFCalculator.cpp:142-148 getF *)
Definition getF (x : pdfc) : outcome (list R) := bind (getExtendedF x) (fun f => range f 0 (qmaxSteps x)).
(** fill(begin + i, begin + j, 0.0) *)
Definition fill0 (f : list R) (i j : Z) : outcome (list R) :=
  bind (range f i j) (fun _ =>
  Ok (firstn (Z.to_nat i) f ++ repeat 0 (Z.to_nat (j - i)) ++ skipn (Z.to_nat j) f)).
(** PDFCalculator.cpp:156-158 skipfft *)
Definition skipfft (x : pdfc) : bool :=
  negb (eps_lt (getQmax (cf x)) (PI / c_rstep (cf x)) SQRT_DOUBLE_EPS) &&
  negb (1 <? qminSteps (c_qmin (cf x)) (getQstep x))%Z.
(** PDFCalculator.cpp:151-184 getExtendedPDF *)
Definition getExtendedPDF (x : pdfc) : outcome (list R) :=
  let rgrid_ext := getExtendedRgrid x in
  if skipfft x then
    bind (getExtendedRDFperR x) (fun rdfpr =>
    bind (applyBaseline x rgrid_ext rdfpr) (applyEnvelopes x rgrid_ext))
  else
    bind (getExtendedF x) (fun f_ext =>
    bind (fill0 f_ext 0 (Z.min (qminSteps (c_qmin (cf x)) (getQstep x)) (Z.of_nat (length f_ext)))) (fun f_ext =>
    bind (fill0 f_ext (qmaxSteps x) (Z.of_nat (length f_ext))) (fun f_ext =>
    bind (fftftog f_ext (getQstep x) 0) (fun pdf1 =>
    bind (range pdf1 0 (extmax (lim x))) (fun pdf1 =>
    bind (range pdf1 (extmin (lim x)) (Z.of_nat (length pdf1))) (fun pdf1 =>
    applyEnvelopes x rgrid_ext pdf1)))))).
(** PDFCalculator.cpp:118-139 getPDF, getRDF, getRDFperR *)
Definition getPDF (x : pdfc) : outcome (list R) := bind (getExtendedPDF x) (cutRipplePoints x).
Definition getRDF (x : pdfc) : outcome (list R) := bind (getExtendedRDF x) (cutRipplePoints x).
Definition getRDFperR (x : pdfc) : outcome (list R) := bind (getExtendedRDFperR x) (cutRipplePoints x).

(** ** Configuration *)
Definition set_conf (x : pdfc) (c : conf) : pdfc :=
  {| cf := c; str := str x; sc := sc x; lim := lim x; base := base x; mvalue := mvalue x; stashed := stashed x |}.
(** PDFCalculator.cpp:43-53 the cheap update while the structure is still the initial empty one *)
Definition initialUpdate (x : pdfc) : pdfc := if p_empty (str x) then resetValue x else x.
Definition upd_conf (c : conf) (rmin rmax rstep qmin qmax maxext : R) : conf :=
  {| c_rmin := rmin; c_rmax := rmax; c_rstep := rstep; c_qmin := qmin; c_qmax := qmax; c_maxext := maxext;
     c_pk := c_pk c; c_sftable := c_sftable c; c_env := c_env c; c_dflt := c_dflt c; c_inv := c_inv c |}.
(** PDFCalculator.cpp:312-316 setRmin *)
Definition setRmin (r : R) (x : pdfc) : outcome pdfc :=
  if Rltb r 0 then Throw InvalidArgument x else
  let c := cf x in Ok (set_conf x (upd_conf c r (c_rmax c) (c_rstep c) (c_qmin c) (c_qmax c) (c_maxext c))).
(** PDFCalculator.cpp:319-324 setRmax *)
Definition setRmax (r : R) (x : pdfc) : outcome pdfc :=
  if Rltb r 0 then Throw InvalidArgument x else
  let c := cf x in
  Ok (initialUpdate (set_conf x (upd_conf c (c_rmin c) r (c_rstep c) (c_qmin c) (c_qmax c) (c_maxext c)))).
(** PDFCalculator.cpp:327-333 setRstep *)
Definition setRstep (r : R) (x : pdfc) : outcome pdfc :=
  if negb (eps_gt r 0 SQRT_DOUBLE_EPS) then Throw InvalidArgument x else
  let c := cf x in
  Ok (initialUpdate (set_conf x (upd_conf c (c_rmin c) (c_rmax c) r (c_qmin c) (c_qmax c) (c_maxext c)))).
(** PDFCalculator.cpp:262-266 setQmin *)
Definition setQmin (q : R) (x : pdfc) : outcome pdfc :=
  if Rltb q 0 then Throw InvalidArgument x else
  let c := cf x in Ok (set_conf x (upd_conf c (c_rmin c) (c_rmax c) (c_rstep c) q (c_qmax c) (c_maxext c))).
(** PDFCalculator.cpp:275-282 setQmax *)
Definition setQmax (q : R) (x : pdfc) : outcome pdfc :=
  if Rltb q 0 then Throw InvalidArgument x else
  let q1 := if Rltb 0 q then q else DOUBLE_MAX in
  let c := cf x in
  Ok (initialUpdate (set_conf x (upd_conf c (c_rmin c) (c_rmax c) (c_rstep c) (c_qmin c) q1 (c_maxext c)))).
(** PDFCalculator.cpp:342-347 setMaxExtension *)
Definition setMaxExtension (m : R) (x : pdfc) : outcome pdfc :=
  if Rltb m 0 then Throw InvalidArgument x else
  let c := cf x in Ok (set_conf x (upd_conf c (c_rmin c) (c_rmax c) (c_rstep c) (c_qmin c) (c_qmax c) m)).
(** the other setters replace an object: peak profile, scattering factor table, envelopes, masks, baseline *)
Definition setObjects (pk : profile) (sf : string -> R) (env : list (R -> R)) (d : bool) (inv : list (Z * Z))
    (b : baseline) (x : pdfc) : pdfc :=
  let c := cf x in
  {| cf := {| c_rmin := c_rmin c; c_rmax := c_rmax c; c_rstep := c_rstep c; c_qmin := c_qmin c; c_qmax := c_qmax c;
              c_maxext := c_maxext c; c_pk := pk; c_sftable := sf; c_env := env; c_dflt := d; c_inv := inv |};
     str := str x; sc := sc x; lim := lim x; base := b; mvalue := mvalue x; stashed := stashed x |}.
(** PDFCalculator.cpp:59-99 constructor: rmin 0 (PairQuantity.cpp:39-51), rmax 10, rstep 0.01, qmin 0, no qmax *)
Definition newPDF (pk : profile) (sf : string -> R) (env : list (R -> R)) (e : pstru) : pdfc :=
  setStructure e
    {| cf := {| c_rmin := 0; c_rmax := 10; c_rstep := 1 / 100; c_qmin := 0; c_qmax := DOUBLE_MAX; c_maxext := 10;
                c_pk := pk; c_sftable := sf; c_env := env; c_dflt := true; c_inv := [] |};
       str := e; sc := {| sfsite := []; sfaverage := 0; totocc := 0; actocc := 0 |};
       lim := {| extmin := 0; extmax := 0; calclo := 0; calchi := 0 |}; base := Linear 0; mvalue := [];
       stashed := ([], 0%Z) |}.

(** ** A user's operations; a throwing call leaves the calculator as it was.
    [PEval s t]: eval(s) by the BASIC evaluator, the calls of addPairContribution being t (Evaluator.v says which
    they are); [PFast t0 s t1]: a fast update by the OPTIMIZED one (PQEvaluator.cpp:197-297), t0 the removed
    contributions and t1 the added ones. *)
Inductive pop :=
| PRmin (r : R) | PRmax (r : R) | PRstep (r : R) | PQmin (q : R) | PQmax (q : R) | PMaxExt (m : R)
| PObjects (pk : profile) (sf : string -> R) (env : list (R -> R)) (d : bool) (inv : list (Z * Z)) (b : baseline)
| PSetStructure (s : pstru)
| PEval (s : pstru) (t : list (pbond * Z))
| PFast (t0 : list (pbond * Z)) (s : pstru) (t1 : list (pbond * Z)).
Definition fastUpdate (t0 : list (pbond * Z)) (s : pstru) (t1 : list (pbond * Z)) (x : pdfc) : outcome pdfc :=
  bind (addPairs x t0) (fun x =>
  addPairs (restorePartialValue (setStructure s (stashPartialValue x))) t1).
Definition pstep (o : pop) (x : pdfc) : outcome pdfc :=
  match o with
  | PRmin r => setRmin r x
  | PRmax r => setRmax r x
  | PRstep r => setRstep r x
  | PQmin q => setQmin q x
  | PQmax q => setQmax q x
  | PMaxExt m => setMaxExtension m x
  | PObjects pk sf env d inv b => Ok (setObjects pk sf env d inv b x)
  | PSetStructure s => Ok (setStructure s x)
  | PEval s t => addPairs (setStructure s x) t
  | PFast t0 s t1 => fastUpdate t0 s t1 x
  end.
Definition prun (ops : list pop) (x : pdfc) : outcome pdfc :=
  fold_left (fun r o => match r with Ok y => match pstep o y with Throw _ z => Ok z | r => r end | r => r end) ops (Ok x).
