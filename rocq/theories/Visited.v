(** The pairs that PDFCalculator and DebyePDFCalculator visit on a structure: PQEvaluatorBasic (Evaluator.v) with the bond
    generators of BondGen.v and the peak width models of PeakWidth.v, and the two calculators evaluated this way.
    Source: src/diffpy/srreal/PQEvaluator.cpp, PDFCalculator.cpp, BaseDebyeSum.cpp, BaseBondGenerator.cpp. *)
From Coq Require Import String.
From Verif Require Import RBase R3 Lattice Crystal StructDiff StructDiffSpec Evaluator PeakWidth PdfGrid Debye BondGen World.
Import ListNotations.
Open Scope R_scope.
Notation length := List.length.

(** siteMultiplicity: StructureAdapter.cpp:61-64, CrystalStructureAdapter.cpp:70-75, NoMetaStructureAdapter.cpp:90-93;
    NoSymmetryStructureAdapter reuses StructureAdapter's. Site indices are in range. *)
Fixpoint siteMultiplicity (x : adp) (i : nat) : nat :=
  match x with
  | Adp _ b =>
      match b with
      | StructDiff.Crystal L p ops l => length (nth i (x_sym (updateSymmetryPositions (mkCr l L ops p [] false))) [])
      | NoMeta s => siteMultiplicity s i
      | _ => 1%nat
      end
  end.
(** siteAtomType, siteOccupancy, siteAnisotropy, siteCartesianUij: AtomicStructureAdapter.cpp:121-154, NoMetaStructureAdapter.cpp:77-111,
    NoSymmetryStructureAdapter.cpp:80-108 *)
Definition siteAtom (x : adp) (i : nat) : catom := nth i (atoms_of x) catom0.
(** StructureAdapter.cpp:36-45 totalOccupancy *)
Definition totalOccupancy (x : adp) : R :=
  fold_left (fun t i => t + c_occ (siteAtom x i) * INR (siteMultiplicity x i)) (seq 0 (countSites x)) 0.
(** numberDensity: StructureAdapter.cpp:48-51, PeriodicStructureAdapter.cpp:55-60 (also for crystals),
    NoMetaStructureAdapter.cpp:71-74, NoSymmetryStructureAdapter.cpp:74-77 *)
Fixpoint numberDensity (x : adp) : R :=
  match x with
  | Adp _ b =>
      match b with
      | Periodic L _ | StructDiff.Crystal L _ _ _ => totalOccupancy x / volume L
      | NoMeta s => numberDensity s
      | _ => 0
      end
  end.

(** PeakWidthModel: the three classes of the library *)
Inductive pwmodel := PWConstant (c : constw) | PWDebyeWaller | PWJeong (j : jeong).
(** ConstantPeakWidth.cpp:98-102, DebyeWallerPeakWidth.cpp:53-59, JeongPeakWidth.cpp:68-77 calculate *)
Definition pw_calculate (w : pwmodel) (b : ubond) : R :=
  match w with PWConstant c => cw_calculate c b | PWDebyeWaller => dw_calculate b | PWJeong j => jeong_calculate j b end.
(** ConstantPeakWidth.cpp:105-108, DebyeWallerPeakWidth.cpp:62-69, JeongPeakWidth.cpp:80-90 maxWidth *)
Definition pw_maxWidth (w : pwmodel) (x : adp) (rmin rmax : R) : R :=
  let s := Some (map (fun a => mkUS (c_uij a) (c_anis a)) (atoms_of x)) in
  match w with PWConstant c => cw_maxWidth c s rmin rmax | PWDebyeWaller => dw_maxWidth s rmin rmax | PWJeong j => jeong_maxWidth j s rmin rmax end.

(** BaseBondGenerator.cpp:186-208: what the width models read from the generator at bond [b] *)
Definition ubond_at (x : adp) (b : bond) : ubond :=
  mkUB (BondGen.b_r01 b) (c_uij (siteAtom x (b_site0 b))) (c_anis (siteAtom x (b_site0 b))) (b_u1 b) (c_anis (siteAtom x (b_site1 b))).
(** what addPairContribution reads: site0(), site1(), BaseBondGenerator.cpp:156-159 multiplicity(), distance(), the width *)
Definition pbond_at (w : pwmodel) (x : adp) (b : bond) : pbond :=
  {| b_s0 := b_site0 b; b_s1 := b_site1 b; b_mult := INR (siteMultiplicity x (b_site0 b)); PdfGrid.b_dist := b_distance b;
     b_fwhm := pw_calculate w (ubond_at x b) |}.
(** PQEvaluator.cpp:96-128 with the limits that configureBondGenerator passes: bonds and scales in their order. [masked]:
    hasMask(); values are not looked at here. *)
Definition loop_calc (lo hi : R) (masked : bool) (mask : nat -> nat -> bool) : calc adp unit bond unit :=
  {| zero := tt; add := fun _ _ => tt; Evaluator.nsites := countSites; Evaluator.gen := fun _ x i sel => shown x lo hi i sel;
     Evaluator.site1 := b_site1; hasmask := fun _ => masked; haspairmask := fun _ => masked; Evaluator.mask := fun _ _ i j => mask i j;
     contrib := fun _ _ _ _ => tt; custom := fun _ c => (c, false); sdif := fun _ _ => {| pop0 := []; add1 := []; diffmethod := NONE |}; outer_ok := fun _ _ => true;
     has_stash := true; restash := fun v => v; finish := fun _ v => v |}.
Definition visited (w : pwmodel) (masked : bool) (mask : nat -> nat -> bool) (full : bool) (lo hi : R) (x : adp) : list (pbond * Z) :=
  map (fun e => (pbond_at w x (fst e), snd e)) (basic_trace (loop_calc lo hi masked mask) tt x full 0 1).

(** DebyePDFCalculator on a structure. maxWidth of the width model in use is [k_mw] of the settings. *)
Definition debye_view (x : adp) : dstru :=
  {| d_n := countSites x; d_type := fun i => c_type (siteAtom x i); d_occ := fun i => c_occ (siteAtom x i); d_mult := siteMultiplicity x |}.
(** PairQuantity.cpp:61-66 eval(stru), PQEvaluator.cpp:96-128, DebyePDFCalculator.cpp:274-278: the limits are those after
    setStructure *)
Definition debye_eval (w : pwmodel) (masked : bool) (mask : nat -> nat -> bool) (full : bool) (x : adp) (d : deb) : outcome deb :=
  andthen (Debye.setStructure (debye_view x) d) (fun y =>
  Debye.addPairs y (visited w masked mask full (fst (Debye.bondLimits y)) (snd (Debye.bondLimits y)) x)).

(** PDFCalculator on a structure *)
Definition is_empty (x : adp) : bool := match x with Adp _ Empty => true | _ => false end.
Definition pdf_view (w : pwmodel) (x : adp) : pstru :=
  {| p_n := countSites x; p_type := fun i => c_type (siteAtom x i); p_occ := fun i => c_occ (siteAtom x i); p_mult := siteMultiplicity x;
     p_numdens := numberDensity x; p_maxwidth := pw_maxWidth w x; p_empty := is_empty x |}.
(** PairQuantity.cpp:61-66 eval(stru), PQEvaluator.cpp:96-128, PDFCalculator.cpp:506-510 *)
Definition pdf_eval (w : pwmodel) (masked : bool) (mask : nat -> nat -> bool) (full : bool) (x : adp) (c : pdfc) : outcome pdfc :=
  let y := PdfGrid.setStructure (pdf_view w x) c in
  PdfGrid.addPairs y (visited w masked mask full (fst (PdfGrid.bondLimits y)) (snd (PdfGrid.bondLimits y)) x).
