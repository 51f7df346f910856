# Formal model of diffpy/libdiffpy in Rocq (Coq 8.16.1)

Sources are read as text from `/repo` (C++); nothing is generated or extracted. The development is in
`rocq/theories` (logical name `Verif`), the list of claims in `properties.jsonl`, their status in `MANIFEST.json`,
the log of edits against wrong programs in `seeded/LOG.jsonl`.

## 1. Layout

For each group of sources `X`:

* `X.v` - the model: executable Gallina, function by function; every definition cites the file and lines in `/repo`
  (`src/diffpy/` or `src/diffpy/srreal/`) and says what it simplifies.
* `XSpec.v` - a small specification, written without the helpers of the model where the claim allows it.
* `XProofs.v`, `XMain.v`, ... - lemmas; `XExample.v` - concrete cases.
* `XProps.v` - the theorems named `Cnn_*` of the claims, `Print Assumptions` after each, and an `Example Cnn_nonvacuous`
  that meets the hypotheses of the theorem with concrete, non-trivial data.

`_refuted`: the claim as a user would state it is false of the code; the theorem is its negation with a concrete
witness. `_partial`: the strongest correct statement found next to it. A claim with status `proved` may have a `_refuted`
theorem too, when it shows that a hypothesis of the claim is necessary.

`tools/manifest.py` regenerates `MANIFEST.json`, `tools/cites.py` prints the cited source line of each citation,
`tools/mutate.py` applies an edit to a scratch copy of the model and reports the theorems that no longer hold.

## 2. Trusted base

* Coq's kernel (8.16.1) and the standard library. Coquelicot is used in `PeaksArea.v` only (the Gaussian integral) and
  adds no axioms of its own. Flocq is used in the `Fp*.v` files (the format of doubles and rounding) and adds none either. No plugins, no functors, no axioms of ours.
* `Print Assumptions` of the theorems lists nothing ("Closed under the global context") for the files
  Ticker, Masks, StructDiff, Evaluator, Merge, Registry, Attr, Owners, Copies `Props.v` and for parts of Bvs, Tables,
  Envelopes, Sphere, Wrappers, Persist. All other theorems are about real numbers and list a subset of the standard library's
  axioms for `Reals`:
  `ClassicalDedekindReals.sig_forall_dec`, `ClassicalDedekindReals.sig_not_dec`,
  `FunctionalExtensionality.functional_extensionality_dep`, and, where sqrt, exp, trigonometry or integrals are used,
  `Classical_Prop.classic`.
* That the model says what the code does: read `X.v` beside the cited lines. The conventions below and section 4 list
  everything that is known to differ.

## 3. Conventions

* `double` is Coq's `R` (exact arithmetic). Rounding, overflow, NaN and infinities are not modelled, except that
  `Peaks.v` and `Tables.v` model the NaN and infinities that divisions by zero produce. The tolerances of the code
  (`eps_eq`, `SQRT_DOUBLE_EPS` ...) are modelled as they are written. The files `Fp*.v` model doubles as rounded reals
  (binary64, nearest even, subnormals) for the grids, range limits, tolerances and sums; there overflow, NaN, fused
  multiply-add and x87 extended precision are left out.
* `int` and `size_t` indices are `nat` or `Z` without overflow; `EventTicker` counts in `long` with `UB` at `LONG_MAX`;
  `1 << k` in the FFT padding is not limited.
* A C++ exception is the outcome `Throw e s`, with the state `s` left behind; undefined behaviour is `UB`: a theorem
  that concludes `= Ok ...` also says that neither happens. Asserts are off (release build).
* The iteration order of unordered containers is a parameter, quantified over all permutations, or the property is shown
  not to depend on it.
* Pointers: where sharing matters (registries, envelopes, wrappers, owners, copies) objects live in a store and a pointer is an
  address.
* Parameters of a model (Section variables) are discharged: each theorem quantifies over them. The calculators of
  `Evaluator.v` are an abstract record `calc` with its law `calc_ok`; the instances are `BondCalc.v`, every
  quantity of `World.v` over real structures with the bond generators and structure differences of the model (C85), such as
  `PairCount.v` (C84), and, through their own theorems, `PdfGrid.v`, `Debye.v`, `Bvs.v`, `Overlap.v`.

## 4. What is modelled, what is not

Modelled: EventTicker; PairQuantity (masks, structure, ticker, evaluator choice, parallel setup and merge);
PQEvaluator (BASIC, OPTIMIZED, CHECK); StructureDifference and the diff of all adapters; BaseBondGenerator,
Periodic and Crystal generators; PointsInSphere and the reflection generators; Lattice; R3linalg; mathutils;
AtomicStructureAdapter, PeriodicStructureAdapter, CrystalStructureAdapter, ObjCrystStructureAdapter, NoMeta, NoSymmetry, Empty adapters;
StructureAdapter.cpp helpers; BondCalculator; OverlapCalculator; PDFCalculator, PDFUtils; BaseDebyeSum and DebyePDFCalculator;
BVSCalculator, BVParam, BVParametersTable, AtomUtils; ScatteringFactorTable, AtomRadiiTable; Attributes;
HasClassRegistry; peak profiles, peak width models, envelopes, linear baseline; copies of calculators; the data tables
(scatteringfactordata.cpp, the loader of BVParametersTable, runtimepath.cpp) with the text of three of the four shipped files.

Not modelled: the text format of boost archives (EventTicker's save and load and the calculators' fields are modelled, bytes
are not); ObjCryst++ itself (what its getters return is data of the model of ObjCrystStructureAdapter); the Python layer; timing.

Replaced by their documentation: `gsl_fft_complex_radix2_inverse` (the sum in the GSL manual), `gsl_sf_erf` (its integral),
`std::sort`, `std::merge`, `std::set_difference`, `std::inplace_merge` (their results; the ranges that
BondCalculator passes to set_difference overlap, which the standard leaves open: modelled as libstdc++ does it), istream and
ostream of doubles (parameters).

Notes per part:

* BondCalculator: `acos` of a dot product that rounding pushes above 1 is NaN in the code, not in the model.
* OverlapCalculator: unordered sets of sites are lists.
* BVSCalculator: BASIC evaluator only; a change of the table does not click a ticker.
* PDFCalculator: `maxWidth` and the width of a pair are parameters; `PeakWidth.v` is about them.
* Registry: `create()` gives an object of the same class. Attributes: no instance is visited twice.
* Wrappers: concrete adapters live in a store, wrappers are trees with identities.
* Owners: times are natural numbers (justified by C01, C02); the settings are abstract values with decidable equality.
* Copies: evaluators in a store, calculators point to them.
* Data tables: a file is the list of its lines; what the process sees (variable, directories, files) is an argument of every call;
  `istream >> double` is a parameter. `DataShipped.v` (generated by tools/shipped.py) holds the text of ionlist.dat,
  nsftable.dat and f0_WaasKirf.dat; that they have the specified format is checked by the kernel (`vm_compute` on a verified
  checker).

## 5. Findings (each is a `_refuted` theorem unless said otherwise)

Masks: contradictory wildcard masks are applied in hash order and may change without a click (C05, C07, C08).
Evaluators: OPTIMIZED eval() after setStructure is stale (C14); parallel setup changed after an evaluation (C53); CHECK fails
in parallel and for BondCalculator (C52); a copy shares the evaluator of its original (C76); assignment through the reference
getters is missed by the tickers (C75). Diff across adapter classes (C54).
Geometry: points exactly at Rmin (C19); setLatBase throws after storing (C23); asind returns acos (C49).
BondCalculator: one worker, reused workers (C26). OverlapCalculator: bonds merged after a query are not seen by the neighbour
cache (C28); gradients with partial occupancies (C59) and in crystals with symmetry operations (C91); coordinationByTypes after save and load (C60).
PairCounter in crystals with symmetry operations: 1 or 3/2 instead of 2 pairs (C84).
PDF: lowering rmin without an eval erases out of range, Q-steps below 2^-26 (C33); pairs within one rstep below the range are missed (C62);
with Q-broadening the peaks of farther neighbours are wider than announced and are missed (C98);
ionlist.dat lacks Pr4+, Ir3+ and Ra2+ (it has Ra2-), which the X-ray file has, and setCustomAs of an electron table with the
default q = 0 scales by DOUBLE_MAX, so that the custom symbol has practically no scattering at other q (C99);
the bond of Pt2+ and C2+, ions of equal charge, is found in the shipped file only when Pt2+ is named first (C100);
mxvecproduct(M, mxvecproduct(N, u)) and L.cartesian(mxvecproduct(u, M)) give wrong vectors because the argument is overwritten while the result is
calculated, two results of L.cartesian held by reference are the same vector, and L.setLatBase(L.vb(), L.vc(), L.va()) never leaves a consistent
lattice (C101);
in threads of one process L.cartesian in one thread and L.fractional in another one give wrong vectors, a lock for the call without the copy of the
result is not enough, and concurrent clicks make a later change of a thread's own object look older than its earlier result (C102);
after atoms are appended in place bvdiff and bvmsdiff read behind the end of the evaluated values, and after overlapping atoms are erased in place
siteSquareOverlaps writes behind the end of its result, until the next eval (C103);
a copy of a PointsInSphere never moves, whatever is called on it, and writes the indices of its original instead, which it leads to points outside of the
sphere; a loop over a copy never ends (C105).
In double arithmetic: the r-grid may contain rmax (C94); with zero peak widths the rescaled extension may read past the values (C95);
after a fast update the value may be wrong by the rounding error of contributions that are no longer there (C96);
eps_eq, eps_gt and eps_lt may all be false; sind of a tiny positive angle is 0 (C97);
a cone filter around (1, 1, 1) of any opening angle below 180 degrees drops the bonds exactly in this direction, and the angle of (1, 1, 1) with itself
in the Cartesian lattice is NaN, because the cosine is rounded to 1 + 2^-52 (C106);
in the cubic lattice with the edge 3 the point (5, 0, 0) at 15 is missed by a sphere with the radius 15 + 2^-49 (C107);
in double arithmetic a bond of the length rmax in a periodic structure may be seen from one of its two atoms only (C108);
a bond generator of an isolated structure measures from the old place of its anchor after the anchor was moved, so that an atom has a bond to itself, and no generator sees atoms appended after it was made (C109);
a pair of atoms that does not move along its bond may have a peak width of 1e-8 instead of zero, by cancellation (C110);
r() of the iterator over lattice points multiplies ints that overflow for indices from 46341 on (undefined behaviour), which are visited in a sphere
large enough, and a point that r() puts inside of Rmax may not be visited, by rounding (C111);
a bond generator keeps the lattice points it chose at its first rewind with given limits, so bonds are missing in a loop after the lattice of the
crystal became smaller (C112).
Debye: one scattering factor array per atom type although occupancies differ (C34); hysteresis of the r-range (C68), by which values of workers with equal settings may not merge (C93);
setQmax(0) throws after the change (C69); getF/getPDF out of range (C70); fast update with another lower limit (C72).
BVS: rmin ignored (C50); different multiplicities (C51; C90 for a real crystal: an atom gets (1 + m_k/m_j)/2 of the valence of each neighbour, so the sums of e.g. fluorite given by its space group are wrong). Tables: round trip of radii (C38), zero source value (C39), half-made
registration (C40). Peaks: cropped profile of width <= 0 (C42). Widths: maxWidth too small for off-diagonal tensors and for Jeong
sharpening between the ends (C43). Crystal: averaging across the cell boundary, near-special positions (C46), stale
cache (C73), displacement tensors in skew cells (C74). Data tables: isotopes of higher ions (C78); no second attempt after
a missing file (C80). Archives: a calculator with the CHECK evaluator cannot be saved (C83). Wrappers: default-constructed wrapper dereferences null (C47).

## 6. Plan per property

| id | model | proof |
|----|-------|-------|
| C01-C03 | `Ticker.v`: global clock, any number of tickers, click, updateFrom, save, load, UB at LONG_MAX | invariant over all histories |
| C04-C08, C55 | `Masks.v`: the mask containers of PairQuantity and all operations | invariants, refinement to `pair -> bool` |
| C09, C10, C12-C14, C48, C52, C53 | `Evaluator.v`: the loops of updateValue with the cpu chopping, fast updates, an abstract calculator, any history of calls | induction on the loops, exchange of sums, invariant over histories |
| C11 | `Merge.v`: protocol of mergeParallelData | invariant |
| C15, C16, C54 | `StructDiff.v`: atom order and diff of all adapters | induction on the sorted merge |
| C17 | `BondGen.v`: cursor of the generators over sites, images, cells | refinement to a filtered list |
| C18, C19, C56 | `Sphere.v`: nested m, n, o loops; reflections | exact characterisation of the visited triples |
| C20-C23, C58 | `R3.v`, `Lattice.v` | ring and field identities, invariants of a built lattice |
| C49, C57 | `Trig.v` | cases on exact angles |
| C24-C27 | `BondCalc.v`: merge in an array, finishValue, stash, filters | loop invariants, sorted multisets, simulation |
| C28, C29, C59, C60 | `Overlap.v` | sums over bond lists, union-find invariant, derivative |
| C30-C33, C61-C66 | `PdfGrid.v`: grids, peaks, stash, FFT, results | floor/ceil arithmetic, array invariants, orthogonality of sines |
| C34, C68-C72 | `Debye.v`, `DebyeSettingsSpec.v` (last argument in range) | sums per type, invariants over histories |
| C35-C37, C50, C51, C67 | `Bvs.v` | exp/ln, string functions, sums |
| C38, C39 | `Tables.v` | refinement to finite maps |
| C40 | `Registry.v` | refinement to finite maps with shared objects |
| C41 | `Attr.v` (also which names each calculator registers and which of them are read-only, against a documented list) | visitor over a tree of components |
| C42 | `Peaks.v` | analysis, Gaussian integral |
| C43, C44 | `PeakWidth.v` | quadratic forms |
| C45 | `Envelopes.v` | heap of shared objects, sorted map |
| C46, C73, C74 | `Crystal.v` | induction on the operations, cache invariant, tensors |
| C47 | `Wrappers.v` | trees of wrappers over a store |
| C75 | `Owners.v`: composite tickers | invariant over histories of calls |
| C76 | `Copies.v`: copy constructor and assignment | simulation by `Evaluator.v` |
| C83 | `Persist.v`: save, load and lives of a calculator, over `Evaluator.v` | simulation between the original and the loaded calculator; invariant over lives with moves |
| C84 | `PairCount.v`: PairCounter as a quantity of `World.v` | pairs from both ends, involution without fixed points |
| C85 | `World.v`: `Evaluator.v` over `BondGen.v`, `StructDiff.v`, `Crystal.v` | every assumption of `calc_ok` proved for the concrete bonds and differences |
| C86 | `OrbitSpec.v` over `World.v`, `Crystal.v` | orbits of the space group: an operation carries the neighbours of one equivalent atom to those of another; sum over all equivalents counted from both ends |
| C87, C88 | `Visited.v`: the pair loop with bond generators and peak width models, `Debye.v` and `PdfGrid.v` evaluated on the pairs it visits | any function of two atoms, distance and width summed over the visited pairs is its sum over all neighbours (C85, C86 for a one-function quantity; tensors of images stay proper), then C34, C61, C64, C65 |
| C89 | `ObjCryst.v`: the adapters for ObjCryst crystals and molecules | loop invariants over the vector of operations (an out-of-range index is undefined behaviour), group closure from the listed operations, lattice of C20 |
| C90 | `BvsWorld.v`: BVSCalculator over the pair loop and bond generators, `Shares.v`: the bonds of one of N workers | the visited bonds are a permutation of those to all neighbours (`SiteSums.v`); both directions of a pair of sites carry the same weight times multiplicity (from C86), then the formula of C51 |
| C91 | `OverlapWorld.v`: OverlapCalculator over the pair loop and bond generators, workers' results merged | counted bonds are a permutation of those to all neighbours up to rmaxused (`SiteSums.v`), pairs beyond do not overlap; both directions balanced by `both_ways` (C86) so that the theorems of C28, C29, C60 apply; gradients via reversal of images (no symmetry); in general they are the sum `C91_gradient_sum`, which is not the gradient: occupancies are ignored (C59) and the directions to equivalent atoms are added unturned (`C91_symmetry_gradient_refuted`, a crystal with inversion where the reported gradient is 0 while the reported total has slope -1/2) |
| C92 | `BondWorld.v`: BondCalculator over the adapters, bond generators and evaluators of World.v | the structures of a program satisfy `BondCalcSpec.world_ok` (pairs seen in the whole structure are those of the two atoms alone; exact differences of adapters), so C24-C26 apply; images listed one by one by `exact_images`; cones by C27 |
| C93 | `PdfWorkers.v`: the calculators of Visited.v with the shares of N workers (`Shares.v`) and the merge of `Merge.v` | the shares are a permutation of the visited pairs, values are sums over them; setStructure twice is setStructure once, so copies made before or after it agree; refuted for calculators with equal settings and another history |
| C94 | `Fp.v`: doubles as Flocq's FLT format (53 bits, exponents from -1074), every operation rounds to nearest even; `FpGrid.v`: the grid functions of PDFUtils.ipp on them | a rounded quotient exceeds an integer only if the quotient does (integers are doubles); relative error of the last multiple; refuted by a concrete rounding decided on integers (`FpConcrete.v`) |
| C95 | `FpGrid.v`: cacheRlimitsData and getRDF on doubles; the width of the widest peak is a parameter | monotonicity of rounding; in the rescaled case the rounding errors (at most 8 units) are smaller than the share of the tails; refuted for tails 0 by concrete roundings |
| C96 | `FpSum.v`: the evaluators of Evaluator.v with rounded additions of the (double) contributions, one element of the value array | a homomorphism between runs with different kinds of values (lists of contributions to sums) and the error of one addition (Flocq); the exact sum by C13 and C10; refuted: OPTIMIZED = BASIC on the machine; PairCounter exact by C84 |
| C97 | `FpTol.v`: ucvFractional, the fast-update test and sind with rounded operations; the comparisons of FpGrid.v | monotony of rounding and the relative error of one operation (Flocq); the fast-update bound by irrationality of sqrt 2 (infinite descent) with a gap of 1/(4N) against 2u N; refuted: trichotomy, positive sind |
| C98 | `Visited.v` (pw_maxWidth, pdf_eval), `PeakWidth.v`, `Peaks.v`, `PdfGrid.v` | tensors of images are turned tensors of their sites, so maxWidth bounds the widths (C43); the limits contain all pairs that reach interior points (as C62), so other neighbours add nothing to the sum of C88; missing: points within one step of the ends when Qmax does not cut, direction-dependent displacements; refuted: Jeong widths with Q-broadening |
| C99 | `SftData.v` on top of `Tables.v` and `Data.v` | the static tables are loaded or still unloaded along the history, so every standardLookup is the answer of a fresh process (C80), and the custom part is that of C39; the shipped files are parsed inside Coq and compared in exact decimal arithmetic by computation; refuted: every X-ray ion has an electron number, custom electron values at the default q |
| C100 | `DataBvShipped.v` (generated text of bvparm2011sel.cif and its records) with the readers of `Data.v` and the table of `Bvs.v` | the kernel checks by computation that the text is a file of the specified format with exactly these records, that their keys differ and that their parameters are in range; the lookup theorems follow from C82 and C36; refuted: the order of the ions is irrelevant (equal charges) |
| C101 | `R3Ref.v`: the static variables as memory cells, the assignments of single elements in source order, GSL's LU decomposition with partial pivoting (a zero pivot column is left as it is; inversion of a singular matrix aborts) | case analysis of the pivots and field arithmetic; invariant over histories (the cell of floor holds integers); refuted: nested products, results held by reference, own members as later arguments of setLatBase. `C101_library` justifies the by-value modelling of these functions in all other files |
| C102 | `Threads.v`: a machine whose turns run one block of steps of one thread (assignments to single elements of static variables, read, write and copy of the counter); sequentially consistent, although C++ calls the races undefined | induction on the schedule: blocks whose results do not depend on the shared state; non-interference for disjoint variables; invariant of the counter; refuted without a lock |
| C103 | `Live.v`: a memory of structure objects with addresses, pointers through wrappers, clone as allocation, the pointer test of diff, the evaluators of Evaluator.v with pointers; edits are arbitrary changes of one object | simulation: the live calculator is the calculator of Evaluator.v that is told the contents at each call (invariant: the remembered clone is at an address no user has); with C01 the value; bounds of the results after an edit refuted |
| C104 | `PdfGrid.v` as for C30-C33; specification `PdfSettingsSpec.v`: the last accepted argument of each setter in a history | induction on the history from its end; the state after an evaluation without the stash is a function of the settings, the kind of baseline, the structure and the pairs |
| C105 | `SphereCopy.v`: the iterator of Sphere.v with the references _m, _n, _o made explicit (own array or that of another object), the implicit copy constructor, programs with several objects; dangling references after an original is destroyed are not modelled | originals: simulation by Sphere.v, provided no copy is advanced (partial); copies refuted for all cells and all ranges with a point |
| C106 | `FpAngle.v`: dot, norm, division by the norm, the filters, acosd and the lattice angles with rounded operations; acos of the math library is a parameter, NaN outside of [-1, 1]; `FpPi.v`: M_PI is PI up to 2^-47 by Machin's formula | error analysis of the cosine (11 units of 2^-53) with underflow, monotony of cos; refuted by exact computation with the significands for the direction (1, 1, 1); `FpLatAngle.v`: error of the product of two lattice vectors in units of their largest elements, of the norms relative to a condition k, Cauchy-Schwarz by the discriminant |
| C107 | `FpSphere.v`: the loops of `Sphere.v` with every operation rounded, for arbitrary values of the constants of init(); update() and init() for any cell (`FpCell*.v`) | the visits are the integers of computed intervals (as in C18); error bounds of the plane, line and foot data in units of Rmax, so that the comparison is of squares and a margin of 2^-30 Rmax^2 is enough; refuted at the surface by exact computation; the constants that update() and init() compute for a cell of any angles (volume at least a sixteenth of the box, edges between 2^-200 and 2^200, sines and cosines within 2^-50) give the squared length up to a relative 2^-30 |
| C108 | `FpBonds.v`: the bond loop of `BondGen.v` with every operation rounded, for isolated and periodic structures, the sphere of `FpSphere.v` with the rounded radii rmin - d, rmax + d, the first cell of `FpGrid.v` | the loop is a filter of a list of images; error bounds of each component and of the norm; the diagonal exceeds the distance of two atoms of the first cell, so the margin of the sphere does not matter; the cubic cell as a witness of the asymmetry |
| C109 | `BondEdits.v`: the generator of `BondGen.v` with the atoms edited between its calls; which data each class reads again (edits of the lattice and refreshed symmetry positions left out) | the configuration (anchor, its position, sites, limits, sphere) is kept by all loops, so the state before a rewind does not matter; the loop theorem of C17 from any configuration; counterexamples by evaluation |
| C110 | `FpWidth.v`: mean square displacement, Debye-Waller and Jeong widths with every operation rounded (pow(x, 2) is the rounded product, as gcc compiles it; overflow, NaN left out) | error of the unit vector (C98) and of each product and sum in units of the largest tensor element; roots by \|sqrt x - sqrt y\| <= sqrt \|x - y\| or relatively; ln 2 from a series by the mean value theorem; exact claims by symmetry and monotonicity of rounding; the counterexample is computed on integers |
| C111 | `FpDist.v`: r(), Q() and d() of the iterator with rounded operations on doubles, products of ints that overflow are undefined | each coordinate is at most 16 times the length (the volume condition), so the six terms and their sums are rounded by a multiple of the squared length; combined with C107_cells_partial; counterexamples from C107 and by computation |
| C112 | `LatEdits.v`: programs of calls of a crystal's generator and changes of the lattice, on top of `BondGen.v`; the generator remembers for which lattice its sphere was made | invariant over programs (settings, anchor position, radii of the sphere), then the loop from any state; completeness from the cell diagonal of the time when the generator was made; counterexample with an orthogonal cell that shrinks |
| C77-C82 | `Data.v`: line readers, lookups, static tables, paths | induction on the text, invariant over histories, checker for the shipped files |

Every property in `properties.jsonl` could be expressed in a model; what a claim leaves out is in its note in `MANIFEST.json`.
