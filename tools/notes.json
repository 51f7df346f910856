{
 "C03": {
  "status": "proved",
  "note": "order is guaranteed for loads with no click in between; the refuted theorem shows it can be reversed otherwise"
 },
 "C05": {
  "status": "proved",
  "note": "the refuted theorem marks the limit: contradictory site-with-all masks are re-applied by setStructure in hash container order"
 },
 "C07": {
  "note": "proved without contradictory wildcard type masks; with them getTypeMask is asymmetric and pair masks depend on hash order (refuted theorems)"
 },
 "C08": {
  "note": "proved for histories without contradictory wildcard masks; refuted in general: setPairMask(k, all, m) and setTypeMask(a, all, m) can change a mask without a click"
 },
 "C12": {
  "note": "for calculators whose contribution is linear in the scale (doubling); BaseDebyeSum truncates small terms and is only odd in the scale"
 },
 "C13": {
  "note": "for calculators whose addPairContribution adds an odd, exchange-symmetric amount (calc_ok); exact arithmetic; histories without setStructure and setupParallelRun, see C14 and C53"
 },
 "C14": {
  "note": "refuted for OPTIMIZED; proved for BASIC, before the first evaluation, and without setStructure"
 },
 "C52": {
  "note": "proved in serial for calculators without finishValue; refuted for parallel runs and for BondCalculator"
 },
 "C53": {
  "note": "refuted after an evaluation with OPTIMIZED; set up before the first evaluation it is C10"
 },
 "C54": {
  "note": "proved for adapters of the same class; refuted across classes (Atomic against Periodic or Crystal)"
 },
 "C19": {
  "note": "exact visited set proved for every cell and shell (C19_shell_exact); it is the plain shell Rmin <= r < Rmax when no lattice point lies exactly at Rmin (C19_shell_partial); refuted otherwise on a cubic lattice"
 },
 "C23": {
  "note": "error cases and parameters proved; refuted that a throw leaves the lattice unchanged: setLatBase stores the base vectors before it throws"
 },
 "C49": {
  "note": "cosd, sind, acosd proved; asind is refuted: it returns the arc cosine for every argument that is not a multiple of 1/2"
 },
 "C57": {
  "status": "proved",
  "note": "the refuted theorem is the documented limit: eps_eq is not transitive"
 },
 "C17": {
  "status": "proved",
  "note": "crystals: for structures whose equivalent positions lie in the first cell (C46 says when); the refuted theorem marks the limit: an anchor must have been selected"
 },
 "C24": {
  "note": "exact real arithmetic; serial runs, BASIC and OPTIMIZED evaluators; types0/types1 are the types at those sites and not modelled"
 },
 "C26": {
  "note": "proved for two or more new workers; refuted for one worker and for workers used again with OPTIMIZED"
 },
 "C27": {
  "note": "real arithmetic: acos of a dot product that rounding pushes above 1 is NaN in the code and rejects bonds exactly on the axis; not visible in this model"
 },
 "C28": {
  "status": "proved",
  "note": "flipDiffTotal exact for bonds counted from both ends; the generators of isolated and periodic structures produce such bonds (C28_generated_bonds_balanced). Defect: bonds merged after a query of neighbours are missing (C28_merge_after_query_refuted)."
 },
 "C59": {
  "status": "partial",
  "note": "exact for unit multiplicities and full occupancies; refuted for partial occupancies."
 },
 "C60": {
  "status": "partial",
  "note": "by types: for histories with no bonds and no save after a query; refuted after a save and load."
 },
 "C31": {
  "note": "the point below the lower bound comes from the floor in calcIndex; the profile is evaluated there"
 },
 "C33": {
  "status": "partial",
  "note": "proved after any history ending with an evaluation, getPDF with FFT for rmax+maxextension+rstep <= 1e8; refuted: (1) lowering rmin without a new eval makes getPDF/getRDF erase from begin()+negative, (2) a Q-step below 2^-26 makes std::fill run from begin() to begin()-1"
 },
 "C62": {
  "status": "partial",
  "note": "upper limit complete, lower limit complete up to one rstep; refuted in full: rcalclo is rounded up to the grid (rminSteps), a pair up to one rstep below is missed although its peak covers grid points of the requested range (dr=0.1, rmin=1.05, tail 0.04, d=1.09)"
 },
 "C64": {
  "note": "for rmax+maxextension+rstep <= 1e8, see C33"
 },
 "C63": {
  "note": "gsl_fft_complex_radix2_inverse modelled by the sum in its documentation"
 },
 "C65": {
  "note": "masks from Masks.v; updateMaskData has run in setStructure"
 },
 "C66": {
  "note": "which contributions the optimized evaluator adds and removes is C09-C15 (Evaluator)"
 },
 "C36": {
  "status": "proved"
 },
 "C37": {
  "status": "proved"
 },
 "C50": {
  "status": "partial",
  "note": "refuted: rmin is ignored by BVSCalculator; proved: bonds dropped by the precision cutoff are below the precision when the pair can be looked up in either order"
 },
 "C51": {
  "status": "partial",
  "note": "refuted for different multiplicities; proved for equal bond counts; exact formula for any counts"
 },
 "C34": {
  "status": "partial",
  "note": "C34_sum_general gives the sum exactly for every history, structure and pair list: the scattering factor used for a site is that of the first site of its atom type. With one occupancy per type it is the Debye equation with a cut-off, within (number of pairs)*precision of the exact sum for scattering factors that do not grow with Q. C34_occupancy_refuted: sites of one type with different occupancies share the occupancy of the first one. Exact real arithmetic."
 },
 "C68": {
  "status": "partial",
  "note": "coverage and Q-step proved for every history; that they depend on settings and structure only is refuted (C68_history_refuted: the upper limit has a hysteresis of 50 steps)."
 },
 "C69": {
  "status": "partial",
  "note": "settings stay valid, after any history each is the last argument in range or the default, accepted calls change what they name, failures are characterised; setQmax(0) throws after the change and leaves a calculator that cannot evaluate (C69_unchanged_refuted)."
 },
 "C70": {
  "status": "partial",
  "note": "proved right after an evaluation when the range is extended by a step or more; refuted for maxextension 0 with a power of two number of points and for getF after Qmax was raised (no new evaluation)."
 },
 "C71": {
  "status": "proved",
  "note": "for states after an evaluation with an extension of a step or more (see C70). Exact real arithmetic, FFT by its documented sum."
 },
 "C72": {
  "status": "partial",
  "note": "equal for pair lists that fit together and unchanged scattering factors; C72_limits_refuted: the lower pair limit may change between the two structures without forcing a full evaluation."
 },
 "C38": {
  "status": "partial",
  "note": "lookups and malformed text in full; the round trip needs symbols without blank, comma or colon, a separator with a comma, and numbers that print exactly - refuted otherwise (six digits, blank separator)"
 },
 "C39": {
  "note": "the custom value is refuted for a source whose standard value is zero at that q: the call succeeds and the lookup gives NaN"
 },
 "C40": {
  "note": "refuted part: a failed registration of a scattering factor table leaves the type registered without its radiation alias"
 },
 "C42": {
  "status": "partial",
  "note": "All setPrecision histories. Gaussian: normal density of the given FWHM, unit area, bounds tight. Cropped: for positive widths and precision < 1 the renormalised Gaussian with unit area; refuted for widths <= 0 (negative values, NaN)."
 },
 "C43": {
  "status": "partial",
  "note": "Constant: holds. Debye-Waller: holds for spherical tensors under any symmetry and diagonal tensors without symmetry; within sqrt(3) for all valid tensors; refuted for off-diagonal tensors. Jeong: holds for delta1,delta2>=0, or delta2<=0 with rmin>=eps; refuted for delta1<0<delta2 and for rmin=0 with delta2<0."
 },
 "C44": {
  "status": "proved",
  "note": "round trips, one width behind the three readings, ticker, new objects"
 },
 "C45": {
  "status": "proved",
  "note": "shapes for r >= 0; all call histories of the owner with shared objects whose parameters change"
 },
 "C46": {
  "status": "partial",
  "note": "Full for exactly special or clearly general positions (C46_positions, C46_multiplicity, C46_cell_content) and for bond loops (C46_bonds). The grouping law C46_groups holds for every input with a sensible precision. The claim as stated fails at cell faces (images averaged after reduction to the cell), for nearly special positions (returned positions closer than the precision) and for crystals without operations (lost bonds): three refutations."
 },
 "C73": {
  "status": "partial",
  "note": "Holds after any history whose last change of sites or lattice is followed by a refreshing call (or precedes the first query, or changes the number of sites); refuted for a moved atom and for a changed lattice (stale cache)."
 },
 "C74": {
  "status": "partial",
  "note": "Holds for operations that mix only axes of equal reciprocal length; validity of tensors is preserved always. Refuted for skew cells (fractionalMatrix uses the normalized base) and for the anchor tensor when the first operation is not the identity."
 },
 "C47": {
  "status": "proved",
  "note": "Wrappers.v models NoMeta/NoSymmetry/Empty adapters over arbitrary concrete adapters in a mutable store. Refuted remarks: alternating wrappers nest without bound (C47_bounded_depth_refuted; harmless by C47_towers_collapse) and a default-constructed wrapper dereferences null (C47_default_constructed_refuted). Not modelled: serialization and diff of wrappers (C54 models diff)."
 },
 "C75": {
  "status": "proved",
  "note": "Settings and component contents are abstract values; times are natural numbers (C01, C02). Assignment through the reference getters is shown to be missed (C75_reference_assignment_refuted)."
 },
 "C76": {
  "status": "partial",
  "note": "False for OPTIMIZED evaluators: a copy shares the evaluator object, and eval of the original returns a stale value (C76_copies_refuted). Proved when every evaluation uses a BASIC evaluator or one that is not shared; setEvaluatorType to another type gives a copy its own evaluator (C76_type_change_separates)."
 },
 "C77": {
  "status": "proved",
  "note": "Reader and lookup over arbitrary well-formed text; the shipped ionlist.dat is part of the development (DataShipped.v) and checked against the format by the kernel."
 },
 "C78": {
  "status": "partial",
  "note": "The literal claim for isotopes of ions with |charge| >= 2 is false and refuted (C78_higher_charge_refuted); everything else is proved, also for every entry of the shipped file."
 },
 "C79": {
  "status": "proved",
  "note": "Also for every entry of the shipped nsftable.dat. The reading of a decimal number by the stream is a parameter of the model."
 },
 "C80": {
  "status": "partial",
  "note": "Reading once is proved; recovery after a file that could not be opened is refuted (C80_recovery_refuted), and C80_failed_for_good says what happens instead."
 },
 "C81": {
  "status": "proved",
  "note": "The file system is a parameter seen by every call; realpath returning a null pointer on an existing directory is excluded."
 },
 "C82": {
  "status": "proved",
  "note": "The duplicate assertion of the loader is left out of the model (release builds)."
 },
 "C83": {
  "status": "partial",
  "note": "The values held by a calculator and the tickers are modelled, the bytes of the Boost archive are trusted. A calculator with the CHECK evaluator cannot be saved (refuted part). When the loading process is in an earlier epoch only the values of later eval(s) are shown to be right, not that the same path is taken."
 },
 "C84": {
  "status": "proved",
  "note": "isolated and periodic structures, as the property says. In crystals given with symmetry operations the count is wrong (C84_symmetry_refuted): full and half sums differ and may be half-integers."
 },
 "C85": {
  "status": "proved",
  "note": "Instances of the evaluators' theorems C10, C12, C13 for every quantity over real structures: the assumptions of calc_ok are proved from BondGen.v, Sphere.v, Crystal.v and StructDiff.v. All structures of a program are of one class and have valid lattices; half sums are covered for structures without symmetry operations; safe_op excludes the defects of C14 and C53. PDFCalculator (values on a moving grid) and BondCalculator (lists of bonds) are in their own theorems."
 },
 "C86": {
  "status": "proved",
  "note": "Exact arithmetic; positions whose images coincide exactly or are apart by more than the symmetry precision and outside the zone in which ucvFractional snaps; tensors by C86_tensors when the operations mix only axes of equal reciprocal length (C74 shows why this is needed), the first operation is the identity and tensors obey their site symmetry."
 },
 "C87": {
  "status": "proved",
  "note": "C34_occupancy_refuted shows that the condition on occupancies is needed; values are exact up to the debye precision times the number of pairs; half sums: as in C86 with symmetric tensors"
 },
 "C88": {
  "status": "proved",
  "note": "half sums: as in C86 with symmetric tensors, full sums for every structure; PDF for rmax+maxextension+rstep <= 1e8 as in C64"
 },
 "C89": {
  "status": "proved",
  "note": "What ObjCryst++ returns is data; the first centring translation must be zero, as in ObjCryst (the loop adds it to the listed operations in place). C89_sums links the adapter to the half sums of C86-C88 under their conditions."
 },
 "C90": {
  "status": "partial",
  "note": "refuted: neighbours with another multiplicity than the atom are weighted wrongly (C90_multiplicities_refuted, a crystal with a fourfold axis); proved without symmetry operations and for equal multiplicities, exact formula for every crystal whose operations form a group (C90_any_crystal_partial). Evaluation by PQEvaluatorBasic; the tolerance of rmaxused is C50."
 },
 "C91": {
  "status": "partial",
  "note": "all values proved for every structure, also crystals with a space group; gradients() is proved to be the gradient only without symmetry operations and for equal occupancies (C91_gradient_partial). The claim is false otherwise: occupancies are ignored (C59_occupancy_refuted) and the directions to equivalent atoms are not turned (C91_symmetry_gradient_refuted); C91_gradient_sum says what is returned in general. Evaluation by PQEvaluatorBasic with full sums, the constructor setting."
 },
 "C92": {
  "status": "proved",
  "note": "Histories as in C24 (BASIC and OPTIMIZED evaluators, full sums, no setStructure); workers are new calculators (C26); objects of a program satisfy the heap discipline of C85."
 },
 "C93": {
  "status": "proved",
  "note": "The merge of any number of copies equals the serial evaluation (state equality; C87 and C88 give its meaning). Calculators with equal settings but another history: refuted, the merge can throw."
 },
 "C94": {
  "status": "partial",
  "note": "In double arithmetic. Points are at most rmax; strictly below rmax is refuted (rstep 0.01, rmax 4.19)."
 },
 "C95": {
  "status": "partial",
  "note": "In double arithmetic; needs extension within the maximum or peak tails of at least 2^-17; refuted without (read past the array)."
 },
 "C96": {
  "status": "proved",
  "note": "In double arithmetic, without overflow. C96_optimized_is_basic_refuted: bitwise agreement of evaluators fails, as the statement says."
 },
 "C97": {
  "status": "proved",
  "note": "All double arguments. Refuted in the code: one of eps_eq, eps_gt, eps_lt always holds (fails for 2^27 and its successor); sind of positive angles is positive."
 },
 "C98": {
  "status": "partial",
  "note": "All points of the grid when Qmax cuts (C98_qmax), all interior points otherwise (C98_rdf_partial: the end points can miss pairs within one rstep of the limits, C62_pair_missed_refuted). For constant widths, and for Debye-Waller and Jeong widths with direction-independent displacements (or diagonal tensors without symmetry) that do not grow with the distance; the code is wrong for Jeong widths with Q-broadening (C98_broadening_refuted: maxWidth is evaluated at rmax only) and maxWidth is no bound for other tensors (C43)."
 },
 "C99": {
  "status": "proved",
  "note": "C99_lookups links the tables (C39) with the data files and the life of a process (C77-C80). C99_shipped compares the shipped files with each other. Two findings are stated as refutations: three ions without electron numbers, and custom electron values set with the default q."
 },
 "C100": {
  "status": "partial",
  "note": "Every record of the shipped file, unlisted pairs, ranges. Refuted: either order of the ions, for ions of equal charge (Pt2+ and C2+)."
 },
 "C101": {
  "status": "partial",
  "note": "Proved for all histories for every call whose argument is not the result of the same kind of product, and for setLatBase arguments that are not members already assigned; those cases are refuted by theorem because the code gives wrong values there. Determinant, inverse, copies, round trips and the uses inside the library are proved without exception."
 },
 "C102": {
  "status": "partial",
  "note": "Proved for all schedules and any number of threads when the caller locks each call together with the copy of its result (or click), and without locks when no static variable is shared. The claim without a lock is refuted by theorem: the library does not lock."
 },
 "C103": {
  "status": "partial",
  "note": "values of eval are exact for every history of edits; what is missing is false in the code: bvdiff and siteSquareOverlaps called after an edit and before the next eval leave their arrays (C103_results_after_edit_refuted)"
 },
 "C104": {
  "status": "proved",
  "note": "PDFCalculator; for DebyePDFCalculator see C69 and C68"
 },
 "C105": {
  "status": "partial",
  "note": "Iterators made by a constructor behave as if alone provided no copy is advanced. The rest is false in the code: a copy is bound to the array of its original, never moves and moves the original instead (refuted for every cell and range with a point)."
 },
 "C106": {
  "status": "partial",
  "note": "Passed bonds are inside of a cone up to rounding; bonds deep inside of a cone pass unless parallel to the axis up to rounding. Lattice angles: symmetric bit for bit, that of a cosine within 2^-40/k of the exact one (k: squared length relative to the elements, at least 2^-20), a number unless the vectors are parallel up to that. False in the code for bonds along the axis (refuted for (1,1,1) and every acos and opening angle), and for angles of parallel lattice vectors (NaN). Overflow is not modelled."
 },
 "C107": {
  "status": "partial",
  "note": "points, order and completeness up to a margin of 2^-30 of the squared radius for oblique lattices (given the constants of init()); in terms of the edges for cells with right angles (2 * 2^-30), and of edges and angles for cells of any angles that are not too flat, given sines and cosines within 2^-50 (3 * 2^-30, C107_cells_partial); the exact claim is refuted at the surface (C107_surface_refuted); the inner limit without margin fails already in exact arithmetic (C19). Overflow is left out."
 },
 "C108": {
  "status": "partial",
  "note": "C108_periodic_partial, C108_isolated_partial: the loop ends, no image twice, all bonds right up to an explicit tolerance; partial because images within the tolerance of the limits are not decided, and symmetry at the limit is false in a periodic structure (C108_symmetric_refuted). Symmetric to the last bit in isolated structures. same_lattice is a hypothesis, proved for cells with right angles."
 },
 "C109": {
  "status": "partial",
  "note": "C109_periodic: all positions from the time the generator was made; C109_isolated: exact bonds, measured from where the anchor was when selected; C109_isolated_reselected: as for a new generator. Refuted without selecting again (C109_isolated_moved_refuted: an atom bonded to itself) and for appended atoms (C109_appended_refuted). Edits of the lattice and of the symmetry operations are not modelled."
 },
 "C110": {
  "status": "proved",
  "note": "Without overflow and NaN. Bounds are generous. C110_flat_refuted: a pair with no displacement along its bond may get a positive width by cancellation. The largest width covers sites flagged isotropic; anisotropic sites are refuted already in exact arithmetic (C43)."
 },
 "C111": {
  "status": "partial",
  "note": "up to the stated margins, for cells that are not too flat and indices up to 32767 (for larger indices r() may overflow: C111_overflow_refuted); that the visited points are exactly those with r() < Rmax is refuted (C111_surface_refuted); points closer than Rmin may be visited already in exact arithmetic (C19). Q() and d() are given r() of the reciprocal cell; overflow of doubles is left out."
 },
 "C112": {
  "status": "partial",
  "note": "Proved: exactly what a loop shows after any calls and changes of the lattice (C112_crystal), and that nothing is missed when the translations are chosen for the lattice of now and the longest cell diagonal is not shorter than when the generator was made (C112_complete). The statement fails without these conditions: after the cell shrinks between two loops with the same limits bonds are missing (C112_shrunk_refuted)."
 }
}