{"id": "C01", "title": "A clicked ticker is the newest of all tickers", "statement": "After EventTicker::click() on any ticker, that ticker compares strictly greater than every value any ticker of the process held before, and no ticker ever compares greater than the global clock; the only exception is exhaustion of the long counter.", "quantifier": "all histories of construct, click, updateFrom and archive-load operations on any number of tickers", "why_tests_cant": "the ordering must survive every interleaving of operations on unboundedly many tickers", "anchors": ["src/diffpy/EventTicker.cpp:EventTicker::click", "src/diffpy/EventTicker.cpp:EventTicker::updateFrom", "src/diffpy/EventTicker.hpp:EventTicker::load"]}
{"id": "C02", "title": "updateFrom computes the latest event", "statement": "updateFrom leaves the ticker at the maximum of the two values and touches nothing else; hence the ticker obtained from a set of dependencies is the same for every order and repetition of the updateFrom calls and is >= each of them.", "quantifier": "all ticker values and all finite sequences of updateFrom calls", "why_tests_cant": "order independence quantifies over all permutations and repetitions", "anchors": ["src/diffpy/EventTicker.cpp:EventTicker::updateFrom", "src/diffpy/srreal/PDFCalculator.cpp:PDFCalculator::ticker"]}
{"id": "C03", "title": "Tickers restored from an archive keep their relative order and are never ahead of the clock", "statement": "Loading any set of tickers saved in one archive, with no other event during the load, never makes a ticker newer than the process clock, and a ticker that was not newer than another when saved is not newer after loading, so caches are never judged fresh by mistake.", "quantifier": "all saved tickers, all saved clocks, all clock states of the loading process", "why_tests_cant": "depends on the state of two processes' clocks", "anchors": ["src/diffpy/EventTicker.hpp:EventTicker::load", "src/diffpy/EventTicker.hpp:EventTicker::save"]}
{"id": "C04", "title": "Pair masks are symmetric", "statement": "getPairMask(i, j) == getPairMask(j, i) for every pair of sites after any history of mask operations.", "quantifier": "all histories of maskAllPairs, invertMask, setPairMask, setTypeMask and setStructure; all pairs of site indices", "why_tests_cant": "unbounded histories and index values", "anchors": ["src/diffpy/srreal/PairQuantity.cpp:PairQuantity::getPairMask", "src/diffpy/srreal/PairQuantity.cpp:PairQuantity::setPairMask"]}
{"id": "C05", "title": "setPairMask sets one pair and nothing else", "statement": "After setPairMask(i, j, m) with site indices i, j the mask of pairs (i,j) and (j,i) is m and every other pair mask is unchanged; with ALLATOMSINT for one index the mask of each pair with that site is m (for sites of the current structure) and other pairs keep their masks; with ALLATOMSINT for both, every pair has mask m.", "quantifier": "all reachable mask states, all index pairs and mask values", "why_tests_cant": "frame condition over all other pairs and all reachable states", "anchors": ["src/diffpy/srreal/PairQuantity.cpp:PairQuantity::setPairMask", "src/diffpy/srreal/PairQuantity.cpp:PairQuantity::setPairMaskValue", "src/diffpy/srreal/PairQuantity.cpp:PairQuantity::maskAllPairs"]}
{"id": "C06", "title": "invertMask flips every mask", "statement": "invertMask() negates getPairMask for every pair of sites and getTypeMask for every pair of types, and applying it twice restores every mask.", "quantifier": "all reachable mask states, all pairs of sites and types", "why_tests_cant": "pointwise claim over infinitely many pairs and states", "anchors": ["src/diffpy/srreal/PairQuantity.cpp:PairQuantity::invertMask"]}
{"id": "C07", "title": "Type masks determine pair masks at setStructure", "statement": "After setTypeMask calls followed by setStructure(s), getPairMask(i, j) equals getTypeMask(type of i, type of j) for all site pairs, when no two single-type wildcard masks conflict. getTypeMask is symmetric whenever the wildcard masks agree.", "quantifier": "all sequences of setTypeMask calls, all structures, all enumeration orders of the mask containers", "why_tests_cant": "container iteration order and unbounded structures", "anchors": ["src/diffpy/srreal/PairQuantity.cpp:PairQuantity::setTypeMask", "src/diffpy/srreal/PairQuantity.cpp:PairQuantity::getTypeMask", "src/diffpy/srreal/PairQuantity.cpp:PairQuantity::updateMaskData"]}
{"id": "C08", "title": "Mask changes are seen by the evaluator", "statement": "The quantity's ticker advances in every mask call that changes the result of some getPairMask or getTypeMask query, so that the next eval cannot reuse a value obtained under other masks.", "quantifier": "all reachable mask states and all mask operations", "why_tests_cant": "a missed invalidation is invisible unless the right query follows", "anchors": ["src/diffpy/srreal/PairQuantity.cpp:PairQuantity::setPairMask", "src/diffpy/srreal/PairQuantity.cpp:PairQuantity::setTypeMask", "src/diffpy/srreal/PairQuantity.cpp:PairQuantity::invertMask"]}
{"id": "C09", "title": "Parallel work is partitioned", "statement": "With setupParallelRun(k, n) for k = 0..n-1 each bond of the serial evaluation is processed by exactly one of the n workers, for both the outer and the inner splitting strategy.", "quantifier": "all structure sizes, bond counts and worker counts n >= 1", "why_tests_cant": "all combinations of sizes and worker counts, including more workers than sites", "anchors": ["src/diffpy/srreal/PQEvaluator.cpp:PQEvaluatorBasic::updateValue", "src/diffpy/srreal/PairQuantity.cpp:PairQuantity::setupParallelRun"]}
{"id": "C10", "title": "Merged parallel result equals the serial result", "statement": "Merging the n partial results with mergeParallelData in any order gives the same value as the serial evaluation, for any quantity accumulated by addition.", "quantifier": "all structures, worker counts, merge orders", "why_tests_cant": "all permutations and sizes", "anchors": ["src/diffpy/srreal/PairQuantity.cpp:PairQuantity::mergeParallelData", "src/diffpy/srreal/PairQuantity.cpp:PairQuantity::executeParallelMerge", "src/diffpy/srreal/PQEvaluator.cpp:PQEvaluatorBasic::updateValue"]}
{"id": "C11", "title": "Merge protocol", "statement": "mergeParallelData accepts exactly n results: the (n+1)-th call throws runtime_error and leaves the value unchanged, a result of a wrong size throws invalid_argument without being counted, and post-processing (finishValue) runs exactly once, after the n-th accepted result.", "quantifier": "all sequences of merge calls with arbitrary sizes and n", "why_tests_cant": "all call histories", "anchors": ["src/diffpy/srreal/PairQuantity.cpp:PairQuantity::mergeParallelData"]}
{"id": "C12", "title": "Half summation equals full summation", "statement": "With USEFULLSUM off, the accumulated value equals the one with USEFULLSUM on whenever the pair contribution is symmetric, for every bond multiset closed under reversal.", "quantifier": "all structures, masks and symmetric contributions", "why_tests_cant": "algebraic identity over unbounded sums", "anchors": ["src/diffpy/srreal/PQEvaluator.cpp:PQEvaluatorBasic::updateValue", "src/diffpy/srreal/PQEvaluator.cpp:PQEvaluatorBasic::setFlag"]}
{"id": "C13", "title": "OPTIMIZED evaluator gives the BASIC result for every history", "statement": "For an additive pair quantity with position-independent symmetric contributions, after any history of eval(structure), mask changes and configuration changes the value computed by the OPTIMIZED evaluator equals the one a fresh BASIC evaluation gives for the current structure.", "quantifier": "all histories, all structures, both summation modes, all worker counts", "why_tests_cant": "fast update correctness depends on the whole history of previous structures", "anchors": ["src/diffpy/srreal/PQEvaluator.cpp:PQEvaluatorOptimized::updateValue", "src/diffpy/srreal/PQEvaluator.cpp:PQEvaluatorOptimized::updateValueCompletely"]}
{"id": "C14", "title": "eval() after setStructure recomputes", "statement": "Calling setStructure(s) and then eval() gives the value for s with every evaluator type.", "quantifier": "all histories mixing setStructure(s), eval() and eval(s)", "why_tests_cant": "history dependent caching", "anchors": ["src/diffpy/srreal/PairQuantity.cpp:PairQuantity::setStructure", "src/diffpy/srreal/PairQuantity.cpp:PairQuantity::eval", "src/diffpy/srreal/PQEvaluator.cpp:PQEvaluatorOptimized::updateValue"]}
{"id": "C15", "title": "Structure difference is exact", "statement": "StructureAdapter::diff returns strictly increasing in-range indices pop0 and add1 such that the atoms not listed are pairwise equal: position by position for the SIDEBYSIDE method and as multisets for SORTED; for NONE all indices are listed. Applying the difference to the old structure gives the new one up to order.", "quantifier": "all pairs of structures, including duplicate atoms and different sizes", "why_tests_cant": "unbounded structures with repeated atoms", "anchors": ["src/diffpy/srreal/AtomicStructureAdapter.cpp:AtomicStructureAdapter::diff", "src/diffpy/srreal/StructureDifference.cpp:StructureDifference", "src/diffpy/srreal/StructureAdapter.cpp:StructureAdapter::diff"]}
{"id": "C16", "title": "Atom ordering is a total order consistent with equality", "statement": "operator< on Atom is irreflexive, transitive and total with respect to operator==, so sorted-set algorithms on atoms are well defined.", "quantifier": "all atoms with comparable (non NaN) fields", "why_tests_cant": "three-way quantification over all field combinations", "anchors": ["src/diffpy/srreal/AtomicStructureAdapter.hpp:operator<", "src/diffpy/srreal/AtomicStructureAdapter.hpp:operator=="]}
{"id": "C17", "title": "Bond generator yields exactly the bonds in range", "statement": "Iterating a bond generator from rewind() to finished() visits each selected site whose distance d from the anchor satisfies rmin <= d <= rmax and d is not zero exactly once and nothing else, whatever r-limits were set before.", "quantifier": "all structures, anchors, site selections and r limits", "why_tests_cant": "all structures and limits", "anchors": ["src/diffpy/srreal/BaseBondGenerator.cpp:BaseBondGenerator::rewind", "src/diffpy/srreal/BaseBondGenerator.cpp:BaseBondGenerator::next", "src/diffpy/srreal/BaseBondGenerator.cpp:BaseBondGenerator::updateDistance"]}
{"id": "C18", "title": "Lattice point enumeration is complete and duplicate free", "statement": "PointsInSphere visits, in lexicographic order and exactly once, lattice points with r < Rmax only, and misses none with Rmin < r < Rmax.", "quantifier": "all lattices and radii", "why_tests_cant": "unbounded number of points and real parameters", "anchors": ["src/diffpy/srreal/PointsInSphere.cpp:PointsInSphere::next_o", "src/diffpy/srreal/PointsInSphere.cpp:PointsInSphere::next_n", "src/diffpy/srreal/PointsInSphere.cpp:PointsInSphere::next_m", "src/diffpy/srreal/PointsInSphere.cpp:PointsInSphere::init"]}
{"id": "C19", "title": "Lattice points closer than Rmin are excluded", "statement": "PointsInSphere never yields a point with r < Rmin.", "quantifier": "all lattices and radii", "why_tests_cant": "fails only on exact boundary configurations that random tests do not hit", "anchors": ["src/diffpy/srreal/PointsInSphere.cpp:PointsInSphere::next_o"]}
{"id": "C20", "title": "Lattice coordinate conversions are inverse and metric consistent", "statement": "For every valid lattice, cartesian and fractional are inverse of each other, and dot, norm, distance and angle on fractional vectors equal those of the Cartesian images; likewise cartesianMatrix and fractionalMatrix are inverse on tensors.", "quantifier": "all non-degenerate lattices (from parameters or base vectors), all vectors and tensors", "why_tests_cant": "real-valued identity over all lattices", "anchors": ["src/diffpy/srreal/Lattice.cpp:Lattice::setLatPar", "src/diffpy/srreal/Lattice.cpp:Lattice::setLatBase", "src/diffpy/srreal/Lattice.hpp:Lattice::cartesian", "src/diffpy/srreal/Lattice.hpp:Lattice::fractional", "src/diffpy/srreal/Lattice.hpp:Lattice::dot"]}
{"id": "C21", "title": "Unit-cell reduction", "statement": "ucvFractional/ucvCartesian return a vector with all fractional coordinates in [0,1) that differs from the input by a lattice translation up to the epsilon used to snap coordinates next to one, and are idempotent.", "quantifier": "all vectors and lattices", "why_tests_cant": "boundary behaviour near integers for all reals", "anchors": ["src/diffpy/srreal/Lattice.cpp:Lattice::ucvFractional", "src/diffpy/srreal/Lattice.hpp:Lattice::ucvCartesian"]}
{"id": "C22", "title": "Reciprocal lattice duality", "statement": "The reciprocal of the reciprocal lattice is the original lattice, and direct and reciprocal base vectors are dual.", "quantifier": "all valid lattices", "why_tests_cant": "real-valued identity", "anchors": ["src/diffpy/srreal/PointsInSphere.cpp:LatticeParameters::reciprocal"]}
{"id": "C23", "title": "Rejected lattice base leaves a usable state", "statement": "setLatBase throws invalid_argument exactly for degenerate or left-handed bases, and after the throw the lattice is as before the call.", "quantifier": "all base vectors and all prior lattices", "why_tests_cant": "exception safety from any state", "anchors": ["src/diffpy/srreal/Lattice.cpp:Lattice::setLatBase"]}
{"id": "C24", "title": "BondCalculator lists all bonds in order", "statement": "After eval the bond list holds each unmasked bond in range that passes the filters exactly once, sorted by distance and site indices; distances() is nondecreasing and all accessors have equal length and describe the same bond at each index.", "quantifier": "all bond multisets and filters", "why_tests_cant": "unbounded multisets with ties", "anchors": ["src/diffpy/srreal/BondCalculator.cpp:BondCalculator::finishValue", "src/diffpy/srreal/BondCalculator.cpp:BondOp::compare", "src/diffpy/srreal/BondCalculator.cpp:BondCalculator::addPairContribution"]}
{"id": "C25", "title": "BondCalculator fast update is exact", "statement": "Removing the bonds of removed atoms and merging the bonds of added atoms in place gives the same sorted list as complete re-evaluation, for every history of updates.", "quantifier": "all bond lists, all removed and added sub-lists", "why_tests_cant": "in-place backward merge must never overwrite unread elements, for all lengths", "anchors": ["src/diffpy/srreal/BondCalculator.cpp:bmerge", "src/diffpy/srreal/BondCalculator.cpp:BondCalculator::finishValue", "src/diffpy/srreal/BondCalculator.cpp:BondCalculator::stashPartialValue"]}
{"id": "C26", "title": "BondCalculator parallel merge equals serial", "statement": "Merging the per-worker bond lists in any order gives the serial bond list.", "quantifier": "all partitions, merge orders", "why_tests_cant": "all permutations", "anchors": ["src/diffpy/srreal/BondCalculator.cpp:BondCalculator::executeParallelMerge"]}
{"id": "C27", "title": "Cone filters", "statement": "A bond passes iff no filter is set or its direction lies within at least one of the cones; a cone of 180 degrees or more accepts every direction; filterOff removes all filters; the ticker clicks for each change.", "quantifier": "all directions and filter lists", "why_tests_cant": "real-valued geometry", "anchors": ["src/diffpy/srreal/BondCalculator.cpp:BondCalculator::checkConeFilters", "src/diffpy/srreal/BondCalculator.cpp:BondCalculator::filterCone"]}
{"id": "C28", "title": "Overlap totals are consistent", "statement": "The overlap of each pair is max(0, ri+rj-d), totalSquareOverlap is the sum of siteSquareOverlaps weighted as documented, and flipDiffTotal(i,j) is exactly the change of the total after exchanging the radii of sites i and j, symmetric in i and j and zero for i = j.", "quantifier": "all bond lists, radii and site pairs", "why_tests_cant": "algebraic identity over unbounded bond lists", "anchors": ["src/diffpy/srreal/OverlapCalculator.cpp:OverlapCalculator::suboverlap", "src/diffpy/srreal/OverlapCalculator.cpp:OverlapCalculator::flipDiffTotal", "src/diffpy/srreal/OverlapCalculator.cpp:OverlapCalculator::flipDiffMean"]}
{"id": "C29", "title": "Neighborhoods are the connected components", "statement": "neighborhoods() returns disjoint sets whose union is the set of sites that take part in unmasked pairs (or are unmasked by themselves), and two sites are in the same set iff connected by a chain of overlapping bonds.", "quantifier": "all graphs of overlapping bonds", "why_tests_cant": "graph reachability over unbounded graphs", "anchors": ["src/diffpy/srreal/OverlapCalculator.cpp:OverlapCalculator::neighborhoods"]}
{"id": "C30", "title": "PDF r-grid and range limits", "statement": "The r-grid is the arithmetic sequence of multiples of rstep covering [rmin, rmax), has rmaxSteps-rminSteps points, every grid point lies inside the extended range, which lies inside the calculation range.", "quantifier": "all rmin, rmax, rstep and extension settings", "why_tests_cant": "floor/ceil arithmetic over all reals", "anchors": ["src/diffpy/srreal/PDFUtils.cpp:pdfutils_rminSteps", "src/diffpy/srreal/PDFUtils.cpp:pdfutils_rmaxSteps", "src/diffpy/srreal/PDFCalculator.cpp:PDFCalculator::cacheRlimitsData", "src/diffpy/srreal/PDFCalculator.cpp:PDFCalculator::getRgrid"]}
{"id": "C31", "title": "PDF peak contributions stay inside the value array", "statement": "addPairContribution writes only to valid indices: it adds the peak at every grid point within the peak cutoff bounds and at the last grid point below them, and changes nothing else, for every distance, peak width and precision.", "quantifier": "all distances, widths and grids", "why_tests_cant": "memory safety for all real-valued inputs", "anchors": ["src/diffpy/srreal/PDFCalculator.cpp:PDFCalculator::addPairContribution", "src/diffpy/srreal/PDFCalculator.cpp:PDFCalculator::rcalcloSteps", "src/diffpy/srreal/PDFCalculator.cpp:PDFCalculator::rcalchiSteps"]}
{"id": "C32", "title": "PDF partial-value stash keeps contributions at their r", "statement": "When a fast update changes the calculation range, restoring the stashed partial value keeps each retained contribution at the same r and zero-fills the rest.", "quantifier": "all pairs of old and new calculation ranges", "why_tests_cant": "all overlaps, including disjoint ranges", "anchors": ["src/diffpy/srreal/PDFCalculator.cpp:PDFCalculator::stashPartialValue", "src/diffpy/srreal/PDFCalculator.cpp:PDFCalculator::restorePartialValue"]}
{"id": "C33", "title": "PDF result lengths", "statement": "getPDF, getRDF, getRDFperR always have the length of getRgrid and getF that of getQgrid, the points cut from the extended grid are exactly those at the requested r, and no sequence of calls makes a result undefined.", "quantifier": "all configurations", "why_tests_cant": "index arithmetic for all settings", "anchors": ["src/diffpy/srreal/PDFCalculator.cpp:PDFCalculator::cutRipplePoints", "src/diffpy/srreal/PDFCalculator.cpp:PDFCalculator::getPDF"]}
{"id": "C34", "title": "Debye sum uses each site's own scattering factor", "statement": "In the Debye sum every site contributes with its own occupancy and atom type.", "quantifier": "all structures, including several sites of one type with different occupancy", "why_tests_cant": "per-type caching hides in tests with full occupancies", "anchors": ["src/diffpy/srreal/BaseDebyeSum.cpp:BaseDebyeSum::cacheStructureData", "src/diffpy/srreal/BaseDebyeSum.cpp:BaseDebyeSum::sfSiteAtkQ"]}
{"id": "C35", "title": "Bond valence and distance are inverse", "statement": "bondvalenceToDistance and bondvalence are inverse for every parameter set with B > 0, bondvalence is positive and strictly decreasing, and cutting at the precision distance loses only bonds with valence below the precision.", "quantifier": "all parameters and distances", "why_tests_cant": "real-valued identity", "anchors": ["src/diffpy/srreal/BVParam.cpp:BVParam::bondvalence", "src/diffpy/srreal/BVParam.cpp:BVParam::bondvalenceToDistance", "src/diffpy/srreal/BVParametersTable.cpp:BVParametersTable::lookup"]}
{"id": "C36", "title": "Bond valence parameter lookup order", "statement": "lookup returns the custom parameter if set, else the standard one, else the one for unspecified (9) valence, else none; it does not depend on the order of the arguments for a cation-anion pair; setCustom followed by lookup returns the value set and resetAll restores the standard table.", "quantifier": "all tables, atoms and valences, all histories of setCustom/resetCustom/resetAll", "why_tests_cant": "all histories", "anchors": ["src/diffpy/srreal/BVParametersTable.cpp:BVParametersTable::lookup", "src/diffpy/srreal/BVParametersTable.cpp:BVParametersTable::setCustom", "src/diffpy/srreal/BVParam.cpp:BVParam::BVParam"]}
{"id": "C37", "title": "Atom symbol and valence parsing", "statement": "atomBareSymbol removes isotope prefix and charge suffix, atomValence returns the signed charge with default magnitude one, and both are consistent for every string of the form isotope-symbol-charge.", "quantifier": "all strings", "why_tests_cant": "infinitely many strings", "anchors": ["src/diffpy/srreal/AtomUtils.cpp:atomBareSymbol", "src/diffpy/srreal/AtomUtils.cpp:atomValence"]}
{"id": "C38", "title": "Atom radii table", "statement": "lookup returns the custom radius if set, otherwise the standard; setCustom affects only the given type; toString/fromString round-trip; fromString with a malformed item throws and changes nothing.", "quantifier": "all tables, types, strings and histories", "why_tests_cant": "all histories and strings", "anchors": ["src/diffpy/srreal/AtomRadiiTable.cpp:AtomRadiiTable::lookup", "src/diffpy/srreal/AtomRadiiTable.cpp:AtomRadiiTable::fromString", "src/diffpy/srreal/AtomRadiiTable.cpp:AtomRadiiTable::toString"]}
{"id": "C39", "title": "Custom scattering factors", "statement": "After setCustomAs(smbl, src, value, q) lookup(smbl, q) returns value and lookup at any other q is the source curve scaled by one constant; types not customised are unaffected; the ticker clicks iff the table changed.", "quantifier": "all tables, symbols, q and histories", "why_tests_cant": "all histories", "anchors": ["src/diffpy/srreal/ScatteringFactorTable.cpp:ScatteringFactorTable::setCustomAs", "src/diffpy/srreal/ScatteringFactorTable.cpp:ScatteringFactorTable::lookup"]}
{"id": "C40", "title": "Class registry", "statement": "Names and aliases always resolve to exactly one registered prototype; createByType succeeds iff the name is registered; aliasing to an unknown type or re-registering a different prototype throws and changes nothing; deregisterType removes the type with all its aliases and nothing else.", "quantifier": "all histories of registration, aliasing and deregistration", "why_tests_cant": "all histories", "anchors": ["src/diffpy/HasClassRegistry.ipp"]}
{"id": "C41", "title": "Attributes access", "statement": "getDoubleAttr after setDoubleAttr on a writable attribute goes through the registered getter and setter; reading or writing an unknown name throws and changes nothing; writing to a read-only attribute throws and changes nothing; a name provided by two components of an object is rejected on access (registering it again in the same component replaces it), and no combination of the library's own components has such a name; the lists of names are exactly the registered (writable) names.", "quantifier": "all registration histories and names", "why_tests_cant": "all histories", "anchors": ["src/diffpy/Attributes.cpp:Attributes::checkAttributeName", "src/diffpy/Attributes.ipp"]}
{"id": "C42", "title": "Peak profile", "statement": "The Gaussian profile is symmetric, non-negative and maximal at zero, and outside [xboundlo, xboundhi] it is below the precision times its maximum; the cropped profile is zero there.", "quantifier": "all widths and precisions", "why_tests_cant": "real analysis", "anchors": ["src/diffpy/srreal/GaussianProfile.cpp:GaussianProfile", "src/diffpy/srreal/CroppedGaussianProfile.cpp:CroppedGaussianProfile"]}
{"id": "C43", "title": "maxWidth bounds every peak width", "statement": "For every peak width model, maxWidth(structure, rmin, rmax) is not less than calculate(bond) for any bond of that structure with rmin <= r <= rmax.", "quantifier": "all structures, bonds and model parameters", "why_tests_cant": "an extremum claim over all bonds and parameters", "anchors": ["src/diffpy/srreal/DebyeWallerPeakWidth.cpp:DebyeWallerPeakWidth::maxWidth", "src/diffpy/srreal/JeongPeakWidth.cpp:JeongPeakWidth::maxWidth", "src/diffpy/srreal/ConstantPeakWidth.cpp:ConstantPeakWidth::maxWidth"]}
{"id": "C44", "title": "Constant peak width conversions", "statement": "setUIsoWidth/getUIsoWidth, setBIsoWidth/getBIsoWidth and setWidth/getWidth round-trip and describe one width.", "quantifier": "all reals", "why_tests_cant": "real-valued identity", "anchors": ["src/diffpy/srreal/ConstantPeakWidth.cpp:ConstantPeakWidth"]}
{"id": "C45", "title": "Envelopes", "statement": "The spherical envelope is in [0,1], non-increasing, one at zero and zero beyond the diameter; the step cut is 0/1; Q-resolution is in (0,1]; the applied product of envelopes does not depend on the order in which they were added; adding an envelope of an existing type replaces it and pop removes only it.", "quantifier": "all r, parameters, histories", "why_tests_cant": "real analysis and histories", "anchors": ["src/diffpy/srreal/SphericalShapeEnvelope.cpp", "src/diffpy/srreal/StepCutEnvelope.cpp", "src/diffpy/srreal/QResolutionEnvelope.cpp", "src/diffpy/srreal/PDFEnvelope.cpp:PDFEnvelopeOwner"]}
{"id": "C46", "title": "Crystal symmetry expansion", "statement": "expandLatticeAtom returns pairwise distinct positions (beyond the symmetry precision, modulo the lattice), covers the image of the atom under every symmetry operation, and the multiplicities reported add up to the number of atoms in the unit cell.", "quantifier": "all symmetry operation lists, atoms and precisions", "why_tests_cant": "all operation sets", "anchors": ["src/diffpy/srreal/CrystalStructureAdapter.cpp:CrystalStructureAdapter::expandLatticeAtom", "src/diffpy/srreal/CrystalStructureAdapter.cpp:CrystalStructureAdapter::siteMultiplicity"]}
{"id": "C47", "title": "nometa and nosymmetry wrappers", "statement": "nometa and nosymmetry are idempotent, never wrap a wrapper of their own kind in any history of calls, forward every per-site query to the source structure in its current state, and change only the meta data respectively the symmetry multiplicity, density and bonds; their order does not matter, towers of them answer like at most two, clones share nothing with the original, a null pointer stands for the empty structure, and every per-site query of the empty structure throws out_of_range.", "quantifier": "all structures, compositions of wrappers and histories of construction, wrapping, cloning and in-place changes", "why_tests_cant": "all adapter compositions", "anchors": ["src/diffpy/srreal/NoMetaStructureAdapter.cpp:nometa", "src/diffpy/srreal/NoSymmetryStructureAdapter.cpp:nosymmetry"]}
{"id": "C48", "title": "Evaluator type change is atomic", "statement": "setEvaluatorType either switches to the requested type keeping flags and parallel setup, or throws leaving the evaluator and value unchanged.", "quantifier": "all quantities, types and states", "why_tests_cant": "exception safety from any state", "anchors": ["src/diffpy/srreal/PairQuantity.cpp:PairQuantity::setEvaluatorType", "src/diffpy/srreal/PQEvaluator.cpp:createPQEvaluator"]}
{"id": "C49", "title": "Degree trigonometry", "statement": "cosd, sind, acosd and asind are the trigonometric functions in degrees for every argument, exact at special angles.", "quantifier": "all real arguments", "why_tests_cant": "all reals", "anchors": ["src/diffpy/mathutils.ipp:cosd", "src/diffpy/mathutils.ipp:sind", "src/diffpy/mathutils.ipp:acosd", "src/diffpy/mathutils.ipp:asind"]}
{"id": "C50", "title": "BVS r-limits", "statement": "BVSCalculator sums exactly the bonds with rmin <= r <= min(rmax, precision cutoff).", "quantifier": "all structures and limits", "why_tests_cant": "all structures and limits", "anchors": ["src/diffpy/srreal/BVSCalculator.cpp:BVSCalculator::configureBondGenerator"]}
{"id": "C51", "title": "Per-site bond valence sums", "statement": "BVSCalculator's value at each site is the sum of the valences of all bonds that start at that site, whatever the symmetry multiplicities of the sites are.", "quantifier": "all structures and multiplicities", "why_tests_cant": "all structures", "anchors": ["src/diffpy/srreal/BVSCalculator.cpp:BVSCalculator::addPairContribution", "src/diffpy/srreal/BVSCalculator.cpp:BVSCalculator::bvrmsdiff"]}
{"id": "C52", "title": "CHECK evaluator", "statement": "The CHECK evaluator reports an inconsistency only when the optimized and the complete evaluation differ, so it never fails on a calculator whose fast updates are right.", "quantifier": "all histories of evaluations and configuration changes, any number of CPUs", "why_tests_cant": "all histories", "anchors": ["src/diffpy/srreal/PQEvaluator.cpp:PQEvaluatorCheck::updateValue"]}
{"id": "C53", "title": "Changing the parallel setup", "statement": "setupParallelRun takes effect at the next evaluation whatever was evaluated before: the workers' values add up to the total.", "quantifier": "all histories and numbers of CPUs", "why_tests_cant": "all histories", "anchors": ["src/diffpy/srreal/PQEvaluator.cpp:PQEvaluatorBasic::setupParallelRun", "src/diffpy/srreal/PQEvaluator.cpp:PQEvaluatorOptimized::updateValue"]}
{"id": "C54", "title": "A structure difference implies equal surroundings", "statement": "When diff() claims a correspondence between the atoms of two structures, their lattices, symmetry operations and precision are the same.", "quantifier": "all pairs of structure adapters", "why_tests_cant": "all pairs of structures", "anchors": ["src/diffpy/srreal/AtomicStructureAdapter.cpp:AtomicStructureAdapter::diff", "src/diffpy/srreal/PeriodicStructureAdapter.cpp:PeriodicStructureAdapter::diff", "src/diffpy/srreal/CrystalStructureAdapter.cpp:CrystalStructureAdapter::diff"]}
{"id": "C55", "title": "No mask reported means nothing is masked", "statement": "The evaluators skip mask tests when a calculator reports no mask; then every pair of sites and of types is in use, also after a structure change.", "quantifier": "all mask states and structures", "why_tests_cant": "all mask states", "anchors": ["src/diffpy/srreal/PairQuantity.cpp:PairQuantity::hasMask", "src/diffpy/srreal/PairQuantity.cpp:PairQuantity::hasPairMask"]}
{"id": "C56", "title": "Reflection iterators enumerate the Q (or d) shell completely", "statement": "ReflectionsInQminQmax visits every reflection hkl with Qmin <= Q < Qmax exactly once and none with Q >= Qmax; Q is 2 pi times the length of the reciprocal lattice vector and Q d = 2 pi; ReflectionsInDmaxDmin misses no reflection with Dmin < d <= Dmax and yields none with d <= Dmin other than the origin.", "quantifier": "all valid lattices and all limits", "why_tests_cant": "unbounded number of reflections and real parameters", "anchors": ["src/diffpy/srreal/PointsInSphere.cpp:ReflectionsInQminQmax", "src/diffpy/srreal/PointsInSphere.cpp:ReflectionsInDmaxDmin"]}
{"id": "C57", "title": "Round-off aware comparisons are consistent", "statement": "For any two numbers and any non-negative tolerance exactly one of eps_lt, eps_eq and eps_gt holds; eps_lt is irreflexive, asymmetric and transitive with eps_gt as converse (but it is not a strict weak order, so EpsilonLess must not key an associative container).", "quantifier": "all numbers and tolerances", "why_tests_cant": "ranges over all real inputs including exact boundaries", "anchors": ["src/diffpy/mathutils.ipp:eps_eq", "src/diffpy/mathutils.ipp:eps_lt", "src/diffpy/mathutils.hpp:EpsilonLess"]}
{"id": "C58", "title": "Largest cell diagonal bounds distances inside the unit cell", "statement": "The Cartesian distance of any two points with fractional coordinates in [0,1) is smaller than ucMaxDiagonalLength(); bond generators rely on it to size their lattice-point sphere.", "quantifier": "all lattices, all pairs of points in the unit cell", "why_tests_cant": "maximum over a continuum of points and lattices", "anchors": ["src/diffpy/srreal/Lattice.cpp:Lattice::ucMaxDiagonal", "src/diffpy/srreal/Lattice.cpp:Lattice::ucMaxDiagonalLength"]}
{"id": "C59", "title": "Overlap gradients", "statement": "gradients() is the gradient of totalSquareOverlap: for every site and every direction, the derivative of the total when the site and its images move is the scalar product of the direction with the returned vector of that site.", "quantifier": "all reversible bond lists, radii, sites and directions", "why_tests_cant": "a derivative over real coordinates for unbounded bond lists", "anchors": ["src/diffpy/srreal/OverlapCalculator.cpp:OverlapCalculator::gradients"]}
{"id": "C60", "title": "Coordination numbers", "statement": "coordinations()[i] is the sum of occupancies of the neighbours that overlap with site i, and coordinationByTypes(i) splits exactly that sum by atom type, after any sequence of evaluations, merges, queries, saves and loads.", "quantifier": "all bond lists and all histories of calls", "why_tests_cant": "depends on the order of queries, merges and serialization", "anchors": ["src/diffpy/srreal/OverlapCalculator.cpp:OverlapCalculator::coordinations", "src/diffpy/srreal/OverlapCalculator.cpp:OverlapCalculator::coordinationByTypes", "src/diffpy/srreal/OverlapCalculator.cpp:OverlapCalculator::getNeighborIds", "src/diffpy/srreal/OverlapCalculator.hpp:OverlapCalculator::serialize"]}
{"id": "C61", "title": "RDF and F(Q) are sums of peaks", "statement": "After eval(stru) the RDF at every r of getRgrid is the sum over the counted pairs of f_i f_j * multiplicity * profile(r - d) * r/d, divided by the number of atoms and the squared average scattering factor, RDFperR is RDF/r (0 at r=0), and F(Q) is the sine transform of RDFperR plus baseline over the extended grid; this does not depend on any earlier calls.", "quantifier": "all structures, pairs, settings and histories of calls", "why_tests_cant": "real-valued inputs, grids and histories of calls are unbounded", "anchors": ["src/diffpy/srreal/PDFCalculator.cpp:PDFCalculator::addPairContribution", "src/diffpy/srreal/PDFCalculator.cpp:PDFCalculator::getExtendedRDF", "src/diffpy/srreal/PDFCalculator.cpp:PDFCalculator::getRDFperR", "src/diffpy/srreal/PDFCalculator.cpp:PDFCalculator::getF"]}
{"id": "C62", "title": "PDF counts every pair whose peak reaches the r-grid", "statement": "Every pair of the structure whose peak (not wider than the widest one announced by the width model) has a grid point in its cutoff bounds is within the distance limits given to the bond generator.", "quantifier": "all settings, widths and distances", "why_tests_cant": "real-valued inputs, grids and histories of calls are unbounded", "anchors": ["src/diffpy/srreal/PDFCalculator.cpp:PDFCalculator::configureBondGenerator", "src/diffpy/srreal/PDFCalculator.cpp:PDFCalculator::cacheRlimitsData"]}
{"id": "C63", "title": "FFT conversions are sine transforms and inverse to each other", "statement": "fftgtof returns rstep * sum g(r) sin(Q r) at Q = i*pi/(N*rstep), N the padded length, and fftftog of this returns the original g, zero-padded, with no access out of bounds.", "quantifier": "all arrays, steps and offsets", "why_tests_cant": "real-valued inputs, grids and histories of calls are unbounded", "anchors": ["src/diffpy/srreal/PDFUtils.cpp:fftgtof", "src/diffpy/srreal/PDFUtils.cpp:fftftog"]}
{"id": "C64", "title": "PDF is RDF/r plus baseline restricted to Qmin..Qmax", "statement": "After eval (range below 10^8) getPDF at every r of the grid is RDFperR plus baseline if the Q-range is not restricted, otherwise the inverse sine transform of F(Q) over the Q-grid points between qmin and qmax, times the product of all envelopes.", "quantifier": "all structures, pairs, settings and histories", "why_tests_cant": "real-valued inputs, grids and histories of calls are unbounded", "anchors": ["src/diffpy/srreal/PDFCalculator.cpp:PDFCalculator::getPDF", "src/diffpy/srreal/PDFCalculator.cpp:PDFCalculator::getExtendedPDF"]}
{"id": "C65", "title": "Linear baseline slope with masks", "statement": "After eval the slope of the linear baseline is -4 pi rho0 times the occupancy-weighted fraction of ordered site pairs not masked out, so that baselines of complementary partial PDFs add up to the one of the full PDF.", "quantifier": "all structures and all sequences of mask operations", "why_tests_cant": "real-valued inputs, grids and histories of calls are unbounded", "anchors": ["src/diffpy/srreal/PDFCalculator.cpp:PDFCalculator::resetValue", "src/diffpy/srreal/PDFCalculator.cpp:PDFCalculator::cacheStructureData"]}
{"id": "C66", "title": "PDF fast updates give the results of a complete evaluation", "statement": "After an evaluation and any number of fast updates, with ranges that change with the structure, all results are those of a complete evaluation whenever the tracked sum of peaks is that of the last structure on the extended grid.", "quantifier": "all histories of evaluations and updates", "why_tests_cant": "real-valued inputs, grids and histories of calls are unbounded", "anchors": ["src/diffpy/srreal/PDFCalculator.cpp:PDFCalculator::stashPartialValue", "src/diffpy/srreal/PDFCalculator.cpp:PDFCalculator::restorePartialValue", "src/diffpy/srreal/PDFCalculator.cpp:PDFCalculator::resetValue"]}
{"id": "C67", "title": "Deviation of bond valence sums", "statement": "bvmsdiff is the mean square deviation of absolute bond valence sums from absolute expected valences over all atoms, weighted by occupancy and multiplicity; it is never negative, it is zero exactly when every occupied site matches, and bvrmsdiff is its root.", "quantifier": "all structures, valences and calculated sums", "why_tests_cant": "all structures and values", "anchors": ["src/diffpy/srreal/BVSCalculator.cpp:BVSCalculator::bvmsdiff", "src/diffpy/srreal/BVSCalculator.cpp:BVSCalculator::bvrmsdiff", "src/diffpy/srreal/StructureAdapter.cpp:StructureAdapter::totalOccupancy"]}
{"id": "C68", "title": "Debye calculator r-range and Q-step", "statement": "After an evaluation a DebyePDFCalculator looks at all pairs with distances from rmin - e to rmax + e, where e is the smaller of maxextension and ripples plus peak tails; the limits and the Q-step follow from the settings and the structure alone and the Q-step never exceeds the optimum for the upper limit.", "quantifier": "every history of setter calls and evaluations", "why_tests_cant": "the upper limit is kept with a hysteresis of 50 steps, so results depend on earlier structures; tests use fresh calculators", "anchors": ["src/diffpy/srreal/DebyePDFCalculator.cpp: cacheRlimitsData, updateQstep"]}
{"id": "C69", "title": "Debye calculator settings accepted or rejected as a whole", "statement": "Every call of a setter of DebyePDFCalculator either changes just the named setting (and the Q-step derived from it) or throws invalid_argument and leaves the calculator as it was; settings never leave their documented ranges.", "quantifier": "every setter, argument and history", "why_tests_cant": "an exception from the derived Q-step comes after the change; needs all argument values and histories", "anchors": ["src/diffpy/srreal/DebyePDFCalculator.cpp: setQmax, setQstep, setRmax", "src/diffpy/srreal/BaseDebyeSum.cpp: setQstep"]}
{"id": "C70", "title": "Debye calculator results stay inside their arrays", "statement": "getF, getPDF, getRDF and getRDFperR of a DebyePDFCalculator return one value for each point of getQgrid or getRgrid and never touch memory outside of their arrays.", "quantifier": "every history of settings and evaluations", "why_tests_cant": "out of range reads need particular ratios of range, step and array size, or settings changed after an evaluation", "anchors": ["src/diffpy/srreal/DebyePDFCalculator.cpp: getPDFAtQmin", "src/diffpy/srreal/BaseDebyeSum.cpp: getF"]}
{"id": "C71", "title": "Debye PDF is the sine transform of F", "statement": "getPDF of a DebyePDFCalculator is the sine transform of F(Q) over the Q-grid from Qmin on, interpolated linearly between points at most rstep apart, times all envelopes; getRDFperR is the same without Qmin and envelopes and getRDF is r times it.", "quantifier": "every evaluated structure, settings and r", "why_tests_cant": "tests compare a few points with stored values", "anchors": ["src/diffpy/srreal/DebyePDFCalculator.cpp: getPDF, getRDF, getRDFperR, getPDFAtQmin"]}
{"id": "C72", "title": "Debye fast update equals full evaluation", "statement": "A fast update of a DebyePDFCalculator gives the same Debye sum as a full evaluation of the new structure.", "quantifier": "every evaluated structure, every change of structure, removed and added pairs", "why_tests_cant": "depends on the history of the calculator and on limits that may change silently", "anchors": ["src/diffpy/srreal/BaseDebyeSum.cpp: stashPartialValue, restorePartialValue, addPairContribution", "src/diffpy/srreal/PQEvaluator.cpp: updateValueCompletely"]}
{"id": "C73", "title": "Symmetry queries see the current crystal", "statement": "getEquivalentAtoms and siteMultiplicity always describe the sites, lattice, symmetry operations and precision in force; setSymmetryPrecision rejects values that are not positive and leaves the crystal alone.", "quantifier": "all histories of calls on a crystal", "why_tests_cant": "the cache of expanded positions can be stale after any interleaving of changes and queries", "anchors": ["src/diffpy/srreal/CrystalStructureAdapter.cpp:CrystalStructureAdapter::getEquivalentAtoms", "src/diffpy/srreal/CrystalStructureAdapter.cpp:CrystalStructureAdapter::siteMultiplicity", "src/diffpy/srreal/CrystalStructureAdapter.cpp:CrystalStructureAdapter::isSymmetryCached", "src/diffpy/srreal/CrystalStructureAdapter.cpp:CrystalStructureAdapter::setSymmetryPrecision", "src/diffpy/srreal/CrystalStructureAdapter.cpp:CrystalStructureAdapter::addSymOp", "src/diffpy/srreal/CrystalStructureAdapter.cpp:CrystalStructureAdapter::clearSymOps"]}
{"id": "C74", "title": "Displacement tensors of equivalent atoms", "statement": "The displacement tensor of a symmetry equivalent atom is that of the original atom turned by the Cartesian rotation of the symmetry operation; the tensor Ucartesian0 belongs to the position r0.", "quantifier": "all lattices, operations and tensors", "why_tests_cant": "holds for every cell shape; tests use conventional cells", "anchors": ["src/diffpy/srreal/CrystalStructureAdapter.cpp:CrystalStructureAdapter::expandLatticeAtom", "src/diffpy/srreal/Lattice.cpp:Lattice::fractionalMatrix", "src/diffpy/srreal/CrystalStructureAdapter.cpp:CrystalStructureBondGenerator::selectAnchorSite", "src/diffpy/srreal/BaseBondGenerator.cpp:BaseBondGenerator::Ucartesian0"]}
{"id": "C75", "title": "Values follow the settings of shared components", "statement": "After eval() the value of a calculator was computed with the settings then in force: its own, and those of the peak width model, scattering factor table and peak profile it points to, even when these objects are shared with other calculators and were changed through them or directly. The fast update is lost only by calls that concern the calculator or an object it points to. A component assigned through the non-const reference of a getter is not covered: it can be missed.", "quantifier": "all histories of constructors, clones, setters, type changes and evaluations of any number of calculators and components", "why_tests_cant": "holds for every history and every pattern of sharing; tests exercise one calculator and a few setters", "anchors": ["src/diffpy/srreal/PeakWidthModel.cpp:PeakWidthModelOwner::ticker", "src/diffpy/srreal/ScatteringFactorTable.cpp:ScatteringFactorTableOwner::ticker", "src/diffpy/srreal/PDFCalculator.cpp:PDFCalculator::ticker", "src/diffpy/srreal/BaseDebyeSum.cpp:BaseDebyeSum::ticker", "src/diffpy/srreal/PQEvaluator.cpp:PQEvaluatorOptimized::updateValue"]}
{"id": "C76", "title": "Copies of calculators are independent", "statement": "Calculators have value semantics: after copying or assigning a calculator, evaluations and settings of the copy do not change what eval(stru) of the original returns, and the other way round.", "quantifier": "all histories of construction, copying, assignment, settings and evaluations of any number of calculators", "why_tests_cant": "depends on the whole history of all copies; tests evaluate a single object", "anchors": ["src/diffpy/srreal/PairQuantity.hpp:PairQuantity", "src/diffpy/srreal/PairQuantity.cpp:PairQuantity::setEvaluatorType", "src/diffpy/srreal/PQEvaluator.cpp:createPQEvaluator", "src/diffpy/srreal/PQEvaluator.cpp:PQEvaluatorOptimized::updateValue"]}
{"id": "C77", "title": "Electron numbers of atoms and ions", "statement": "electronnumber returns the atomic number minus the charge for every listed element and ion, however the charge is written and with any isotope prefix; an element or charge that is not listed throws invalid_argument; an incomplete file is refused. The shipped table has exactly the required 447 entries.", "quantifier": "all well-formed ion lists, all symbols made of an isotope prefix, an element and a charge; every line of the shipped file", "why_tests_cant": "tests try a handful of symbols; the claim covers every entry and every spelling", "anchors": ["src/diffpy/srreal/scatteringfactordata.cpp:electronnumber", "src/diffpy/srreal/scatteringfactordata.cpp:getElectronNumberTable", "src/runtime/ionlist.dat"]}
{"id": "C78", "title": "X-ray and electron scattering factors", "statement": "fxrayatq is the sum of five Gaussians and a constant with the numbers of the table for the symbol, at s = Q/4pi; felectronatq follows from it by the Mott-Bethe formula and is the largest double near Q = 0; both are even in Q; a symbol may carry an isotope prefix and its charge can be written with or without the digit 1; an unknown symbol throws invalid_argument. An isotope prefix on an ion with a charge of 2 or more should work too (it does not).", "quantifier": "all well-formed tables, all symbols and spellings, all Q; every entry of the shipped file", "why_tests_cant": "tests compare single numbers; the claim covers all entries, spellings and Q", "anchors": ["src/diffpy/srreal/scatteringfactordata.cpp:fxrayatq", "src/diffpy/srreal/scatteringfactordata.cpp:felectronatq", "src/diffpy/srreal/scatteringfactordata.cpp:findWKFormula", "src/diffpy/srreal/scatteringfactordata.cpp:getWKFormulasSet", "src/runtime/f0_WaasKirf.dat"]}
{"id": "C79", "title": "Neutron scattering lengths", "statement": "bcneutron returns the value of the table for an isotope given as A-El; for an element its natural value, or that of its only or long-lived isotope; n, D and T mean 1-n, 2-H and 3-H; characters behind the symbol (charges, digits, a dash) are ignored; an element without a value throws invalid_argument.", "quantifier": "all well-formed tables, all symbols; every entry of the shipped file", "why_tests_cant": "tests try a few symbols; the claim covers every entry and the choice between lines of one element", "anchors": ["src/diffpy/srreal/scatteringfactordata.cpp:bcneutron", "src/diffpy/srreal/scatteringfactordata.cpp:getNeutronBCTable", "src/runtime/nsftable.dat"]}
{"id": "C80", "title": "Data tables are read once", "statement": "The first call that needs a data table reads it; from then on all calls answer from that text, whatever happens to the file or to DIFFPYRUNTIME and whatever other calls are made in between. A call after a failure to open the file should read it again (it does not: after a failure the table stays empty for the life of the process).", "quantifier": "all histories of calls and of file system and environment changes", "why_tests_cant": "depends on the history of the process and of the file system", "anchors": ["src/diffpy/srreal/scatteringfactordata.cpp:getWKFormulasSet", "src/diffpy/srreal/scatteringfactordata.cpp:getElectronNumberTable", "src/diffpy/srreal/scatteringfactordata.cpp:getNeutronBCTable", "src/diffpy/srreal/BVParametersTable.cpp:BVParametersTable::getStandardSetOfBVParam"]}
{"id": "C81", "title": "Path of the data files", "statement": "datapath(f) is f in the directory named by the current value of DIFFPYRUNTIME, without trailing slashes and with links resolved, or in the library's own data directory when the variable is unset or empty; it throws runtime_error when there is no such directory. Earlier calls with other values do not matter, and a remembered answer is never that of another value of the variable.", "quantifier": "all histories of calls, values of the variable and file systems", "why_tests_cant": "the result is cached in static variables, so it could depend on the whole history", "anchors": ["src/diffpy/runtimepath.cpp:datapath", "src/diffpy/runtimepath.cpp:diffpyruntime"]}
{"id": "C82", "title": "Standard bond valence parameters come from the file", "statement": "For every bond the standard parameters are those of the first line of the data file for this bond, with its atoms in either order; a bond without a line has none.", "quantifier": "all well-formed parameter files and all bonds", "why_tests_cant": "the file has over a thousand lines with duplicates and both orders; tests look up a few", "anchors": ["src/diffpy/srreal/BVParametersTable.cpp:BVParametersTable::getStandardSetOfBVParam", "src/diffpy/srreal/BVParam.cpp:BVParam::setFromCifLine"]}
{"id": "C83", "title": "Saved and loaded calculators", "statement": "A calculator that is saved to an archive and loaded, in the same or another process, answers all further calls with the same values, structures, configuration and exceptions as the original would when the loading process is not in an earlier epoch of the event counter; and whatever the processes, every later eval(s) returns the sum over all pairs of s for the present configuration, never a value made stale by the move. A calculator with the CHECK evaluator cannot be saved.", "quantifier": "all calculators, histories before and after, event counters of both processes, and any number of moves", "why_tests_cant": "the age of the cached value is compared with times of another process; the outcome depends on both histories", "anchors": ["src/diffpy/srreal/PairQuantity.hpp:PairQuantity::serialize", "src/diffpy/srreal/PQEvaluator.hpp:PQEvaluatorBasic::serialize", "src/diffpy/srreal/PQEvaluator.hpp:PQEvaluatorOptimized::serialize", "src/diffpy/EventTicker.hpp:EventTicker::load"]}
{"id": "C84", "title": "PairCounter counts each pair of atoms once", "statement": "For isolated and periodic structures PairCounter returns the number of pairs of atoms whose distance is in the limits and whose mask is on, each pair counted once although it has two ends; the internal value is a whole number, so the conversion to int loses nothing. A group of n atoms in different places has n(n-1)/2 pairs.", "quantifier": "all isolated and periodic structures, limits, masks without contradicting wildcards, histories of evaluations, half and full sums", "why_tests_cant": "tests count a few structures; halves of contributions, images of an atom itself and masks must add up to whole pairs always", "anchors": ["src/diffpy/srreal/PairCounter.hpp:PairCounter::operator()", "src/diffpy/srreal/PairCounter.cpp:PairCounter::addPairContribution", "src/diffpy/srreal/PQEvaluator.cpp:PQEvaluatorBasic::updateValue"]}
{"id": "C85", "title": "Values are sums over neighbours in the structure", "statement": "For every structure (isolated, periodic or crystal) eval(s) returns the sum of the pair contributions over all atoms and all images of atoms in the distance limits, each image once, whatever was evaluated or configured before, whichever evaluator is used, in serial or merged from parallel workers; without symmetry operations the sum over half of the pairs with double weight is the same.", "quantifier": "all structures with valid lattices, quantities, configurations, histories of evaluations, evaluators, numbers of workers", "why_tests_cant": "joins the geometry of the bond generators, structure differences with floating point atoms and the incremental evaluators; tests see single structures and short histories", "anchors": ["src/diffpy/srreal/PQEvaluator.cpp:PQEvaluatorBasic::updateValue", "src/diffpy/srreal/PQEvaluator.cpp:PQEvaluatorOptimized::updateValue", "src/diffpy/srreal/AtomicStructureAdapter.cpp:AtomicStructureAdapter::diff", "src/diffpy/srreal/PeriodicStructureAdapter.cpp:PeriodicStructureAdapter::diff", "src/diffpy/srreal/CrystalStructureAdapter.cpp:CrystalStructureAdapter::diff", "src/diffpy/srreal/BaseBondGenerator.cpp:BaseBondGenerator::next"]}
{"id": "C86", "title": "Half sums of crystals with a space group", "statement": "In a crystal whose symmetry operations form a space group and whose atoms are at exactly special or clearly general positions, the contributions of two sites, each weighted with the multiplicity of the site it starts from, are the same from both ends; so half sums with double weight, full sums, and values merged from workers are the same, for every quantity that does not change when a pair is reversed or turned, also with anisotropic displacements that have the symmetry of their sites.", "quantifier": "all lattices, space groups, structures, quantities, histories, evaluators, numbers of workers", "why_tests_cant": "half sums visit only one direction of each pair and rely on the orbit structure of every space group and site; tests try a few crystals with tolerances", "anchors": ["src/diffpy/srreal/PQEvaluator.cpp:PQEvaluatorBasic::updateValue", "src/diffpy/srreal/CrystalStructureAdapter.cpp:CrystalStructureAdapter::siteMultiplicity", "src/diffpy/srreal/CrystalStructureAdapter.cpp:CrystalStructureAdapter::expandLatticeAtom", "src/diffpy/srreal/PDFCalculator.cpp:PDFCalculator::addPairContribution"]}
{"id": "C87", "title": "DebyePDFCalculator evaluates the Debye equation of the structure", "statement": "For structures whose atoms of one type have one occupancy, and after any history of calls, eval(structure) of DebyePDFCalculator leaves at every point Q of its grid the sum of f_i f_j sin(Q r_ij)/r_ij exp(-sigma_ij^2 Q^2/2) over the atoms of the cell and all their periodic and symmetry-equivalent neighbours within the limits, each pair at its true distance, weighted by site multiplicity and with the width that the peak width model gives for the displacement tensors of both atoms, up to the debye precision for each pair; full and half sums agree (half sums: structures without symmetry operations, or crystals with a space group and exact positions), masked pairs are left out; F(Q) is that sum divided by the number of atoms and the square of their mean scattering factor.", "quantifier": "all structures (isolated, periodic, crystals), lattices, symmetry operations, settings, histories, masks, peak width models", "why_tests_cant": "the result depends on the whole chain from lattice and symmetry expansion over bond search, pair loop and peak width to the sum; tests compare a few structures with stored values", "anchors": ["src/diffpy/srreal/DebyePDFCalculator.cpp:DebyePDFCalculator::configureBondGenerator", "src/diffpy/srreal/BaseDebyeSum.cpp:BaseDebyeSum::addPairContribution", "src/diffpy/srreal/PQEvaluator.cpp:PQEvaluatorBasic::updateValue", "src/diffpy/srreal/BaseBondGenerator.cpp", "src/diffpy/srreal/JeongPeakWidth.cpp:JeongPeakWidth::calculate"]}
{"id": "C88", "title": "PDFCalculator evaluates the peaks of all neighbours in the structure", "statement": "After any history of calls, eval(structure) of PDFCalculator leaves an RDF that at every point of its grid is the sum of the profiles of all periodic and symmetry-equivalent neighbours of the atoms of the cell that are within the limits and whose profile reaches that point, at their true distances and widths, weighted by site multiplicity, occupancies and scattering powers, divided by the number of atoms in the cell and the square of their mean scattering power; RDF/r, F and PDF follow from it; the slope of the default baseline is -4 pi times the atom density of the structure times the fraction of pairs that are not masked out; full and half sums give the same results for structures without symmetry operations and for crystals with a space group and exact positions.", "quantifier": "all structures (isolated, periodic, crystals), lattices, symmetry operations, settings, histories, masks, profiles, peak width models", "why_tests_cant": "the result depends on the whole chain from lattice and symmetry expansion over bond search, pair loop and peak width to the sum; tests compare a few structures with stored values", "anchors": ["src/diffpy/srreal/PDFCalculator.cpp:PDFCalculator::addPairContribution", "src/diffpy/srreal/PDFCalculator.cpp:PDFCalculator::configureBondGenerator", "src/diffpy/srreal/StructureAdapter.cpp:StructureAdapter::totalOccupancy", "src/diffpy/srreal/PeriodicStructureAdapter.cpp:PeriodicStructureAdapter::numberDensity", "src/diffpy/srreal/PQEvaluator.cpp:PQEvaluatorBasic::updateValue"]}
{"id": "C89", "title": "ObjCryst crystals and molecules become the structures they describe", "statement": "createStructureAdapter(crystal) for an ObjCryst crystal gives an adapter with its cell (lengths and angles), one atom per scattering component with a scattering power, in order, at its position with its occupancy, symbol and mean square displacements B/(8 pi^2) along every direction, and with all operations of its space group: every listed operation with every centring translation and with the inversion; they form a group when the listed ones generate one, and no vector element is read or written out of bounds or left uninitialized. Equivalent atoms are ready and right for these. createStructureAdapter(molecule) gives the atoms that are not dummies.", "quantifier": "all crystals with valid cell, all lists of operations, centring translations whose first is zero, inversion centres, components, molecules", "why_tests_cant": "tests load a few CIF files; the index arithmetic must be right for every number of operations, translations and inversion", "anchors": ["src/diffpy/srreal/ObjCrystStructureAdapter.cpp:fetchSymmetryOperations", "src/diffpy/srreal/ObjCrystStructureAdapter.cpp:getUij", "src/diffpy/srreal/ObjCrystStructureAdapter.cpp:createStructureAdapter"]}
{"id": "C90", "title": "Bond valence sums of structures", "statement": "eval(structure) of BVSCalculator gives for every atom the sum of the bond valences to all its neighbours up to rmaxused, with their occupancies and the sign of the atom's valence, whether the structure is a molecule, periodic, or a crystal given by its space group, with full or half sums and masks, and for any number of workers whose results are merged in any order.", "quantifier": "all structures, parameter tables, masks, limits, numbers of workers and orders of merging", "why_tests_cant": "tests compare a few crystals; the infinitely many structures differ in multiplicities, site order and neighbours", "anchors": ["src/diffpy/srreal/BVSCalculator.cpp:addPairContribution", "src/diffpy/srreal/PQEvaluator.cpp:PQEvaluatorBasic::updateValue", "src/diffpy/srreal/CrystalStructureAdapter.cpp"]}
{"id": "C91", "title": "Overlaps in structures", "statement": "After eval(structure), or a merge of the results of any number of workers in any order, OverlapCalculator reports for every atom the number of neighbours within rmin..rmax that its sphere overlaps with, also by type, and their squared overlaps, weighted by occupancy; total and mean are those of the whole unit cell; flipDiffTotal and flipDiffMean are the changes when two sites with all their equivalents exchange radii; getNeighborSites and neighborhoods follow the chains of overlaps; gradients are the derivatives of the total. All of this also holds in crystals given by a space group, and rmaxused loses no overlap.", "quantifier": "all structures, radii tables, masks, limits, numbers of workers, orders of merging and earlier uses of the calculator", "why_tests_cant": "tests look at a handful of crystals; symmetry, site order, limits and the order of merged results vary without bound", "anchors": ["src/diffpy/srreal/OverlapCalculator.cpp:addPairContribution", "src/diffpy/srreal/OverlapCalculator.cpp:flipDiffTotal", "src/diffpy/srreal/OverlapCalculator.cpp:neighborhoods", "src/diffpy/srreal/PQEvaluator.cpp:PQEvaluatorBasic::updateValue", "src/diffpy/srreal/PairQuantity.cpp:mergeParallelData"]}
{"id": "C92", "title": "Bond lists of structures", "statement": "After any history of evaluations of molecules, periodic structures and crystals, and of changes of limits, masks and cone filters, BondCalculator::eval(structure) lists, sorted by distance, sites and direction, every bond from an atom to an image of an atom (symmetry equivalent plus lattice translation) with length in rmin..rmax that is not masked out and whose direction is accepted by the cones in force: each exactly once, nothing else, whether the list was computed from scratch, updated from the previous structure, or merged from two or more workers.", "quantifier": "all structures of a program, settings, histories of evaluations, numbers of workers and orders of merging", "why_tests_cant": "completeness of a bond list depends on cell shape, symmetry, limits and the previous structure, all unbounded; tests compare counts for a few crystals", "anchors": ["src/diffpy/srreal/BondCalculator.cpp:addPairContribution", "src/diffpy/srreal/BondCalculator.cpp:finishValue", "src/diffpy/srreal/BondCalculator.cpp:checkConeFilters", "src/diffpy/srreal/PQEvaluator.cpp:PQEvaluatorOptimized::updateValue", "src/diffpy/srreal/CrystalStructureAdapter.cpp:createBondGenerator"]}
{"id": "C93", "title": "PDFs computed by several workers", "statement": "When PDFCalculator or DebyePDFCalculator evaluates a structure in parallel, i.e. N copies of the calculator (with any history, copied before or after setStructure) evaluate as workers 0..N-1 of N and their getParallelData are merged in any order into the calculator with that structure set, then the calculator ends in exactly the state of a serial eval(structure), or throws what the serial evaluation throws: each neighbour pair is counted once. Setting the same structure again changes nothing. Calculators that only have equal settings but another history can have values of another size, in which case the merge throws.", "quantifier": "for every structure that can be built, every history of calls, every peak width model, mask, full or half sum, every number of workers and every order of the merges", "why_tests_cant": "The split of loops depends on the numbers of sites, bonds and workers and the state on the history; tests fix a few.", "anchors": ["src/diffpy/srreal/PairQuantity.cpp: eval, mergeParallelData, getParallelData", "src/diffpy/srreal/PQEvaluator.cpp: PQEvaluatorBasic::updateValue, setupParallelRun", "src/diffpy/srreal/BaseDebyeSum.cpp: resetValue", "src/diffpy/srreal/DebyePDFCalculator.cpp: resetValue", "src/diffpy/srreal/PDFCalculator.cpp: resetValue"]}
{"id": "C94", "title": "r- and Q-grids in machine arithmetic", "statement": "With doubles as the machine rounds them, getRgrid returns strictly ascending rounded multiples n*rstep with n*rstep < rmax in exact arithmetic, none above rmax and none more than 2^-26 (plus a few units in the last place) below rmin; every multiple from rmin up to one unit in the last place below rmax is listed. The same holds for getQgrid. That the points stay strictly below rmax is false: with rstep 0.01 and rmax 4.19 the last point is rmax itself.", "quantifier": "all double values of rmin, rmax, rstep (rstep above 2^-26, step counts that fit an int), every point of the grid", "why_tests_cant": "off-by-one points depend on the rounding of a quotient for particular values (287 of the 10000 multiples of 0.01 below 100); tests try a few", "anchors": ["src/diffpy/srreal/PDFUtils.ipp: pdfutils_rminSteps, pdfutils_rmaxSteps, pdfutils_getRgrid, pdfutils_getQgrid", "src/diffpy/mathutils.ipp: eps_eq"]}
{"id": "C95", "title": "range limits and memory safety in machine arithmetic", "statement": "With doubles as the machine rounds them, the calculation range of PDFCalculator contains the extended range and that contains the requested range whenever the extension does not exceed the maximum, or it does and the widest peak is at least 2^-17 wide; getRDF then reads inside its value array and returns one value per grid point, the one computed for that point. Without peak widths it is false: rmin 0, rmax 5, rstep 0.01, maxextension 10, qmax 2.1 and a structure without displacements read one element past the array.", "quantifier": "all double settings with step counts that fit an int, all peak widths, all values", "why_tests_cant": "one rounding in the rescaling of the extension decides; an out-of-range read rarely changes a test's result", "anchors": ["src/diffpy/srreal/PDFCalculator.cpp: cacheRlimitsData, extFromTerminationRipples, getExtendedRDF, cutRipplePoints, getRDF"]}
{"id": "C96", "title": "summation error in machine arithmetic", "statement": "With doubles as the machine rounds them, the value after eval(structure) differs from the exact sum over all pairs of the structure by at most ((1+2^-53)^n - 1) times the sum of the absolute values of the n contributions added (and subtracted by fast updates) since the value was last zeroed, for every evaluator and history; for N workers merged in any order n grows by N, so parallel and serial results differ by at most twice that. If the contributions are multiples of one power of two and small in sum (PairCounter up to 2^52 pairs) values are exact. OPTIMIZED and BASIC need not agree: subtracting a contribution that swamped the others leaves a wrong remainder.", "quantifier": "all calculators with double contributions, all histories of evaluations, configurations and evaluator types, all numbers of workers and merge orders", "why_tests_cant": "the bound is over all orders of rounding errors; tests compare with loose tolerances on benign data", "anchors": ["src/diffpy/srreal/PQEvaluator.cpp: updateValue (all evaluators)", "src/diffpy/srreal/PairQuantity.cpp: executeParallelMerge", "src/diffpy/srreal/PDFCalculator.cpp: addPairContribution", "src/diffpy/srreal/BaseDebyeSum.cpp: addPairContribution", "src/diffpy/srreal/PairCounter.cpp: addPairContribution"]}
{"id": "C97", "title": "comparisons with tolerance in machine arithmetic", "statement": "With doubles as the machine rounds them: eps_eq(x, y) is symmetric, true whenever the values are within 2^-26 and false when they differ by more than 2^-26 + 2^-78; eps_gt(x, y) implies y + 2^-26 < x exactly, holds whenever x exceeds y + 2^-26 by one rounding error, is monotone and excludes eps_lt. ucvFractional always returns coordinates in [0, 1), leaves such coordinates alone and moves by a whole number up to the tolerance. The test that allows a fast update gives the exact answer for up to 2^24 sites. sind is accurate to 2^-58 |90 - x|. It is not true that one of eps_eq, eps_gt, eps_lt always holds (2^27 and the next double), nor that sind is positive for angles above 0.", "quantifier": "all double arguments; all structures of up to 2^24 sites and all numbers of removed sites", "why_tests_cant": "the boundary cases of rounding are a few values among 2^64; tests compare a handful of values", "anchors": ["src/diffpy/mathutils.ipp: eps_eq, eps_gt, eps_lt, sind", "src/diffpy/srreal/Lattice.cpp: ucvFractional", "src/diffpy/srreal/StructureDifference.cpp: allowsfastupdate"]}
{"id": "C98", "title": "no neighbour whose peak reaches the r-grid is missed in a structure", "statement": "After any history of calls, eval(structure) of PDFCalculator gives an RDF that at every point of its grid is the sum over all periodic and symmetry-equivalent neighbours of the atoms, at whatever distance, whose profile reaches that point: enlarging the distance range of the neighbours does not change the sum. This rests on maxWidth of the peak width model being an upper bound of the widths of all pairs of the structure.", "quantifier": "all structures (isolated, periodic, crystals), settings, histories, masks, profiles of the library at any precision, peak width models, and all larger distance ranges", "why_tests_cant": "the neighbours that could be missed are infinitely many, at all distances outside the range of the bond generator; tests compare with stored values obtained from the same range", "anchors": ["src/diffpy/srreal/PDFCalculator.cpp: cacheRlimitsData, extFromPeakTails, configureBondGenerator", "src/diffpy/srreal/JeongPeakWidth.cpp: maxWidth", "src/diffpy/srreal/DebyeWallerPeakWidth.cpp: maxWidth", "src/diffpy/srreal/GaussianProfile.cpp: xboundlo, xboundhi"]}
{"id": "C99", "title": "scattering factor tables of the library on top of its data files", "statement": "A table of type xray, electron, neutron or electronnumber answers every lookup, after any history of custom symbols, lookups and other library calls in the process, with the value that the data file gave when it was first needed: for the symbol itself, or for the source of a custom symbol times its scale; unknown symbols are invalid_argument. For the files of the source tree, the X-ray factor at Q = 0 of every atom and ion agrees with the electron number to 0.04, and electron factors follow the Mott-Bethe formula with this number.", "quantifier": "all four tables, all histories of table changes, lookups and library calls with changing environments, all symbols and Q; all records of the shipped files", "why_tests_cant": "tests look up a few symbols in a fresh process; they do not mix custom symbols, static tables and changes of the environment, and check a handful of records of the files", "anchors": ["src/diffpy/srreal/SFTXray.cpp: SFTXray::standardLookup", "src/diffpy/srreal/SFTElectron.cpp: SFTElectron::standardLookup", "src/diffpy/srreal/SFTNeutron.cpp: SFTNeutron::standardLookup", "src/diffpy/srreal/SFTElectronNumber.cpp: SFTElectronNumber::standardLookup", "src/diffpy/srreal/ScatteringFactorTable.cpp: lookup, setCustomAs", "src/diffpy/srreal/scatteringfactordata.cpp", "src/runtime/f0_WaasKirf.dat", "src/runtime/ionlist.dat"]}
{"id": "C100", "title": "bond valence parameters of the shipped file", "statement": "With the bond valence file of the source tree, a lookup for two ions whose bond is listed returns the Ro and B that are written there, in either order of the ions; a cation whose charge is not listed with that anion gets the record of the unspecified charge (9) if there is one; any other pair, and any two anions, has no parameters. All listed parameters are proper: no bond twice, the valence at Ro is 1, decreases with the length and is below 1e-5 from 15 A.", "quantifier": "all 1346 records of the file, all names of ions with mass numbers and charges up to 8, all bond lengths", "why_tests_cant": "tests look up a few bonds; the file has 1346 records, and the absence of parameters ranges over all other pairs of names", "anchors": ["src/diffpy/srreal/BVParametersTable.cpp: lookup, getStandardSetOfBVParam", "src/diffpy/srreal/BVParam.cpp: bondvalence, setFromCifLine", "src/diffpy/srreal/AtomUtils.cpp: atomBareSymbol, atomValence", "src/runtime/bvparm2011sel.cif"]}
{"id": "C101", "title": "results returned by reference", "statement": "floor, the products of a matrix and a vector, inverse, and the conversions of a lattice return references to static variables. After any history of calls each call delivers the value that its arguments call for and changes only its own results, also when its argument is such a reference (for example cartesian(fractional(v)) is v and inverse(inverse(A)) is A), except that a product must not take the result of the same product as its argument; a copy of a result keeps its value; determinant and inverse are exact for every matrix; setLatBase accepts references to its own members as long as none is used after it has been assigned; and the calls inside the library are all safe.", "quantifier": "all histories of calls, all arguments including references to earlier results, all matrices, lattices, symmetry operations and atoms", "why_tests_cant": "tests pass fresh vectors and use each result at once; which static variable an argument shares with an intermediate result depends on the history and the nesting of the calls", "anchors": ["src/diffpy/srreal/R3linalg.hpp: floor, mxvecproduct", "src/diffpy/srreal/R3linalg.cpp: determinant, inverse", "src/diffpy/srreal/Lattice.cpp: setLatBase, cartesian, fractional, ucvCartesian, ucvFractional, cartesianMatrix, fractionalMatrix", "src/diffpy/srreal/Lattice.hpp: va, vb, vc", "src/diffpy/srreal/CrystalStructureAdapter.cpp: expandLatticeAtom, updateSymmetryPositions", "src/diffpy/srreal/PeriodicStructureAdapter.cpp: toCartesian, toFractional"]}
{"id": "C102", "title": "threads of one process", "statement": "Calculations in several threads of one process. The library keeps results of vector functions in static variables and the event counter in one global counter, without locks. If a caller makes each call and the copy of its result under one lock, every thread holds exactly the results of its own calls, whatever the schedule; the same holds without a lock as long as no static variable is used by two threads. With clicks under a lock every later click has a larger value and no two clicks share a value. Otherwise threads that share no object still disturb each other.", "quantifier": "any number of threads, all programs of calls, all schedules of the single steps, all vectors and lattices", "why_tests_cant": "a test runs a few of the schedules, and the wrong ones are rare; the claim is about all of them", "anchors": ["src/diffpy/srreal/R3linalg.hpp: floor, mxvecproduct", "src/diffpy/srreal/Lattice.cpp: cartesian, fractional, ucvCartesian, ucvFractional", "src/diffpy/EventTicker.cpp: click"]}
{"id": "C103", "title": "structures edited in place", "statement": "A program may change a structure object it has handed to a calculator, directly or through a no-metadata or no-symmetry wrapper, between any two calls. With every evaluation method, eval gives at every moment the value of the contents the object has at that moment, exactly as if each call had been given a fresh structure with those contents; remembering the previous structure for the fast update never makes an edit go unnoticed. Results computed from the current structure after an edit and before the next eval (bvdiff, siteSquareOverlaps) stay within the evaluated sites.", "quantifier": "all programs of creations, edits in place, evaluations, changes of settings and of the evaluation method, all structures and wrappers of wrappers, all kinds of pair calculators", "why_tests_cant": "whether the remembered structure shares anything with the edited one matters only for some sequence of edits and calls; a test runs a few of them", "anchors": ["src/diffpy/srreal/PQEvaluator.cpp: PQEvaluatorOptimized::updateValue, updateValueCompletely", "src/diffpy/srreal/PairQuantity.cpp: eval, setStructure", "src/diffpy/srreal/AtomicStructureAdapter.cpp: clone, insert, erase, operator[]", "src/diffpy/srreal/NoMetaStructureAdapter.cpp: clone, diff", "src/diffpy/srreal/NoSymmetryStructureAdapter.cpp: clone, diff", "src/diffpy/srreal/BVSCalculator.cpp: bvdiff", "src/diffpy/srreal/OverlapCalculator.cpp: siteSquareOverlaps"]}
{"id": "C104", "title": "PDF calculator settings accepted or rejected as a whole, results by settings", "statement": "Every setter of PDFCalculator accepts exactly the documented range of arguments and otherwise throws invalid_argument without any effect. After any history of calls each setting is the argument of the last accepted call of its setter, or the default; nothing else of the history matters: calculators with equal settings give equal grids, RDF, RDFperR, F, PDF, bond limits and baseline for the same evaluation, in whatever order and however often the setters were called and whatever was evaluated before.", "quantifier": "all histories of setter calls, structure changes, evaluations and fast updates, all arguments including invalid ones, all structures", "why_tests_cant": "hidden dependence on the history (a cache that is not refreshed, limits computed for an older setting) shows only for some sequence of calls; there are unboundedly many", "anchors": ["src/diffpy/srreal/PDFCalculator.cpp: setRmin, setRmax, setRstep, setQmin, setQmax, setMaxExtension, resetValue, cacheStructureData, cacheRlimitsData", "src/diffpy/srreal/PDFCalculator.hpp: setPeakProfile, setBaseline"]}
{"id": "C105", "title": "copies of lattice point iterators", "statement": "A program may make any number of iterators over the lattice points in spherical shells, copy them, and advance and rewind them in any order. Each iterator shows the points that its own calls lead to; using one never changes another. A copy starts at the point its original shows and then visits the remaining points by itself.", "quantifier": "all programs of constructions, copies, next and rewind on any number of iterators, all cells and ranges", "why_tests_cant": "sharing of data between objects shows only for some interleavings of calls on several objects", "anchors": ["src/diffpy/srreal/PointsInSphere.hpp: PointsInSphere (members _mno, _m, _n, _o; implicit copy constructor)", "src/diffpy/srreal/PointsInSphere.cpp: constructors, rewind, next, next_m, next_n, next_o, mno, m, n, o", "src/diffpy/srreal/PointsInSphere.hpp: ReflectionsInQminQmax, ReflectionsInDmaxDmin (member sphere)"]}
{"id": "C106", "title": "angles and cone filters in machine arithmetic", "statement": "In double arithmetic a BondCalculator with cone filters lists a bond only if its angle with the axis of a cone in force is at most the opening angle up to rounding, and lists every bond whose angle is smaller by more than rounding, including the bonds along the axis. The angle between two vectors of a lattice is a number, does not depend on their order, and is that of a cosine close to the exact one.", "quantifier": "all sequences of filterCone and filterOff, all axes not shorter than 2^-25, all opening angles, all bond vectors not shorter than 2^-400, every math library with a given accuracy of acos; all metrics matrices of lattices that are not nearly flat", "why_tests_cant": "cosines of parallel directions are rounded to more than one only for some directions; a test with other directions passes, and the bounds must hold for all doubles", "anchors": ["src/diffpy/srreal/BondCalculator.cpp: filterCone, addPairContribution, checkConeFilters", "src/diffpy/srreal/R3linalg.hpp: dot, norm", "src/diffpy/srreal/Lattice.hpp: dot, norm, anglerad, angledeg", "src/diffpy/mathutils.ipp: acosd"]}
{"id": "C107", "title": "lattice points in a sphere in machine arithmetic", "statement": "In double arithmetic the iteration over the lattice points of a sphere ends, visits no point twice, visits only points closer than Rmax and misses none with Rmin <= r < Rmax; the origin is visited if and only if Rmin is not positive, however small Rmin is.", "quantifier": "all radii, all lattices that are not extremely oblique, all lattice points with int indices", "why_tests_cant": "tests compare a few lattices with round edges; whether a point near the surface is lost depends on how some ten operations are rounded, and a test cannot cover all doubles", "anchors": ["src/diffpy/srreal/PointsInSphere.cpp: PointsInSphere::init, rewind, next_m, next_n, next_o, LatticeParameters::update"]}
{"id": "C108", "title": "bonds of an atom in machine arithmetic", "statement": "In double arithmetic the bond loop of an atom ends and never shows the same image of a site twice; each bond it shows has, up to a tolerance of 2^-47 of the numbers involved, the distance and the direction of an image of the site, every bond is in the distance range up to this tolerance, and every image inside the range by more than it is shown. When one atom sees another, the other one sees it too.", "quantifier": "all structures (isolated ones and periodic ones in any lattice whose sphere data agree with its base up to 2^-40), anchors, site selections and distance ranges, all earlier uses of the generator", "why_tests_cant": "tests compare a few structures and ranges; whether a pair at the limit is lost, doubled or seen from one end only depends on the rounding of some twenty operations for arbitrary coordinates, and the number of images is not bounded", "anchors": ["src/diffpy/srreal/BaseBondGenerator.cpp: BaseBondGenerator::rewind, next, getNextBond, advanceWhileInvalid, updateDistance", "src/diffpy/srreal/PeriodicStructureAdapter.cpp: PeriodicStructureBondGenerator::rewind, iterateSymmetry, getNextBond, updater1, selectAnchorSite", "src/diffpy/srreal/Lattice.cpp: Lattice::ucvCartesian, ucMaxDiagonalLength"]}
{"id": "C109", "title": "bond generators and later edits of the atoms", "statement": "When the atoms of a structure are edited (moved, replaced, appended, erased) while one of its bond generators is in use, a later loop still shows each bond of one state of the structure exactly once: that of the time when the generator was made for periodic structures and crystals, that of now for isolated structures once the anchor has been selected again.", "quantifier": "all three kinds of structures, all histories of calls and edits that keep to the preconditions, also in the middle of a loop", "why_tests_cant": "tests make a generator and use it at once; which of the positions are copied and which are read again shows only in histories that mix calls and edits", "anchors": ["src/diffpy/srreal/BaseBondGenerator.cpp: BaseBondGenerator::selectAnchorSite, selectSiteRange, rewindSymmetry", "src/diffpy/srreal/PeriodicStructureAdapter.cpp: PeriodicStructureBondGenerator::PeriodicStructureBondGenerator, selectAnchorSite, updater1", "src/diffpy/srreal/CrystalStructureAdapter.cpp: CrystalStructureAdapter::createBondGenerator, CrystalStructureBondGenerator::symatoms"]}
{"id": "C110", "title": "peak widths in machine arithmetic", "statement": "In double arithmetic the Debye-Waller width of a pair is within 2^-18 of the root of the largest tensor element of sqrt(8 ln 2) times the root of the mean square displacement along the bond, and relatively precise when that displacement is not much smaller than the tensors (2^-49 for isotropic atoms); the two directions of a pair have the same Debye-Waller and Jeong widths bit for bit; the Jeong width without corrections is the Debye-Waller width bit for bit; no pair of isotropic sites exceeds the largest width of its structure even by a rounding error. A pair that does not move along its bond may have a positive width.", "quantifier": "all bonds that are not extremely short, all valid displacement tensors, all corrections (delta1, delta2 not negative for the largest width)", "why_tests_cant": "tests compare a few widths with a tolerance; cancellation in the displacement along a bond and agreement to the last bit show for particular tensors and directions only", "anchors": ["src/diffpy/srreal/StructureAdapter.cpp: meanSquareDisplacement, maxUii", "src/diffpy/srreal/BaseBondGenerator.cpp: BaseBondGenerator::msd", "src/diffpy/srreal/DebyeWallerPeakWidth.cpp: DebyeWallerPeakWidth::calculate, maxWidth", "src/diffpy/srreal/JeongPeakWidth.cpp: JeongPeakWidth::calculate, maxWidth, msdSharpeningRatio"]}
{"id": "C111", "title": "distance, Q and d of a lattice point in machine arithmetic", "statement": "In machine arithmetic r() of the iterator over lattice points is the length of the lattice vector up to rounding (relative 2^-37) for every cell that is not too flat, it is the same to the last bit for opposite points, a point is visited when r() is between Rmin and Rmax and r() of a visited point is less than Rmax (up to 2^-28), and Q() and d() of a reflection are 2 pi r and 1/r.", "quantifier": "all cells with a volume of at least a sixteenth of the box with the same edges, all edges between 2^-200 and 2^200, all indices up to 32767, all sines and cosines within 2^-50, all radii", "why_tests_cant": "tests compare a few distances in a few cells with a tolerance; the terms of r() cancel in an oblique cell, and how much is lost depends on all angles and indices", "anchors": ["src/diffpy/srreal/PointsInSphere.cpp: PointsInSphere::r, ReflectionsInQminQmax::Q, ReflectionsInQminQmax::d"]}
{"id": "C112", "title": "bond generators of crystals and later changes of the lattice", "statement": "A bond generator of a crystal measures in the lattice that the crystal has at the time of the loop, with the Cartesian positions of the equivalent atoms of the time when the generator was made; it shows no bond twice, every shown bond is in the range, and after a change of the lattice followed by a change of the limits it misses no image in the range unless the longest diagonal of the unit cell became shorter.", "quantifier": "all crystals, all programs of calls of the generator and changes of the lattice in any order, all limits, anchors and selections", "why_tests_cant": "tests do not change the lattice while a generator is in use; which bonds are lost depends on the order of rewinds, changes of the limits and changes of the lattice", "anchors": ["src/diffpy/srreal/PeriodicStructureAdapter.cpp: PeriodicStructureBondGenerator::rewind, setRmin, setRmax, iterateSymmetry", "src/diffpy/srreal/CrystalStructureAdapter.cpp: CrystalStructureBondGenerator"]}
