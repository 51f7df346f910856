{"claims": [
 {"property": "C01", "status": "proved", "theorems": ["C01_ticker_never_ahead_of_clock", "C01_click_is_newest", "C01_click_overflow_only_at_LONG_MAX", "C01_click_advances_with_wrapping_arithmetic"], "note": ""},
 {"property": "C02", "status": "proved", "theorems": ["C02_updateFrom_is_latest", "C02_updateFrom_order_independent", "C02_comparisons_of_one_total_order"], "note": ""},
 {"property": "C03", "status": "proved", "theorems": ["C03_load_preserves_order", "C03_load_preserves_strict_order", "C03_loaded_not_ahead", "C03_load_order_with_clicks_between_refuted"], "note": "order is guaranteed for loads with no click in between; the refuted theorem shows it can be reversed otherwise"},
 {"property": "C04", "status": "proved", "theorems": ["C04_pair_mask_symmetric"], "note": ""},
 {"property": "C05", "status": "proved", "theorems": ["C05_setPairMask_single", "C05_setPairMask_site_all", "C05_setPairMask_all_all", "C05_maskAllPairs", "C05_maskAllPairs_types", "C05_site_all_persists", "C05_setStructure_frame", "C05_setStructure_deterministic_refuted"], "note": "the refuted theorem marks the limit: contradictory site-with-all masks are re-applied by setStructure in hash container order"},
 {"property": "C06", "status": "proved", "theorems": ["C06_invertMask_pairs", "C06_invertMask_types", "C06_invertMask_involutive"], "note": ""},
 {"property": "C07", "status": "partial", "theorems": ["C07_type_masks_determine_pair_masks", "C07_setTypeMask_single", "C07_setTypeMask_all", "C07_type_mask_symmetric_partial", "C07_type_mask_symmetric_refuted", "C07_type_masks_order_independent_refuted"], "note": "proved without contradictory wildcard type masks; with them getTypeMask is asymmetric and pair masks depend on hash order (refuted theorems)"},
 {"property": "C08", "status": "partial", "theorems": ["C08_mask_change_clicks_partial", "C08_pair_mask_change_clicks_refuted", "C08_type_mask_change_clicks_refuted"], "note": "proved for histories without contradictory wildcard masks; refuted in general: setPairMask(k, all, m) and setTypeMask(a, all, m) can change a mask without a click"},
 {"property": "C09", "status": "proved", "theorems": ["C09_parallel_work_partition"], "note": ""},
 {"property": "C10", "status": "proved", "theorems": ["C10_merged_parallel_is_total"], "note": ""},
 {"property": "C11", "status": "proved", "theorems": ["C11_merge_protocol", "C11_reset_and_merge", "C11_merge_errors", "C11_merge_order"], "note": ""},
 {"property": "C12", "status": "proved", "theorems": ["C12_half_sum_is_full_sum", "C12_basic_value"], "note": "for calculators whose contribution is linear in the scale (doubling); BaseDebyeSum truncates small terms and is only odd in the scale"},
 {"property": "C13", "status": "proved", "theorems": ["C13_value_of_any_history", "C13_optimized_equals_basic"], "note": "for calculators whose addPairContribution adds an odd, exchange-symmetric amount (calc_ok); exact arithmetic; histories without setStructure and setupParallelRun, see C14 and C53"},
 {"property": "C14", "status": "partial", "theorems": ["C14_eval_after_setStructure_refuted", "C14_eval_after_setStructure_basic_partial", "C14_eval_after_setStructure_first_partial", "C14_eval_current_partial"], "note": "refuted for OPTIMIZED; proved for BASIC, before the first evaluation, and without setStructure"},
 {"property": "C15", "status": "proved", "theorems": ["C15_diff_exact", "C15_diff_method"], "note": ""},
 {"property": "C16", "status": "proved", "theorems": ["C16_atom_order_total"], "note": ""},
 {"property": "C17", "status": "proved", "theorems": ["C17_bonds_exact", "C17_calls_end", "C17_sphere_exists", "C17_without_anchor_refuted"], "note": "crystals: for structures whose equivalent positions lie in the first cell (C46 says when); the refuted theorem marks the limit: an anchor must have been selected"},
 {"property": "C18", "status": "proved", "theorems": ["C18_sphere_total", "C18_sphere_inside", "C18_sphere_complete", "C18_r_is_length"], "note": ""},
 {"property": "C19", "status": "partial", "theorems": ["C19_shell_partial", "C19_shell_exact", "C19_inner_bound_refuted"], "note": "exact visited set proved for every cell and shell (C19_shell_exact); it is the plain shell Rmin <= r < Rmax when no lattice point lies exactly at Rmin (C19_shell_partial); refuted otherwise on a cubic lattice"},
 {"property": "C20", "status": "proved", "theorems": ["C20_lattice_consistent", "C20_default_consistent", "C20_setLatPar_params", "C20_setLatBase_base", "C20_angles"], "note": ""},
 {"property": "C21", "status": "proved", "theorems": ["C21_ucvFractional", "C21_ucv_exact", "C21_ucvCartesian"], "note": ""},
 {"property": "C22", "status": "proved", "theorems": ["C22_reciprocal_involution", "C22_reciprocal_recomputed", "C22_reciprocal_dual", "C22_reciprocal_valid"], "note": ""},
 {"property": "C23", "status": "partial", "theorems": ["C23_setLatBase_throws", "C23_throw_state_partial", "C23_throw_keeps_state_refuted"], "note": "error cases and parameters proved; refuted that a throw leaves the lattice unchanged: setLatBase stores the base vectors before it throws"},
 {"property": "C24", "status": "proved", "theorems": ["C24_bonds_complete_and_sorted"], "note": "exact real arithmetic; serial runs, BASIC and OPTIMIZED evaluators; types0/types1 are the types at those sites and not modelled"},
 {"property": "C25", "status": "proved", "theorems": ["C25_fast_update_exact"], "note": ""},
 {"property": "C26", "status": "partial", "theorems": ["C26_parallel_merge_is_serial", "C26_single_worker_refuted", "C26_reused_workers_refuted"], "note": "proved for two or more new workers; refuted for one worker and for workers used again with OPTIMIZED"},
 {"property": "C27", "status": "proved", "theorems": ["C27_cone_filters", "C27_cone_clicks", "C27_cone_axis_error"], "note": "real arithmetic: acos of a dot product that rounding pushes above 1 is NaN in the code and rejects bonds exactly on the axis; not visible in this model"},
 {"property": "C28", "status": "proved", "theorems": ["C28_overlap_lists", "C28_totals", "C28_rmaxused_keeps_overlaps", "C28_flip_difference", "C28_flip_mean", "C28_flip_symmetric", "C28_flip_same_site", "C28_flip_checks_indices", "C28_generated_bonds_balanced", "C28_reversible_is_balanced", "C28_merge_after_query_refuted"], "note": "flipDiffTotal exact for bonds counted from both ends; the generators of isolated and periodic structures produce such bonds (C28_generated_bonds_balanced). Defect: bonds merged after a query of neighbours are missing (C28_merge_after_query_refuted)."},
 {"property": "C29", "status": "proved", "theorems": ["C29_neighborhoods_are_components", "C29_neighbor_sites"], "note": ""},
 {"property": "C30", "status": "proved", "theorems": ["C30_rgrid", "C30_nested_ranges", "C30_extension"], "note": ""},
 {"property": "C31", "status": "proved", "theorems": ["C31_peak_inside_array"], "note": "the point below the lower bound comes from the floor in calcIndex; the profile is evaluated there"},
 {"property": "C32", "status": "proved", "theorems": ["C32_restore_same_r"], "note": ""},
 {"property": "C33", "status": "partial", "theorems": ["C33_result_lengths_partial", "C33_calls_defined", "C33_lower_rmin_refuted", "C33_long_range_refuted"], "note": "proved after any history ending with an evaluation, getPDF with FFT for rmax+maxextension+rstep <= 1e8; refuted: (1) lowering rmin without a new eval makes getPDF/getRDF erase from begin()+negative, (2) a Q-step below 2^-26 makes std::fill run from begin() to begin()-1"},
 {"property": "C34", "status": "partial", "theorems": ["C34_sum_general", "C34_sum_partial", "C34_occupancy_refuted", "C34_F"], "note": "C34_sum_general gives the sum exactly for every history, structure and pair list: the scattering factor used for a site is that of the first site of its atom type. With one occupancy per type it is the Debye equation with a cut-off, within (number of pairs)*precision of the exact sum for scattering factors that do not grow with Q. C34_occupancy_refuted: sites of one type with different occupancies share the occupancy of the first one. Exact real arithmetic."},
 {"property": "C35", "status": "proved", "theorems": ["C35_inverse", "C35_decreasing", "C35_cut"], "note": ""},
 {"property": "C36", "status": "proved", "theorems": ["C36_lookup_order", "C36_set_then_lookup", "C36_reset_all", "C36_argument_order", "C36_argument_order_refuted", "C36_get_all", "C36_atom_valence", "C36_site_valence", "C36_lookup_by_symbols"], "note": ""},
 {"property": "C37", "status": "proved", "theorems": ["C37_bare_symbol", "C37_every_string", "C37_valence", "C37_consistent", "C37_other_strings_refuted"], "note": ""},
 {"property": "C38", "status": "partial", "theorems": ["C38_lookup", "C38_malformed", "C38_roundtrip_partial", "C38_text", "C38_digits_refuted", "C38_separator_refuted"], "note": "lookups and malformed text in full; the round trip needs symbols without blank, comma or colon, a separator with a comma, and numbers that print exactly - refuted otherwise (six digits, blank separator)"},
 {"property": "C39", "status": "partial", "theorems": ["C39_lookup", "C39_value", "C39_copy", "C39_ticker", "C39_zero_source_refuted", "C39_zero_source_elsewhere"], "note": "the custom value is refuted for a source whose standard value is zero at that q: the call succeeds and the lookup gives NaN"},
 {"property": "C40", "status": "partial", "theorems": ["C40_names", "C40_resolves", "C40_errors", "C40_deregister", "C40_sft_register", "C40_sft_register_refuted"], "note": "refuted part: a failed registration of a scattering factor table leaves the type registered without its radiation alias"},
 {"property": "C41", "status": "proved", "theorems": ["C41_get", "C41_set", "C41_get_after_set", "C41_names", "C41_calculators", "C41_calculator_names", "C41_duplicates"], "note": ""},
 {"property": "C42", "status": "partial", "theorems": ["C42_precision", "C42_gaussian_shape", "C42_gaussian_bounds", "C42_gaussian_area", "C42_gaussian_unit_area", "C42_cropped", "C42_cropped_coarse", "C42_cropped_width_refuted", "C42_clicks"], "note": "All setPrecision histories. Gaussian: normal density of the given FWHM, unit area, bounds tight. Cropped: for positive widths and precision < 1 the renormalised Gaussian with unit area; refuted for widths <= 0 (negative values, NaN)."},
 {"property": "C43", "status": "partial", "theorems": ["C43_constant", "C43_debye_waller_partial", "C43_debye_waller_sqrt3", "C43_jeong_partial", "C43_anisotropic_refuted", "C43_jeong_interior_refuted", "C43_jeong_rmin_refuted"], "note": "Constant: holds. Debye-Waller: holds for spherical tensors under any symmetry and diagonal tensors without symmetry; within sqrt(3) for all valid tensors; refuted for off-diagonal tensors. Jeong: holds for delta1,delta2>=0, or delta2<=0 with rmin>=eps; refuted for delta1<0<delta2 and for rmin=0 with delta2<0."},
 {"property": "C44", "status": "proved", "theorems": ["C44_one_width", "C44_roundtrip", "C44_width", "C44_ticker", "C44_new"], "note": "round trips, one width behind the three readings, ticker, new objects"},
 {"property": "C45", "status": "proved", "theorems": ["C45_spherical", "C45_stepcut", "C45_qresolution", "C45_scale_and_defaults", "C45_owner", "C45_factor_order", "C45_add_order", "C45_replace_and_pop", "C45_errors"], "note": "shapes for r >= 0; all call histories of the owner with shared objects whose parameters change"},
 {"property": "C46", "status": "partial", "theorems": ["C46_groups", "C46_positions", "C46_multiplicity", "C46_cell_content", "C46_cover_partial", "C46_in_cell", "C46_bonds", "C46_boundary_refuted", "C46_close_orbit_refuted", "C46_no_symops_refuted"], "note": "Full for exactly special or clearly general positions (C46_positions, C46_multiplicity, C46_cell_content) and for bond loops (C46_bonds). The grouping law C46_groups holds for every input with a sensible precision. The claim as stated fails at cell faces (images averaged after reduction to the cell), for nearly special positions (returned positions closer than the precision) and for crystals without operations (lost bonds): three refutations."},
 {"property": "C47", "status": "proved", "theorems": ["C47_idempotent", "C47_no_direct_nesting", "C47_nometa_view", "C47_nosymmetry_view", "C47_null_is_empty", "C47_site_queries", "C47_order_irrelevant", "C47_towers_collapse", "C47_clone", "C47_clone_unshared", "C47_bounded_depth_refuted", "C47_default_constructed_refuted"], "note": "Wrappers.v models NoMeta/NoSymmetry/Empty adapters over arbitrary concrete adapters in a mutable store. Refuted remarks: alternating wrappers nest without bound (C47_bounded_depth_refuted; harmless by C47_towers_collapse) and a default-constructed wrapper dereferences null (C47_default_constructed_refuted). Not modelled: serialization and diff of wrappers (C54 models diff)."},
 {"property": "C48", "status": "proved", "theorems": ["C48_evaluator_type_change"], "note": ""},
 {"property": "C49", "status": "partial", "theorems": ["C49_cosd", "C49_sind", "C49_acosd", "C49_acosd_cosd", "C49_asind_partial", "C49_asind_refuted"], "note": "cosd, sind, acosd proved; asind is refuted: it returns the arc cosine for every argument that is not a multiple of 1/2"},
 {"property": "C50", "status": "partial", "theorems": ["C50_dropped_below_precision_partial", "C50_rmin_refuted"], "note": "refuted: rmin is ignored by BVSCalculator; proved: bonds dropped by the precision cutoff are below the precision when the pair can be looked up in either order"},
 {"property": "C51", "status": "partial", "theorems": ["C51_site_sums_partial", "C51_any_counts_partial", "C51_multiplicities_refuted"], "note": "refuted for different multiplicities; proved for equal bond counts; exact formula for any counts"},
 {"property": "C52", "status": "partial", "theorems": ["C52_check_bonds_refuted", "C52_check_never_fails_serial", "C52_check_parallel_refuted"], "note": "proved in serial for calculators without finishValue; refuted for parallel runs and for BondCalculator"},
 {"property": "C53", "status": "partial", "theorems": ["C53_parallel_setup_after_evaluation_refuted", "C53_parallel_setup_first_partial"], "note": "refuted after an evaluation with OPTIMIZED; set up before the first evaluation it is C10"},
 {"property": "C54", "status": "partial", "theorems": ["C54_diff_same_environment", "C54_diff_same_environment_any_class_refuted"], "note": "proved for adapters of the same class; refuted across classes (Atomic against Periodic or Crystal)"},
 {"property": "C55", "status": "proved", "theorems": ["C55_no_mask_reported_means_no_mask", "C55_no_pair_mask_reported"], "note": ""},
 {"property": "C56", "status": "proved", "theorems": ["C56_reflections_Q", "C56_Q_value", "C56_Q_d", "C56_reflections_d"], "note": ""},
 {"property": "C57", "status": "proved", "theorems": ["C57_eps_trichotomy", "C57_eps_lt_order", "C57_eps_lt_weak_order_refuted"], "note": "the refuted theorem is the documented limit: eps_eq is not transitive"},
 {"property": "C58", "status": "proved", "theorems": ["C58_max_diagonal"], "note": ""},
 {"property": "C59", "status": "partial", "theorems": ["C59_gradient", "C59_occupancy_refuted"], "note": "exact for unit multiplicities and full occupancies; refuted for partial occupancies."},
 {"property": "C60", "status": "partial", "theorems": ["C60_coordinations", "C60_coordination_by_types_partial", "C60_by_types_after_load_refuted"], "note": "by types: for histories with no bonds and no save after a query; refuted after a save and load."},
 {"property": "C61", "status": "proved", "theorems": ["C61_rdf_is_sum_of_peaks"], "note": ""},
 {"property": "C62", "status": "partial", "theorems": ["C62_pairs_complete_partial", "C62_pair_missed_refuted"], "note": "upper limit complete, lower limit complete up to one rstep; refuted in full: rcalclo is rounded up to the grid (rminSteps), a pair up to one rstep below is missed although its peak covers grid points of the requested range (dr=0.1, rmin=1.05, tail 0.04, d=1.09)"},
 {"property": "C63", "status": "proved", "theorems": ["C63_transforms", "C63_start_rounded"], "note": "gsl_fft_complex_radix2_inverse modelled by the sum in its documentation"},
 {"property": "C64", "status": "proved", "theorems": ["C64_pdf_band_limited"], "note": "for rmax+maxextension+rstep <= 1e8, see C33"},
 {"property": "C65", "status": "proved", "theorems": ["C65_baseline_slope", "C65_baseline_stays_linear", "C65_partial_slopes_add"], "note": "masks from Masks.v; updateMaskData has run in setStructure"},
 {"property": "C66", "status": "proved", "theorems": ["C66_fast_updates", "C66_fast_equals_complete"], "note": "which contributions the optimized evaluator adds and removes is C09-C15 (Evaluator)"},
 {"property": "C67", "status": "proved", "theorems": ["C67_mean_square", "C67_zero_iff_match", "C67_root"], "note": ""},
 {"property": "C68", "status": "partial", "theorems": ["C68_range", "C68_history_refuted"], "note": "coverage and Q-step proved for every history; that they depend on settings and structure only is refuted (C68_history_refuted: the upper limit has a hysteresis of 50 steps)."},
 {"property": "C69", "status": "partial", "theorems": ["C69_settings", "C69_rejected_partial", "C69_accepted", "C69_qstep", "C69_failure", "C69_unchanged_refuted", "C69_settings_history"], "note": "settings stay valid, after any history each is the last argument in range or the default, accepted calls change what they name, failures are characterised; setQmax(0) throws after the change and leaves a calculator that cannot evaluate (C69_unchanged_refuted)."},
 {"property": "C70", "status": "partial", "theorems": ["C70_defined_partial", "C70_pdf_refuted", "C70_stale_refuted"], "note": "proved right after an evaluation when the range is extended by a step or more; refuted for maxextension 0 with a power of two number of points and for getF after Qmax was raised (no new evaluation)."},
 {"property": "C71", "status": "proved", "theorems": ["C71_pdf", "C71_qmin"], "note": "for states after an evaluation with an extension of a step or more (see C70). Exact real arithmetic, FFT by its documented sum."},
 {"property": "C72", "status": "partial", "theorems": ["C72_fast_is_full", "C72_fast_defined", "C72_limits_refuted"], "note": "equal for pair lists that fit together and unchanged scattering factors; C72_limits_refuted: the lower pair limit may change between the two structures without forcing a full evaluation."},
 {"property": "C73", "status": "partial", "theorems": ["C73_refreshed", "C73_not_asked", "C73_count_changed", "C73_settings", "C73_moved_atom_refuted", "C73_changed_lattice_refuted"], "note": "Holds after any history whose last change of sites or lattice is followed by a refreshing call (or precedes the first query, or changes the number of sites); refuted for a moved atom and for a changed lattice (stale cache)."},
 {"property": "C74", "status": "partial", "theorems": ["C74_tensor", "C74_tensor_and_position", "C74_valid", "C74_skew_axes_refuted", "C74_anchor", "C74_anchor_refuted"], "note": "Holds for operations that mix only axes of equal reciprocal length; validity of tensors is preserved always. Refuted for skew cells (fractionalMatrix uses the normalized base) and for the anchor tensor when the first operation is not the identity."},
 {"property": "C75", "status": "proved", "theorems": ["C75_value_of_current_settings", "C75_no_needless_recalculation", "C75_component_change_is_shared", "C75_settings_take_effect", "C75_reference_assignment_refuted"], "note": "Settings and component contents are abstract values; times are natural numbers (C01, C02). Assignment through the reference getters is shown to be missed (C75_reference_assignment_refuted)."},
 {"property": "C76", "status": "partial", "theorems": ["C76_copies_partial", "C76_type_change_separates", "C76_copies_refuted"], "note": "False for OPTIMIZED evaluators: a copy shares the evaluator object, and eval of the original returns a stale value (C76_copies_refuted). Proved when every evaluation uses a BASIC evaluator or one that is not shared; setEvaluatorType to another type gives a copy its own evaluator (C76_type_change_separates)."},
 {"property": "C77", "status": "proved", "theorems": ["C77_electron_number", "C77_unknown", "C77_incomplete_file", "C77_shipped_file"], "note": "Reader and lookup over arbitrary well-formed text; the shipped ionlist.dat is part of the development (DataShipped.v) and checked against the format by the kernel."},
 {"property": "C78", "status": "partial", "theorems": ["C78_xray_partial", "C78_higher_charge_refuted", "C78_electron_partial", "C78_unknown", "C78_even", "C78_shipped_file"], "note": "The literal claim for isotopes of ions with |charge| >= 2 is false and refuted (C78_higher_charge_refuted); everything else is proved, also for every entry of the shipped file."},
 {"property": "C79", "status": "proved", "theorems": ["C79_isotope", "C79_element", "C79_alias", "C79_unknown", "C79_shipped_isotope", "C79_shipped_element", "C79_shipped_alias"], "note": "Also for every entry of the shipped nsftable.dat. The reading of a decimal number by the stream is a parameter of the model."},
 {"property": "C80", "status": "partial", "theorems": ["C80_read_once", "C80_failed_for_good", "C80_recovery_refuted"], "note": "Reading once is proved; recovery after a file that could not be opened is refuted (C80_recovery_refuted), and C80_failed_for_good says what happens instead."},
 {"property": "C81", "status": "proved", "theorems": ["C81_datapath", "C81_changing_directories"], "note": "The file system is a parameter seen by every call; realpath returning a null pointer on an existing directory is excluded."},
 {"property": "C82", "status": "proved", "theorems": ["C82_standard_parameters"], "note": "The duplicate assertion of the loader is left out of the model (release builds)."},
 {"property": "C83", "status": "partial", "theorems": ["C83_restored_calculator", "C83_any_life", "C83_times", "C83_bond_calculator", "C83_check_not_saved_refuted"], "note": "The values held by a calculator and the tickers are modelled, the bytes of the Boost archive are trusted. A calculator with the CHECK evaluator cannot be saved (refuted part). When the loading process is in an earlier epoch only the values of later eval(s) are shown to be right, not that the same path is taken."},
 {"property": "C84", "status": "proved", "theorems": ["C84_symmetry_refuted", "C84_count", "C84_isolated", "C84_all_pairs", "C84_new_counter", "C84_masks"], "note": "isolated and periodic structures, as the property says. In crystals given with symmetry operations the count is wrong (C84_symmetry_refuted): full and half sums differ and may be half-integers."},
 {"property": "C85", "status": "proved", "theorems": ["C85_neighbours", "C85_full_sum", "C85_any_sum", "C85_parallel", "C85_history", "C85_lattice_equality"], "note": "Instances of the evaluators' theorems C10, C12, C13 for every quantity over real structures: the assumptions of calc_ok are proved from BondGen.v, Sphere.v, Crystal.v and StructDiff.v. All structures of a program are of one class and have valid lattices; half sums are covered for structures without symmetry operations; safe_op excludes the defects of C14 and C53. PDFCalculator (values on a moving grid) and BondCalculator (lists of bonds) are in their own theorems."},
 {"property": "C86", "status": "proved", "theorems": ["C86_both_ends", "C86_any_sum", "C86_parallel", "C86_tensors"], "note": "Exact arithmetic; positions whose images coincide exactly or are apart by more than the symmetry precision and outside the zone in which ucvFractional snaps; tensors by C86_tensors when the operations mix only axes of equal reciprocal length (C74 shows why this is needed), the first operation is the identity and tensors obey their site symmetry."},
 {"property": "C87", "status": "proved", "theorems": ["C87_neighbours", "C87_debye_equation", "C87_F", "C87_width", "C87_masks"], "note": "C34_occupancy_refuted shows that the condition on occupancies is needed; values are exact up to the debye precision times the number of pairs; half sums: as in C86 with symmetric tensors"},
 {"property": "C88", "status": "proved", "theorems": ["C88_rdf", "C88_pdf", "C88_baseline", "C88_settings_keep_sums", "C88_half_is_full"], "note": "half sums: as in C86 with symmetric tensors, full sums for every structure; PDF for rmax+maxextension+rstep <= 1e8 as in C64"},
 {"property": "C89", "status": "proved", "theorems": ["C89_operations", "C89_crystal", "C89_group", "C89_tensors", "C89_sums", "C89_molecule"], "note": "What ObjCryst++ returns is data; the first centring translation must be zero, as in ObjCryst (the loop adds it to the listed operations in place). C89_sums links the adapter to the half sums of C86-C88 under their conditions."},
 {"property": "C90", "status": "partial", "theorems": ["C90_site_sums_partial", "C90_no_symmetry", "C90_any_crystal_partial", "C90_workers", "C90_mean_square", "C90_multiplicities_refuted"], "note": "refuted: neighbours with another multiplicity than the atom are weighted wrongly (C90_multiplicities_refuted, a crystal with a fourfold axis); proved without symmetry operations and for equal multiplicities, exact formula for every crystal whose operations form a group (C90_any_crystal_partial). Evaluation by PQEvaluatorBasic; the tolerance of rmaxused is C50."},
 {"property": "C91", "status": "partial", "theorems": ["C91_serial", "C91_values", "C91_exchange", "C91_neighborhoods", "C91_both_ends", "C91_workers", "C91_gradient_partial", "C91_gradient_sum", "C91_symmetry_gradient_refuted"], "note": "all values proved for every structure, also crystals with a space group; gradients() is proved to be the gradient only without symmetry operations and for equal occupancies (C91_gradient_partial). The claim is false otherwise: occupancies are ignored (C59_occupancy_refuted) and the directions to equivalent atoms are not turned (C91_symmetry_gradient_refuted); C91_gradient_sum says what is returned in general. Evaluation by PQEvaluatorBasic with full sums, the constructor setting."},
 {"property": "C92", "status": "proved", "theorems": ["C92_bonds_of_structure", "C92_unique", "C92_workers"], "note": "Histories as in C24 (BASIC and OPTIMIZED evaluators, full sums, no setStructure); workers are new calculators (C26); objects of a program satisfy the heap discipline of C85."},
 {"property": "C93", "status": "proved", "theorems": ["C93_debye", "C93_pdf", "C93_set_again", "C93_equal_settings_refuted"], "note": "The merge of any number of copies equals the serial evaluation (state equality; C87 and C88 give its meaning). Calculators with equal settings but another history: refuted, the merge can throw."},
 {"property": "C94", "status": "partial", "theorems": ["C94_rgrid_points_partial", "C94_rgrid_ascending", "C94_rgrid_complete", "C94_rgrid_below_rmax_refuted", "C94_qgrid", "C94_qgrid_no_step"], "note": "In double arithmetic. Points are at most rmax; strictly below rmax is refuted (rstep 0.01, rmax 4.19)."},
 {"property": "C95", "status": "partial", "theorems": ["C95_limits_partial", "C95_getRDF_memory_partial", "C95_limits_refuted"], "note": "In double arithmetic; needs extension within the maximum or peak tails of at least 2^-17; refuted without (read past the array)."},
 {"property": "C96", "status": "proved", "theorems": ["C96_pair_count", "C96_history", "C96_merged", "C96_serial", "C96_parallel_serial", "C96_exact", "C96_optimized_is_basic_refuted"], "note": "In double arithmetic, without overflow. C96_optimized_is_basic_refuted: bitwise agreement of evaluators fails, as the statement says."},
 {"property": "C97", "status": "proved", "theorems": ["C97_tolerance", "C97_eps_eq", "C97_eps_gt", "C97_eps_lt", "C97_trichotomy_refuted", "C97_unit_cell", "C97_fast_update_test", "C97_sind", "C97_sind_positive_refuted"], "note": "All double arguments. Refuted in the code: one of eps_eq, eps_gt, eps_lt always holds (fails for 2^27 and its successor); sind of positive angles is positive."},
 {"property": "C98", "status": "partial", "theorems": ["C98_widths", "C98_rdf_partial", "C98_qmax", "C98_profiles", "C98_broadening_refuted"], "note": "All points of the grid when Qmax cuts (C98_qmax), all interior points otherwise (C98_rdf_partial: the end points can miss pairs within one rstep of the limits, C62_pair_missed_refuted). For constant widths, and for Debye-Waller and Jeong widths with direction-independent displacements (or diagonal tensors without symmetry) that do not grow with the distance; the code is wrong for Jeong widths with Q-broadening (C98_broadening_refuted: maxWidth is evaluated at rmax only) and maxWidth is no bound for other tensors (C43)."},
 {"property": "C99", "status": "proved", "theorems": ["C99_lookups", "C99_kinds", "C99_names", "C99_shipped", "C99_every_ion_refuted", "C99_electron_default_q_refuted"], "note": "C99_lookups links the tables (C39) with the data files and the life of a process (C77-C80). C99_shipped compares the shipped files with each other. Two findings are stated as refutations: three ions without electron numbers, and custom electron values set with the default q."},
 {"property": "C100", "status": "partial", "theorems": ["C100_complete", "C100_listed", "C100_unspecified", "C100_unlisted", "C100_anions", "C100_valence", "C100_either_order_refuted"], "note": "Every record of the shipped file, unlisted pairs, ranges. Refuted: either order of the ions, for ions of equal charge (Pt2+ and C2+)."},
 {"property": "C101", "status": "partial", "theorems": ["C101_determinant", "C101_inverse", "C101_value_partial", "C101_copy_keeps", "C101_round_trip", "C101_inverse_twice", "C101_nested_product_refuted", "C101_cartesian_of_product_refuted", "C101_two_results_refuted", "C101_setLatBase_partial", "C101_setLatBase_members_refuted", "C101_setLatBase_cycle_refuted", "C101_library"], "note": "Proved for all histories for every call whose argument is not the result of the same kind of product, and for setLatBase arguments that are not members already assigned; those cases are refuted by theorem because the code gives wrong values there. Determinant, inverse, copies, round trips and the uses inside the library are proved without exception."},
 {"property": "C102", "status": "partial", "theorems": ["C102_locked_partial", "C102_apart_partial", "C102_call_lock_refuted", "C102_unlocked_refuted", "C102_clicks_locked_partial", "C102_clicks_refuted"], "note": "Proved for all schedules and any number of threads when the caller locks each call together with the copy of its result (or click), and without locks when no static variable is shared. The claim without a lock is refuted by theorem: the library does not lock."},
 {"property": "C103", "status": "partial", "theorems": ["C103_as_told", "C103_value_of_the_present_contents", "C103_bvdiff_bounds", "C103_overlap_bounds", "C103_results_after_edit_refuted"], "note": "values of eval are exact for every history of edits; what is missing is false in the code: bvdiff and siteSquareOverlaps called after an edit and before the next eval leave their arrays (C103_results_after_edit_refuted)"},
 {"property": "C104", "status": "proved", "theorems": ["C104_settings_history", "C104_rejected", "C104_results_by_settings", "C104_order_irrelevant"], "note": "PDFCalculator; for DebyePDFCalculator see C69 and C68"},
 {"property": "C105", "status": "partial", "theorems": ["C105_originals_partial", "C105_copy_never_moves", "C105_loop_over_a_copy", "C105_copies_refuted"], "note": "Iterators made by a constructor behave as if alone provided no copy is advanced. The rest is false in the code: a copy is bound to the array of its original, never moves and moves the original instead (refuted for every cell and range with a point)."},
 {"property": "C106", "status": "partial", "theorems": ["C106_passed_bonds", "C106_bonds_inside_partial", "C106_bonds_on_axis_refuted", "C106_lattice_angle_refuted", "C106_acosd", "C106_lattice_angle_partial", "C106_lattice_angle_symmetric"], "note": "Passed bonds are inside of a cone up to rounding; bonds deep inside of a cone pass unless parallel to the axis up to rounding. Lattice angles: symmetric bit for bit, that of a cosine within 2^-40/k of the exact one (k: squared length relative to the elements, at least 2^-20), a number unless the vectors are parallel up to that. False in the code for bonds along the axis (refuted for (1,1,1) and every acos and opening angle), and for angles of parallel lattice vectors (NaN). Overflow is not modelled."},
 {"property": "C107", "status": "partial", "theorems": ["C107_cells_partial", "C107_empty_sphere", "C107_points_partial", "C107_right_angles_partial", "C107_origin", "C107_surface_refuted"], "note": "points, order and completeness up to a margin of 2^-30 of the squared radius for oblique lattices (given the constants of init()); in terms of the edges for cells with right angles (2 * 2^-30), and of edges and angles for cells of any angles that are not too flat, given sines and cosines within 2^-50 (3 * 2^-30, C107_cells_partial); the exact claim is refuted at the surface (C107_surface_refuted); the inner limit without margin fails already in exact arithmetic (C19). Overflow is left out."},
 {"property": "C108", "status": "partial", "theorems": ["C108_periodic_partial", "C108_first_cell", "C108_diagonal", "C108_right_angles", "C108_isolated_partial", "C108_isolated_symmetric", "C108_symmetric_refuted"], "note": "C108_periodic_partial, C108_isolated_partial: the loop ends, no image twice, all bonds right up to an explicit tolerance; partial because images within the tolerance of the limits are not decided, and symmetry at the limit is false in a periodic structure (C108_symmetric_refuted). Symmetric to the last bit in isolated structures. same_lattice is a hypothesis, proved for cells with right angles."},
 {"property": "C109", "status": "partial", "theorems": ["C109_isolated", "C109_periodic", "C109_isolated_reselected", "C109_isolated_moved_refuted", "C109_appended_refuted"], "note": "C109_periodic: all positions from the time the generator was made; C109_isolated: exact bonds, measured from where the anchor was when selected; C109_isolated_reselected: as for a new generator. Refuted without selecting again (C109_isolated_moved_refuted: an atom bonded to itself) and for appended atoms (C109_appended_refuted). Edits of the lattice and of the symmetry operations are not modelled."},
 {"property": "C110", "status": "proved", "theorems": ["C110_debye_waller", "C110_relative", "C110_isotropic", "C110_both_directions", "C110_jeong_default", "C110_max_width", "C110_flat_refuted"], "note": "Without overflow and NaN. Bounds are generous. C110_flat_refuted: a pair with no displacement along its bond may get a positive width by cancellation. The largest width covers sites flagged isotropic; anisotropic sites are refuted already in exact arithmetic (C43)."},
 {"property": "C111", "status": "partial", "theorems": ["C111_distance_partial", "C111_opposite", "C111_visited_partial", "C111_Q_d", "C111_surface_refuted", "C111_overflow_refuted"], "note": "up to the stated margins, for cells that are not too flat and indices up to 32767 (for larger indices r() may overflow: C111_overflow_refuted); that the visited points are exactly those with r() < Rmax is refuted (C111_surface_refuted); points closer than Rmin may be visited already in exact arithmetic (C19). Q() and d() are given r() of the reciprocal cell; overflow of doubles is left out."},
 {"property": "C112", "status": "partial", "theorems": ["C112_crystal", "C112_complete", "C112_shrunk_refuted"], "note": "Proved: exactly what a loop shows after any calls and changes of the lattice (C112_crystal), and that nothing is missed when the translations are chosen for the lattice of now and the longest cell diagonal is not shorter than when the generator was made (C112_complete). The statement fails without these conditions: after the cell shrinks between two loops with the same limits bonds are missing (C112_shrunk_refuted)."}
]}
