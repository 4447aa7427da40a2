{
 "claims": [
  {
   "property": "C01",
   "status": "proved",
   "theorems": [
    "C01_findBin",
    "C01_findBin_monotone",
    "C01_overlapping_axis_refuted"
   ],
   "note": ""
  },
  {
   "property": "C02",
   "status": "proved",
   "theorems": [
    "C02_equal_width_axis",
    "C02_variable_width_axis"
   ],
   "note": ""
  },
  {
   "property": "C03",
   "status": "proved",
   "theorems": [
    "C03_flatten_bijection"
   ],
   "note": ""
  },
  {
   "property": "C04",
   "status": "proved",
   "theorems": [
    "C04_multidim_findBin"
   ],
   "note": ""
  },
  {
   "property": "C05",
   "status": "proved",
   "theorems": [
    "C05_get_axis",
    "C05_axis_names_unique"
   ],
   "note": ""
  },
  {
   "property": "C06",
   "status": "proved",
   "theorems": [
    "C06_fill_conserves_weight",
    "C06_fill_wrong_dimension",
    "C06_fill_by_name"
   ],
   "note": ""
  },
  {
   "property": "C07",
   "status": "partial",
   "theorems": [
    "C07_bin_access_partial",
    "C07_boundary_index_refuted"
   ],
   "note": "Proved for all indices except index == GetNBins(), where the property is false: the bounds check is '>' so the access is undefined behaviour (C07_boundary_index_refuted)."
  },
  {
   "property": "C08",
   "status": "proved",
   "theorems": [
    "C08_normalise"
   ],
   "note": ""
  },
  {
   "property": "C09",
   "status": "proved",
   "theorems": [
    "C09_projection_is_histogram",
    "C09_marginalise",
    "C09_empty_name_list_refuted"
   ],
   "note": ""
  },
  {
   "property": "C10",
   "status": "partial",
   "theorems": [
    "C10_slice_is_histogram",
    "C10_slice_one_free_axis_partial",
    "C10_slice_actual_layout",
    "C10_slice_rejects",
    "C10_two_free_axes_refuted",
    "C10_out_of_range_bin_refuted"
   ],
   "note": "Proved for one free axis with fixed bins in range. False with two or more free axes (bins stored first-axis-fastest, read last-axis-fastest) and for out-of-range fixed bins, both refuted by witness; C10_slice_actual_layout says what the slice holds in general."
  },
  {
   "property": "C11",
   "status": "proved",
   "theorems": [
    "C11_histogram_arithmetic",
    "C11_scale_empty_padding"
   ],
   "note": ""
  },
  {
   "property": "C12",
   "status": "proved",
   "theorems": [
    "C12_ranged_integral"
   ],
   "note": ""
  },
  {
   "property": "C13",
   "status": "proved",
   "theorems": [
    "C13_cut_region",
    "C13_line_sidedness",
    "C13_collection"
   ],
   "note": ""
  },
  {
   "property": "C14",
   "status": "proved",
   "theorems": [
    "C14_log_accounts",
    "C14_failed_call_not_logged"
   ],
   "note": ""
  },
  {
   "property": "C15",
   "status": "proved",
   "theorems": [
    "C15_registry",
    "C15_add",
    "C15_set",
    "C15_set_all",
    "C15_refines_map"
   ],
   "note": ""
  },
  {
   "property": "C16",
   "status": "partial",
   "theorems": [
    "C16_rejected_set_changes_nothing_refuted",
    "C16_rejected_set_partial"
   ],
   "note": "The code violates the property (refuted by witness: SetParameters is not atomic); proved exactly which parameters change on rejection."
  },
  {
   "property": "C17",
   "status": "partial",
   "theorems": [
    "C17_rename_partial",
    "C17_rename_collision_manager",
    "C17_rename_collision_refuted"
   ],
   "note": "Valid renames and unknown names proved for all components; collision rejection holds for ParameterManager and is refuted for Shape/ScaleFunction/Renorm/SpectralFitDist. Gaussian: see C51."
  },
  {
   "property": "C18",
   "status": "partial",
   "theorems": [
    "C18_own_parameters_partial",
    "C18_set_one_parameter",
    "C18_dict_absorbs",
    "C18_dict_parameters_refuted"
   ],
   "note": "Proved for Shift, Scale, ParameterManager-based and spectral components; refuted for Shape/ScaleFunction/Renorm (they absorb every dictionary key and never report a missing one)."
  },
  {
   "property": "C19",
   "status": "partial",
   "theorems": [
    "C19_spectral_partial",
    "C19_spectral_construction",
    "C19_set_parameter_never_writes",
    "C19_set_parameter_refuted"
   ],
   "note": "Get/SetParameters/names proved; SetParameter is refuted: it overwrites the name string, never a bin."
  },
  {
   "property": "C20",
   "status": "proved",
   "theorems": [
    "C20_broadcast",
    "C20_merge",
    "C20_empty_dictionary"
   ],
   "note": ""
  },
  {
   "property": "C21",
   "status": "proved",
   "theorems": [
    "C21_toObsSet",
    "C21_relative_indices",
    "C21_set_datum",
    "C21_data_map",
    "C21_set_datum_out_of_range_refuted"
   ],
   "note": "SetDatum(index) out of range does not throw NotFoundError as its handler announces but writes outside the vector (C21_set_datum_out_of_range_refuted, beyond the statement)."
  },
  {
   "property": "C22",
   "status": "proved",
   "theorems": [
    "C22_shift_response",
    "C22_fraction_meaning",
    "C22_zero_shift_identity",
    "C22_shift_total",
    "C22_shift_checks"
   ],
   "note": ""
  },
  {
   "property": "C23",
   "status": "proved",
   "theorems": [
    "C23_scale_response",
    "C23_unit_scale_identity",
    "C23_scale_total",
    "C23_scale_checks",
    "C23_function_response",
    "C23_function_checks"
   ],
   "note": ""
  },
  {
   "property": "C24",
   "status": "partial",
   "theorems": [
    "C24_parameter_history_partial",
    "C24_shape_history_partial",
    "C24_convolution_history_partial",
    "C24_reconfigured_silently_refuted",
    "C24_reconfigured_throws_refuted",
    "C24_reconfigured_shape_refuted",
    "C24_reconfigured_convolution_refuted"
   ],
   "note": "Holds for any sequence of parameter changes and Construct calls on one configuration (Shift/Scale/ScaleFunction, Shape, Convolution); false when SetTransformationObs/SetAxes change the configuration after a Construct (the cached bin map is never invalidated): refuted silently and with a spurious exception."
  },
  {
   "property": "C25",
   "status": "proved",
   "theorems": [
    "C25_shape",
    "C25_shape_checks",
    "C25_renorm",
    "C25_diagonal_application",
    "C25_renorm_unset_factor_refuted"
   ],
   "note": "Shape fully; Renorm once SetScaleFactor was called. Before that (e.g. only its fit parameter set) the factor is uninitialised: C25_renorm_unset_factor_refuted."
  },
  {
   "property": "C26",
   "status": "partial",
   "theorems": [
    "C26_convolution_partial",
    "C26_total_partial",
    "C26_checks",
    "C26_order_refuted",
    "C26_subset_order_refuted"
   ],
   "note": "Proved for transformed observables listed in axis order and every kernel whose integrals are finite (negative integrals are dropped, i.e. clipped at 0); refuted for other orders: wrong entries when all axes are transformed, an Armadillo exception for a subset."
  },
  {
   "property": "C27",
   "status": "proved",
   "theorems": [
    "C27_groups_hold_accepted_calls",
    "C27_distort_applies_in_order",
    "C27_construct_succeeds",
    "C27_distort_before_construct"
   ],
   "note": ""
  },
  {
   "property": "C28",
   "status": "partial",
   "theorems": [
    "C28_event_partial",
    "C28_binprob_partial",
    "C28_missing_name_throws",
    "C28_setNormalisations_partial",
    "C28_mixed_statuses_refuted"
   ],
   "note": "Proved for distinct names and DIRECT pdfs added before INDIRECT ones, with any reads in between; refuted for a DIRECT pdf after an INDIRECT one (wrong pdf's normalisation is used) and for SetNormalisations on INDIRECT pdfs (silently ignored)."
  },
  {
   "property": "C29",
   "status": "partial",
   "theorems": [
    "C29_buffers_reported",
    "C29_shrink",
    "C29_covering_buffers_throw_partial",
    "C29_no_buffer",
    "C29_covering_buffers_refuted"
   ],
   "note": "Shrinking itself proved for every axis collection, buffers and both modes (fewer than 2^31 bins); the ValueError for covering buffers holds unless the two sizes add up to 2^32 or more (C29_covering_buffers_refuted: std::length_error)"
  },
  {
   "property": "C30",
   "status": "partial",
   "theorems": [
    "C30_repeat_partial",
    "C30_new_data_partial",
    "C30_repeat_refuted",
    "C30_same_value_refuted",
    "C30_new_data_refuted"
   ],
   "note": "Proved for statistics without systematics, buffers or projections (any history); refuted with buffers: second evaluation throws, changes value, or reads out of bounds after new data."
  },
  {
   "property": "C31",
   "status": "proved",
   "theorems": [
    "C31_finite_answer",
    "C31_value",
    "C31_dataset",
    "C31_minimum"
   ],
   "note": "Value for every configuration given the bin expectations; full value from pdfs and parameters without systematics/buffers; minimum."
  },
  {
   "property": "C32",
   "status": "partial",
   "theorems": [
    "C32_root_partial",
    "C32_value_partial",
    "C32_root_refuted",
    "C32_empty_bin_refuted"
   ],
   "note": "Proved for mu*sigma^2 < 1; for mu*sigma^2 >= 1 the code uses minus the root and returns NaN (refuted)."
  },
  {
   "property": "C33",
   "status": "proved",
   "theorems": [
    "C33_constrained_one_way",
    "C33_rejected_unchanged",
    "C33_single_call",
    "C33_pair_call",
    "C33_evaluate_is_the_sum",
    "C33_evaluate_without_constraints",
    "C33_missing_parameter",
    "C33_acceptance",
    "C33_value_of_history",
    "C33_statistic"
   ],
   "note": ""
  },
  {
   "property": "C34",
   "status": "partial",
   "theorems": [
    "C34_statistic_sides",
    "C34_quadratic",
    "C34_asymmetric",
    "C34_ratio_partial",
    "C34_fractional",
    "C34_shape",
    "C34_bivariate_partial",
    "C34_bivariate_uncorrelated",
    "C34_invalid_parameters_refuted"
   ],
   "note": "Holds for valid parameters; refuted: bivariate accepts |corr|>=1 in part and zero widths; ratio constraint with denominator below 1e-8 is penalised at its nominal ratio."
  },
  {
   "property": "C35",
   "status": "partial",
   "theorems": [
    "C35_interpolation_partial",
    "C35_missing_parameter",
    "C35_border_refuted"
   ],
   "note": "Proved inside the outermost centres; refuted at the border (out-of-range reads / wrong bins)."
  },
  {
   "property": "C36",
   "status": "proved",
   "theorems": [
    "C36_evaluate",
    "C36_parameters",
    "C36_set_order",
    "C36_set_reaches",
    "C36_operators",
    "C36_value",
    "C36_self",
    "C36_likelihoods"
   ],
   "note": ""
  },
  {
   "property": "C37",
   "status": "partial",
   "theorems": [
    "C37_distinct",
    "C37_next_call",
    "C37_more_than_whole_set_throws",
    "C37_more_than_remain_refuted",
    "C37_rounding",
    "C37_used_again",
    "C37_cut_added"
   ],
   "note": "distinctness proved for all histories; 'asking for more than remain throws' refuted: only asking for more than the whole set throws, otherwise an out-of-range vector index"
  },
  {
   "property": "C38",
   "status": "partial",
   "theorems": [
    "C38_order_partial",
    "C38_distinct_partial",
    "C38_whole_set_refuted"
   ],
   "note": "exact order proved; whole-set claim refuted for every size >= 2 (event 1 twice, event 0 never)"
  },
  {
   "property": "C39",
   "status": "partial",
   "theorems": [
    "C39_remaining_partial",
    "C39_before_any_draw_refuted",
    "C39_sequential_refuted",
    "C39_empty_set"
   ],
   "note": "partition proved for random draws without replacement; reported count is one too small; refuted before any draw and after sequential draws"
  },
  {
   "property": "C40",
   "status": "partial",
   "theorems": [
    "C40_concatenation_partial",
    "C40_self_concatenation_refuted"
   ],
   "note": "a+a (aliasing) never terminates and the left operand is modified too; for distinct operands the result is the concatenation"
  },
  {
   "property": "C41",
   "status": "proved",
   "theorems": [
    "C41_roundtrip",
    "C41_injective",
    "C41_unpack_inverse"
   ],
   "note": ""
  },
  {
   "property": "C42",
   "status": "partial",
   "theorems": [
    "C42_slabs",
    "C42_file",
    "C42_roundtrip_partial",
    "C42_wrong_names",
    "C42_empty_refuted",
    "C42_wide_refuted",
    "C42_long_names_refuted",
    "C42_nul_refuted",
    "C42_wraps_refuted",
    "C42_large_refuted"
   ],
   "note": "Round trip proved below the limits of the format; empty data sets, 10000+ observables, 2^32+ values and names over 64 characters refuted."
  },
  {
   "property": "C43",
   "status": "partial",
   "theorems": [
    "C43_even_partial",
    "C43_odd_refuted",
    "C43_missed_points_refuted",
    "C43_single_point_refuted",
    "C43_negative_step_never_returns",
    "C43_mismatch",
    "C43_corner_refuted",
    "C43_zero_refuted",
    "C43_maximum_sign_refuted"
   ],
   "note": "Only even numbers of parameters work, and then without the all-minima corner and, for four or more, without the later parameters; exact zeros and the sign when maximising refuted."
  },
  {
   "property": "C44",
   "status": "proved",
   "theorems": [
    "C44_chain",
    "C44_in_box",
    "C44_fixed",
    "C44_metropolis_draw",
    "C44_size_mismatch",
    "C44_missing_limit"
   ],
   "note": ""
  },
  {
   "property": "C45",
   "status": "partial",
   "theorems": [
    "C45_best_partial",
    "C45_best_refuted"
   ],
   "note": "C45_best_refuted: StepAccepted compares the current value before moving and Optimise does not compare after the loop, so a best point reached by the last accepted step is not reported; C45_best_partial proves everything else"
  },
  {
   "property": "C46",
   "status": "proved",
   "theorems": [
    "C46_rates",
    "C46_recorded",
    "C46_clear",
    "C46_defaults",
    "C46_run",
    "C46_zero_thinning_refuted",
    "C46_huge_burn_in_refuted"
   ],
   "note": "zero thinning factor (UB) and burn-in >= 2^31 (wraps) are refuted separately"
  },
  {
   "property": "C47",
   "status": "proved",
   "theorems": [
    "C47_reversible",
    "C47_steps_compose",
    "C47_injective",
    "C47_reflective_partial",
    "C47_sampler_correction"
   ],
   "note": ""
  },
  {
   "property": "C48",
   "status": "partial",
   "theorems": [
    "C48_step_partial",
    "C48_steps_partial",
    "C48_wall_refuted",
    "C48_landing_refuted",
    "C48_corner_refuted",
    "C48_empty_name_refuted"
   ],
   "note": "False as stated: a start on a wall moving outwards, a step landing exactly on a wall, two walls reached at the same moment and a parameter with an empty name all leave the box (refuted). Proved whenever no step starts out through a wall and no two parameters reach walls simultaneously: termination, exact billiard motion, kinetic energy kept, every step inside."
  },
  {
   "property": "C49",
   "status": "proved",
   "theorems": [
    "C49_quadratic",
    "C49_cubic"
   ],
   "note": ""
  },
  {
   "property": "C50",
   "status": "partial",
   "theorems": [
    "C50_refused",
    "C50_dimensions",
    "C50_limit_exists",
    "C50_exact_limit",
    "C50_upper_partial",
    "C50_two_bins_high_refuted",
    "C50_above_one_refuted",
    "C50_coverage_refuted",
    "C50_high_levels_refuted"
   ],
   "note": "False as stated: the interpolation is done in the bin two above the one where the level is reached (exact characterisation proved; on a flat posterior the answer is two bins too high, levels reached in the last two bins throw, cl > 1 reads out of bounds)."
  },
  {
   "property": "C51",
   "status": "partial",
   "theorems": [
    "C51_sizes",
    "C51_default_names_differ",
    "C51_set_changes_exactly_the_named",
    "C51_set_all",
    "C51_read_back_all",
    "C51_unknown_ignored",
    "C51_get_partial",
    "C51_get_refuted",
    "C51_rename",
    "C51_rename_to_itself_refuted"
   ],
   "note": "GetParameter(name) throws NotFoundError for every parameter of a dimension above the first (distance computed with the wrong sign), and RenameParameter(x,x) never returns; both proved as _refuted. Everything else in the statement is proved (writing, reading back with GetParameters, renaming to a different name)."
  },
  {
   "property": "C52",
   "status": "proved",
   "theorems": [
    "C52_cdf",
    "C52_integral_is_a_probability",
    "C52_monotone",
    "C52_additive",
    "C52_product",
    "C52_dimensions",
    "C52_constructor",
    "C52_standard",
    "C52_negative_width_refuted"
   ],
   "note": "Relative to any monotone U with values in [0,1] for gsl_cdf_ugaussian_P and positive widths; C52_negative_width_refuted shows SetParameter can make the width negative."
  },
  {
   "property": "C53",
   "status": "partial",
   "theorems": [
    "C53_shoot",
    "C53_shoot_exact",
    "C53_uniform_range",
    "C53_uniform_range_onto",
    "C53_von_neumann_arguments",
    "C53_von_neumann_refuted",
    "C53_von_neumann_outside_refuted",
    "C53_rejection_loop_partial"
   ],
   "note": "Shoot and UniformRange proved; VonNeumannSample always returns 0 (loop condition false initially), proved as _refuted."
  },
  {
   "property": "C54",
   "status": "partial",
   "theorems": [
    "C54_accepted",
    "C54_meaning",
    "C54_lines",
    "C54_trim",
    "C54_open",
    "C54_open_missing",
    "C54_load",
    "C54_load_list",
    "C54_pieces_exist",
    "C54_list_sections",
    "C54_heading_form",
    "C54_unclosed_heading_accepted",
    "C54_indented_comment_refuted",
    "C54_failed_reopen_refuted",
    "C54_load_closed"
   ],
   "note": "Parsing, Load and ListSections fully characterised for every text; number conversion is C105. Two findings proved as _refuted: indented comments are rejected, and a failing re-Open leaves a deleted parser behind."
  },
  {
   "property": "C55",
   "status": "partial",
   "theorems": [
    "C55_observed",
    "C55_signal_efficiency",
    "C55_backgrounds_partial",
    "C55_backgrounds_refuted"
   ],
   "note": "Counts, efficiency and background sums proved for one CountBackgrounds call on non-empty data sets; refuted: a second CountBackgrounds call doubles the expectation, an empty background makes it NaN."
  },
  {
   "property": "C56",
   "status": "proved",
   "theorems": [
    "C56_binned",
    "C56_binned_sum",
    "C56_binned_errors",
    "C56_analytic",
    "C56_projection",
    "C56_composite",
    "C56_composite_integral",
    "C56_composite_dims",
    "C56_times",
    "C56_normalise",
    "C56_product_normalised",
    "C56_clone",
    "C56_clone_name_refuted"
   ],
   "note": "The claim about probabilities, integrals, Normalise and clones is proved; a separate theorem shows a composite's clone loses a name given by SetName"
  },
  {
   "property": "C57",
   "status": "partial",
   "theorems": [
    "C57_bin",
    "C57_zero_draw",
    "C57_expected_rates",
    "C57_poisson",
    "C57_errors",
    "C57_unchecked_binning_refuted"
   ],
   "note": "Proved for pdfs with as many bins as the first and random numbers in (0,1]; refuted: binning of the other pdfs is never compared with the first's"
  },
  {
   "property": "C58",
   "status": "partial",
   "theorems": [
    "C58_one_observable",
    "C58_in_order",
    "C58_in_order_succeeds",
    "C58_missing_observable_throws",
    "C58_setters_partial",
    "C58_every_setter_checks_refuted",
    "C58_parameter",
    "C58_defaults_change_nothing"
   ],
   "note": "Effects, order and range checks of SetScale/SetCorrection proved; refuted: SetParameter/SetParameters accept any value (zero or negative scale)."
  },
  {
   "property": "C59",
   "status": "proved",
   "theorems": [
    "C59_fill",
    "C59_too_many_events",
    "C59_wrong_dimension",
    "C59_missing_observable"
   ],
   "note": ""
  },
  {
   "property": "C60",
   "status": "partial",
   "theorems": [
    "C60_one_in_memory_partial",
    "C60_registered_one",
    "C60_access_own_data",
    "C60_missing_file",
    "C60_copies_refuted"
   ],
   "note": "holds for histories that do not copy or assign lazy data sets; refuted for copies (not registered) and assignments (loaded data leaks)"
  },
  {
   "property": "C61",
   "status": "partial",
   "theorems": [
    "C61_hist_per_name",
    "C61_pairs_once",
    "C61_hist_per_pair_partial",
    "C61_keys_without_underscore",
    "C61_hist_per_pair_refuted",
    "C61_fill_all",
    "C61_fill_missing_value",
    "C61_projections_partial",
    "C61_projections_two_dimensions_refuted",
    "C61_slices"
   ],
   "note": "One histogram per name/pair, fills, projections and slices proved; refuted: keys first_second can clash so a pair is lost (C61_hist_per_pair_refuted), and 2-D histograms get no 2-D projection."
  },
  {
   "property": "C62",
   "status": "partial",
   "theorems": [
    "C62_start",
    "C62_limits_partial",
    "C62_partial_limits_refuted",
    "C62_fix",
    "C62_fix_release",
    "C62_upper_contour_refuted",
    "C62_objective",
    "C62_stale_parameters_refuted",
    "C62_result",
    "C62_covariance_size",
    "C62_rejects",
    "C62_defaults",
    "C62_again"
   ],
   "note": "Everything but two parts is proved; refuted parts: SetUpperContourEdge never reaches the minimiser, a parameter without limits gets (0,0) when others have limits and the next Optimise is refused; also parameters of an earlier fit leak into the next statistic"
  },
  {
   "property": "C63",
   "status": "proved",
   "theorems": [
    "C63_symmetric",
    "C63_non_square",
    "C63_product",
    "C63_product_mismatch",
    "C63_product_changes_operand"
   ],
   "note": ""
  },
  {
   "property": "C64",
   "status": "partial",
   "theorems": [
    "C64_moments_partial",
    "C64_unnormalised_refuted"
   ],
   "note": "Proved for histograms with unit integral; false otherwise because the sums are never divided by the integral (refuted by witness)."
  },
  {
   "property": "C65",
   "status": "partial",
   "theorems": [
    "C65_new_histogram_empty",
    "C65_setaxes_not_empty_refuted"
   ],
   "note": "Proved for the constructor; false for SetAxes on a used histogram (refuted by witness)."
  },
  {
   "property": "C66",
   "status": "partial",
   "theorems": [
    "C66_own_names_partial",
    "C66_copied_names_refuted"
   ],
   "note": "holds for data sets never written by a copy or sum; refuted for those"
  },
  {
   "property": "C67",
   "status": "proved",
   "theorems": [
    "C67_add_entry",
    "C67_get_entry"
   ],
   "note": ""
  },
  {
   "property": "C68",
   "status": "partial",
   "theorems": [
    "C68_unique_at_registration",
    "C68_unique_partial",
    "C68_global_already_used",
    "C68_unique_refuted"
   ],
   "note": "Unique at registration and when no named group grows afterwards; refuted for later Adds to a named group; a legitimate global Add is refused when another systematic is in two groups."
  },
  {
   "property": "C69",
   "status": "partial",
   "theorems": [
    "C69_adding_keeps_values_partial",
    "C69_adding_keeps_values_refuted"
   ],
   "note": "Proved unless the added pdf is the first one that is not DIRECT; refuted in that case (the value is reset to 0)."
  },
  {
   "property": "C70",
   "status": "partial",
   "theorems": [
    "C70_every_pdf_counts_partial",
    "C70_every_pdf_counts_refuted"
   ],
   "note": "Proved when all pdfs have the same fitted status; refuted for unfitted pdfs (likelihood NaN)."
  },
  {
   "property": "C71",
   "status": "partial",
   "theorems": [
    "C71_with_replacement_from_the_set",
    "C71_with_replacement_count",
    "C71_each_other_event_partial",
    "C71_last_event_refuted",
    "C71_first_draw_refuted",
    "C71_all_valid_events"
   ],
   "note": "last event never drawn with replacement (refuted for every size >= 2); every other event reachable; counts proved"
  },
  {
   "property": "C72",
   "status": "partial",
   "theorems": [
    "C72_roundtrip_partial",
    "C72_file",
    "C72_long_names_refuted"
   ],
   "note": "Round trip proved for axis names (and latex names) of at most 64 characters together; longer ones refuted."
  },
  {
   "property": "C73",
   "status": "proved",
   "theorems": [
    "C73_format"
   ],
   "note": ""
  },
  {
   "property": "C74",
   "status": "proved",
   "theorems": [
    "C74_acceptance_rule",
    "C74_detailed_balance"
   ],
   "note": ""
  },
  {
   "property": "C75",
   "status": "proved",
   "theorems": [
    "C75_autocorrelation"
   ],
   "note": ""
  },
  {
   "property": "C76",
   "status": "proved",
   "theorems": [
    "C76_penalty",
    "C76_failure",
    "C76_no_walls"
   ],
   "note": ""
  },
  {
   "property": "C77",
   "status": "proved",
   "theorems": [
    "C77_terminates",
    "C77_interval",
    "C77_tends_to_one",
    "C77_zero_tolerance",
    "C77_above_one"
   ],
   "note": ""
  },
  {
   "property": "C78",
   "status": "proved",
   "theorems": [
    "C78_jump_translation",
    "C78_jump_is_shifted_integral",
    "C78_jump_is_a_probability",
    "C78_jump_unset",
    "C78_varying"
   ],
   "note": ""
  },
  {
   "property": "C79",
   "status": "partial",
   "theorems": [
    "C79_copy",
    "C79_assign_partial",
    "C79_assign_refuted",
    "C79_unrun"
   ],
   "note": "Copy construction proved; operator= tests the target's own pointer: refuted when exactly one side has a space"
  },
  {
   "property": "C80",
   "status": "proved",
   "theorems": [
    "C80_bins",
    "C80_total",
    "C80_gaussian"
   ],
   "note": "any number of axes; the total is the integral over the whole range whenever the pdf's integral is additive over boxes, which is proved of the Gaussian"
  },
  {
   "property": "C81",
   "status": "proved",
   "theorems": [
    "C81_th1",
    "C81_th2",
    "C81_th3",
    "C81_overlapping_bins_refuted"
   ],
   "note": "the property ranges over touching bins of positive width; C81_overlapping_bins_refuted shows what happens to overlapping ones, which BinAxis accepts. ROOT's TAxis::FindBin and TH::Fill are modelled from their documentation"
  },
  {
   "property": "C82",
   "status": "partial",
   "theorems": [
    "C82_from_th1_partial",
    "C82_from_th2_th3_partial",
    "C82_round_trip_partial",
    "C82_uneven_bins_refuted",
    "C82_equal_titles_refuted"
   ],
   "note": "contents and names are proved; bin edges are kept only for evenly spaced bins (C82_uneven_bins_refuted), and two axes with the same title are rejected (C82_equal_titles_refuted)"
  },
  {
   "property": "C83",
   "status": "partial",
   "theorems": [
    "C83_probability",
    "C83_add",
    "C83_add_list",
    "C83_set_normalisations",
    "C83_set_parameter",
    "C83_labels_partial",
    "C83_set_parameters_partial",
    "C83_same_name_refuted",
    "C83_rename_lost_refuted",
    "C83_composite_name_refuted"
   ],
   "note": "Probability, add, set-normalisations and set-parameter proved for every history; naming needs distinct, kept names and no renames (refuted otherwise)."
  },
  {
   "property": "C84",
   "status": "partial",
   "theorems": [
    "C84_smear",
    "C84_errors",
    "C84_set_pdf",
    "C84_set_conditional",
    "C84_copy_partial",
    "C84_dimensions_refuted",
    "C84_input_observables_refuted"
   ],
   "note": "Proved for one-dimensional kernels: every event moved by one draw with parameters at its own values, whatever came before; errors; SetPDF and SetConditionalPDF copy; copies draw alike. False and refuted: SetConditionalPDF does not check dimensions (undefined read), the input observables are never read; the copy loses its name (so the copy theorem is _partial)."
  },
  {
   "property": "C85",
   "status": "partial",
   "theorems": [
    "C85_dependence",
    "C85_set_all",
    "C85_names",
    "C85_one_partial",
    "C85_mixed",
    "C85_destroy",
    "C85_one_refuted",
    "C85_count_refuted",
    "C85_copy_refuted"
   ],
   "note": "Proved: SetDependance, SetParameters/GetParameters of all, names, one parameter where all functions share its name (C85_one_partial), destruction frees exactly the functions. False and refuted: single-parameter calls with two differently named functions, the count with shared names, independence of copies."
  },
  {
   "property": "C86",
   "status": "proved",
   "theorems": [
    "C86_density",
    "C86_order",
    "C86_maximum",
    "C86_errors",
    "C86_jump",
    "C86_varying",
    "C86_square_root"
   ],
   "note": ""
  },
  {
   "property": "C87",
   "status": "partial",
   "theorems": [
    "C87_ntuple_partial",
    "C87_tree_partial",
    "C87_value_by_name",
    "C87_open_errors",
    "C87_leaf_name_refuted",
    "C87_other_leaf_refuted",
    "C87_count_refuted"
   ],
   "note": "Proved for trees with one leaf per branch, of the branch's name, and fewer than 2^32 entries, over a model of ROOT's documented behaviour; IOError cases. False and refuted: leaves named differently (null pointer or another branch's values), 2^32 entries."
  },
  {
   "property": "C88",
   "status": "partial",
   "theorems": [
    "C88_find_bin",
    "C88_projection_partial",
    "C88_slice_partial",
    "C88_combine",
    "C88_padding",
    "C88_names",
    "C88_observables_refuted"
   ],
   "note": "Projection and slice act consistently on events when the observables carry the axis names, as C88_projection_partial and C88_slice_partial assume; C88_observables_refuted shows that otherwise a projection cannot evaluate events the original can. Slices with two or more free axes have their bins in the wrong order (C10)."
  },
  {
   "property": "C89",
   "status": "partial",
   "theorems": [
    "C89_value",
    "C89_same_name_refuted",
    "C89_late_refuted"
   ],
   "note": "C89_value proves the claim for systematics told apart by their names and registered after the last AddSystematic; C89_same_name_refuted and C89_late_refuted show that without either condition SetParameters is accepted but leaves a systematic at its old value."
  },
  {
   "property": "C90",
   "status": "partial",
   "theorems": [
    "C90_function",
    "C90_outcome",
    "C90_dict_refuted"
   ],
   "note": "C90_function proves it for systematics with single, container or spectral parameters and C90_outcome gives every outcome; C90_dict_refuted shows a systematic whose parameters are a dictionary keeps foreign names from an earlier SetParameters, so GetParameters depends on the history."
  },
  {
   "property": "C91",
   "status": "partial",
   "theorems": [
    "C91_addPdfs_partial",
    "C91_systematics",
    "C91_mismatch_partial",
    "C91_rates_refuted"
   ],
   "note": "Holds for every form of AddPdfs/AddSystematics when the lists match, and mismatching groups/statuses are refused without effect; refuted for rate lists (never checked) and for statuses in the form with groups and rates: std::out_of_range after some pdfs were added."
  },
  {
   "property": "C92",
   "status": "partial",
   "theorems": [
    "C92_same_expectation",
    "C92_parameters_refuted"
   ],
   "note": "Expectation, event probability and normalisations carry over (C92_same_expectation); the fit parameters do not, because ParameterManager's assignment copies nothing (C92_parameters_refuted)."
  },
  {
   "property": "C93",
   "status": "partial",
   "theorems": [
    "C93_value_semantics_partial",
    "C93_no_leak_partial",
    "C93_assign_analytic_refuted",
    "C93_assign_analytic_shares_refuted",
    "C93_copy_composite_refuted",
    "C93_copy_convolution_refuted",
    "C93_copy_edmanager_refuted",
    "C93_varying_shared_refuted",
    "C93_varying_bare_refuted",
    "C93_assign_result_refuted",
    "C93_convolution_bare_refuted",
    "C93_cuts_self_assign_refuted",
    "C93_leak_refuted"
   ],
   "note": "Proved for programs that avoid the statements the code gets wrong (copying a CompositeED, Convolution, EDManager, VaryingCDF; assigning an AnalyticED, FitResult ...; self-assigning a CutCollection); each of those is refuted, as is freedom from leaks for replaced parts."
  },
  {
   "property": "C94",
   "status": "partial",
   "theorems": [
    "C94_same_value_partial",
    "C94_evaluate_both_partial",
    "C94_set_refuted",
    "C94_stale_refuted",
    "C94_register_refuted",
    "C94_gone_refuted"
   ],
   "note": "Proved for every reachable statistic: a copy has the same value and parameters, and evaluating either leaves the other's value. Independent fitting is refuted: SetParameters on the copy changes the original only, re-registering loses the pdf normalisations, and destroying the original leaves the copy undefined."
  },
  {
   "property": "C95",
   "status": "partial",
   "theorems": [
    "C95_search_partial",
    "C95_left_at_last_refuted"
   ],
   "note": "Proved for an even number of grid parameters, no buffers, no Barlow-Beeston, systematics with distinct names, a finite value at every grid point, no visited value exactly 0. The corner point is not visited (C43). The statistic is left at the last visited point, not at the best (refuted)."
  },
  {
   "property": "C96",
   "status": "partial",
   "theorems": [
    "C96_minimum",
    "C96_rates",
    "C96_grid_partial",
    "C96_truth_partial",
    "C96_corner_refuted"
   ],
   "note": "Minimum and uniqueness proved without buffers and Barlow-Beeston. The grid search part needs an even number of grid parameters, the truth among the visited points and no visited value exactly 0; a truth at the lower corner of the grid is never reported (refuted)."
  },
  {
   "property": "C97",
   "status": "proved",
   "theorems": [
    "C97_cannot_tell"
   ],
   "note": "For systematics with single, container or spectral parameters, distinct names, no buffers and no Barlow-Beeston (C90_dict_refuted and C30_*_refuted show the need)."
  },
  {
   "property": "C98",
   "status": "partial",
   "theorems": [
    "C98_value",
    "C98_one_axis"
   ],
   "note": "C98_value: at least one systematic and every pdf registered with the systematic manager and on the same axes as the data. C98_one_axis: no systematics, data of one axis. Some buffer not empty, no Barlow-Beeston; the totals that a normalisation divides by are assumed not zero. Buffers on more axes without systematics are refuted: C30_*_refuted."
  },
  {
   "property": "C99",
   "status": "partial",
   "theorems": [
    "C99_value",
    "C99_buffers_refuted"
   ],
   "note": "C99_value: proved without buffers and without Barlow-Beeston; with systematics every pdf must be registered with the systematic manager. Buffers together with a projection are refuted (C99_buffers_refuted): the buffer bins are subtracted from the bins of the unprojected pdf and every evaluation fails."
  },
  {
   "property": "C100",
   "status": "partial",
   "theorems": [
    "C100_double",
    "C100_double_rounding",
    "C100_axis_partial",
    "C100_edge_error_partial",
    "C100_double_error",
    "C100_max_refuted",
    "C100_empty_bin_refuted"
   ],
   "note": "gaps, FindBin and edge errors proved for every rounding; last edge = maximum and non-empty bins refuted"
  },
  {
   "property": "C101",
   "status": "partial",
   "theorems": [
    "C101_counts_partial",
    "C101_saturates_refuted"
   ],
   "note": "exact up to 2^53 proved; saturation beyond refutes the unrestricted claim"
  },
  {
   "property": "C102",
   "status": "partial",
   "theorems": [
    "C102_integral_partial",
    "C102_normalise_partial",
    "C102_exact_refuted"
   ],
   "note": "error bounds proved for every rounding; exactly 1 after Normalise refuted"
  },
  {
   "property": "C103",
   "status": "partial",
   "theorems": [
    "C103_exact_steps_partial",
    "C103_few_bits_partial",
    "C103_end_point_refuted",
    "C103_never_returns_refuted"
   ],
   "note": "settings with few bits proved equal to the exact search; end point and termination refuted otherwise"
  },
  {
   "property": "C104",
   "status": "partial",
   "theorems": [
    "C104_exact_partial",
    "C104_overflow_refuted"
   ],
   "note": "exact below 2^64 cells proved; overflow beyond refuted"
  },
  {
   "property": "C105",
   "status": "partial",
   "theorems": [
    "C105_int",
    "C105_every_number",
    "C105_unsigned_partial",
    "C105_double",
    "C105_load",
    "C105_load_double",
    "C105_trailing_text_refuted",
    "C105_negative_unsigned_refuted"
   ],
   "note": "all texts characterised for signed integers and doubles; refused trailing text and negative numbers for unsigned types are refuted"
  },
  {
   "property": "C106",
   "status": "partial",
   "theorems": [
    "C106_value",
    "C106_identity_partial",
    "C106_identity_uncertainty_partial",
    "C106_identity_refuted",
    "C106_refused_refuted"
   ],
   "note": "the value is proved for pdfs all DIRECT or all INDIRECT, every pdf accepted; the identity part is proved without Barlow-Beeston and for DIRECT pdfs, refuted for INDIRECT pdfs whose integral is not 1 (C106_identity_refuted); a refused AddPdf makes every evaluation throw (C106_refused_refuted)"
  },
  {
   "property": "C107",
   "status": "partial",
   "theorems": [
    "C107_calls_partial",
    "C107_order_refuted"
   ],
   "note": "DIRECT pdfs must come before INDIRECT ones: C107_order_refuted"
  },
  {
   "property": "C108",
   "status": "partial",
   "theorems": [
    "C108_histogram_partial",
    "C108_order",
    "C108_late_cuts_refuted"
   ],
   "note": "cuts set after the first answer are ignored: C108_late_cuts_refuted"
  },
  {
   "property": "C109",
   "status": "partial",
   "theorems": [
    "C109_log_prints",
    "C109_same_counts",
    "C109_report_partial",
    "C109_own_error_refuted",
    "C109_saved_partial",
    "C109_saved_refuted",
    "C109_percentages_refuted"
   ],
   "note": "background names distinct, data sets not empty; otherwise C109_own_error_refuted; unwritable files are not reported: C109_saved_refuted; stale percentages: C109_percentages_refuted"
  },
  {
   "property": "C110",
   "status": "partial",
   "theorems": [
    "C110_chain_partial",
    "C110_off",
    "C110_standard_refuted",
    "C110_late_refuted",
    "C110_branch_partial",
    "C110_branch_refuted",
    "C110_variance_refuted",
    "C110_whole_numbers",
    "C110_clear_partial"
   ],
   "note": "holds where reserved vector storage may be used; by the standard undefined: C110_standard_refuted; switching on late: C110_late_refuted; branch names: C110_branch_refuted; Var: C110_variance_refuted"
  },
  {
   "property": "C111",
   "status": "partial",
   "theorems": [
    "C111_value_refuted",
    "C111_parameters_refuted",
    "C111_data",
    "C111_kept",
    "C111_grid_refuted"
   ],
   "note": "the claim fails for every program: C111_value_refuted, C111_parameters_refuted, C111_grid_refuted; what holds: C111_data, C111_kept"
  },
  {
   "property": "C112",
   "status": "partial",
   "theorems": [
    "C112_response",
    "C112_conserved_partial",
    "C112_reversed",
    "C112_reversed_refuted"
   ],
   "note": "the response is characterised for every function; conservation is proved when each filled bin's image is in range in order, or within one bin. It fails for content that a decreasing function reverses across a bin edge: that content is lost (C112_reversed, C112_reversed_refuted)"
  },
  {
   "property": "C113",
   "status": "proved",
   "theorems": [
    "C113_joint_fit"
   ],
   "note": "Systematic objects are not shared between the likelihoods; a flat sum (nested sums flatten by C36); configurations as in C97."
  },
  {
   "property": "C114",
   "status": "partial",
   "theorems": [
    "C114_reports_partial",
    "C114_reports_refuted"
   ],
   "note": "Proved as far as it holds: C114_reports_refuted shows that GetNGroups before the first systematic reads an uninitialised member and GetNSystematicsInGroup of an unknown group dereferences end() instead of throwing."
  }
 ]
}