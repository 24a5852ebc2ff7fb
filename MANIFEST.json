{
 "claims": [
  {
   "property": "C01",
   "status": "proved",
   "theorems": [
    "C01_cache_never_stale",
    "C01_cache_never_stale_history"
   ],
   "note": "Generic over schemas, bodies and histories. Histories contain assignments, reads and deletions of computed attributes; deletion of parameters and overrides are separate claims (C03, C69)."
  },
  {
   "property": "C02",
   "status": "proved",
   "theorems": [
    "C02_no_recompute",
    "C02_body_not_reevaluated",
    "C02_equal_assignment_does_nothing"
   ],
   "note": "Ghost evaluation log; the generic 'ignore_cache' keyword is not modelled."
  },
  {
   "property": "C03",
   "status": "partial",
   "theorems": [
    "C03_delete_param_refuted",
    "C03_delete_property_partial"
   ],
   "note": "REFUTED by the code: deleting a parameter leaves dependents cached. Positive part: deleting a computed attribute invalidates its dependents."
  },
  {
   "property": "C04",
   "status": "partial",
   "theorems": [
    "C04_scalar_readback_partial",
    "C04_array_readback_refuted"
   ],
   "note": "REFUTED for arrays (allclose tolerance drops small updates); proved for scalars."
  },
  {
   "property": "C05",
   "status": "partial",
   "theorems": [
    "C05_real_classes_never_stale_partial",
    "C05_gap_free_classes",
    "C05_undeclared_refuted",
    "C05_quasar_stale_refuted"
   ],
   "note": "REFUTED for 9 of the 24 classes (undeclared dependencies listed); proved for all classes relative to the listed gaps, in full for the 15 gap-free classes."
  },
  {
   "property": "C06",
   "status": "proved",
   "theorems": [
    "C06_transparent",
    "C06_transparent_python_calls",
    "C06_transparent_concurrent",
    "C06_equal_arguments_refuted",
    "C06_negative_maxsize_refuted"
   ],
   "note": "Hypotheses: function respects Python equality, maxsize None or >= 0. Side notes (refuted theorems): 1/1.0/True share an entry for a function that distinguishes them; a negative maxsize raises KeyError."
  },
  {
   "property": "C07",
   "status": "proved",
   "theorems": [
    "C07_keeps_exactly_the_most_recent",
    "C07_bounded",
    "C07_bounded_concurrent"
   ],
   "note": "Heap of links refined to the recency list; observable statement: next call is a hit iff its key is among the n most recently used. Bound also proved for every thread interleaving."
  },
  {
   "property": "C08",
   "status": "proved",
   "theorems": [
    "C08_info_exact",
    "C08_hits_plus_misses",
    "C08_clear_resets",
    "C08_concurrent",
    "C08_unlocked_branches_can_lose_counts"
   ],
   "note": "All three branches, all sequential histories; bounded branch also for every interleaving. Extra: the unlocked counters of the maxsize 0/None branches can lose counts under threads (C08_unlocked_branches_can_lose_counts)."
  },
  {
   "property": "C09",
   "status": "proved",
   "theorems": [
    "C09_keys_separate",
    "C09_keyword_order_irrelevant"
   ],
   "note": "Concrete Python value model (int, bool, float, str, None, tuple, type, frozenset, identity objects); NaN and user-defined __eq__ not modelled."
  },
  {
   "property": "C10",
   "status": "partial",
   "theorems": [
    "C10_use_cache_transparent_partial",
    "C10_cache_gone_after_block",
    "C10_two_models_collide_refuted",
    "C10_keywords_collide_refuted"
   ],
   "note": "REFUTED as stated: the key has neither the object nor the keyword arguments, so two models of one class (or calls differing in keywords) share entries. Proved transparent when calls sharing a key agree; cache off after every block."
  },
  {
   "property": "C11",
   "status": "partial",
   "theorems": [
    "C11_first_load_partial",
    "C11_second_load_refuted"
   ],
   "note": "REFUTED for a second load; first load proved."
  },
  {
   "property": "C12",
   "status": "proved",
   "theorems": [
    "C12_preserve_restores_values"
   ],
   "note": "Freshness of later reads is C83."
  },
  {
   "property": "C13",
   "status": "partial",
   "theorems": [
    "C13_preserve_exception_refuted",
    "C13_preserve_exception_partial"
   ],
   "note": "REFUTED: an exception skips the restoring code; the exact crash state is proved."
  },
  {
   "property": "C14",
   "status": "proved",
   "theorems": [
    "C14_shot_noise_block_restores",
    "C14_so_block_restores",
    "C14_use_spt_restores",
    "C14_use_spt_inside_is_off"
   ],
   "note": "Error reporting of use_spt is C84."
  },
  {
   "property": "C15",
   "status": "proved",
   "theorems": [
    "C15_distorted_exactly_once",
    "C15_lock_state_restored"
   ],
   "note": "Sequential executions; arbitrary nesting of decorated and plain calls. Threads: C71."
  },
  {
   "property": "C16",
   "status": "proved",
   "theorems": [
    "C16_parallel",
    "C16_perpendicular",
    "C16_range",
    "C16_fixed_points",
    "C16_identity"
   ],
   "note": "Over the reals."
  },
  {
   "property": "C17",
   "status": "proved",
   "theorems": [
    "C17_kernel_damps",
    "C17_kernel_derivatives"
   ],
   "note": "Over the reals; all three kernels."
  },
  {
   "property": "C18",
   "status": "proved",
   "theorems": [
    "C18_power_is_weighted_sum",
    "C18_power_with_AP",
    "C18_public_components",
    "C18_subsample_values",
    "C18_equal_components"
   ],
   "note": "Sub-sample methods with N<>0: C85."
  },
  {
   "property": "C19",
   "status": "partial",
   "theorems": [
    "C19_power_ignores_N_refuted"
   ],
   "note": "REFUTED: the galaxy power does not depend on N at all (the offset is zeroed by nested shot-noise blocks)."
  },
  {
   "property": "C20",
   "status": "partial",
   "theorems": [
    "C20_derivative_k_partial",
    "C20_derivative_mu_partial",
    "C20_derivative_k_refuted"
   ],
   "note": "Proved without SO correction or with N=0; REFUTED with SO correction and N<>0."
  },
  {
   "property": "C21",
   "status": "proved",
   "theorems": [
    "C21_fs"
   ],
   "note": "Other fractions: C99."
  },
  {
   "property": "C22",
   "status": "partial",
   "theorems": [
    "C22_NcBs_partial",
    "C22_NsBsB_partial",
    "C22_one_halo_refuted"
   ],
   "note": "Proved for alpha_drag=1; REFUTED otherwise (drag factor missing)."
  },
  {
   "property": "C23",
   "status": "partial",
   "theorems": [
    "C23_sigma_c_partial",
    "C23_sigma_so_partial",
    "C23_sigma_refuted"
   ],
   "note": "Proved without SO or alpha_drag=1; REFUTED with SO and alpha_drag<>1."
  },
  {
   "property": "C24",
   "status": "proved",
   "theorems": [
    "C24_alpha_perp",
    "C24_quasar_alpha_par",
    "C24_quasar_alpha_perp"
   ],
   "note": "alpha_par of the galaxy power: C98."
  },
  {
   "property": "C25",
   "status": "partial",
   "theorems": [
    "C25_b1_partial",
    "C25_f_nl_partial",
    "C25_f_partial",
    "C25_sigma_fog_partial",
    "C25_sigma8_partial",
    "C25_sigma_fog_error",
    "C25_sigma8_error",
    "C25_f_error",
    "C25_b1_error",
    "C25_f_nl_error",
    "C25_offset_refuted",
    "C25_max_mu_refuted"
   ],
   "note": "REFUTED as stated: sigma_fog and sigma8_z derivatives are wrong when the constant offset N<>0, f for max_mu=2, b1 and f_nl for max_mu=0 (witnesses, and the exact error for all inputs). Proved as partial derivatives under N=0 / max_mu>=4 / max_mu>=2 resp."
  },
  {
   "property": "C26",
   "status": "proved",
   "theorems": [
    "C26_P01_is_the_log_derivative_of_P00"
   ],
   "note": "Over the reals; any amplitudes/exponents."
  },
  {
   "property": "C27",
   "status": "partial",
   "theorems": [
    "C27_direct_dependents_partial",
    "C27_galaxy",
    "C27_galaxy_example_file",
    "C27_chain_refuted",
    "C27_default_coverage"
   ],
   "note": "REFUTED in general: a parameter reached only through another constraint (a -> b -> c) is not a child, its contribution is missing. Proved for all graphs in which constrained model parameters mention the free parameter directly, and for the default galaxy theory."
  },
  {
   "property": "C28",
   "status": "proved",
   "theorems": [
    "C28_rows",
    "C28_step_is_along_one_axis",
    "C28_exact_for_quadratics",
    "C28_state_after_exception",
    "C28_near_bound_refuted",
    "C28_analytic_exception_refuted"
   ],
   "note": "Side notes (refuted theorems): near a bound the clipped points give a wrong slope; an exception of an analytic derivative leaves the state where it was. Serial evaluation only."
  },
  {
   "property": "C29",
   "status": "proved",
   "theorems": [
    "C29_trivial_window_identity",
    "C29_identity_for_ordered_multipoles",
    "C29_outside_range_unconvolved",
    "C29_unordered_multipoles_refuted",
    "C29_bad_input_raises"
   ],
   "note": "Spline abstract: any interpolation reproducing constants. Side note: unordered multipoles are matched by position (refuted theorem)."
  },
  {
   "property": "C30",
   "status": "proved",
   "theorems": [
    "C30_legendre_polynomials",
    "C30_legendre_orthogonal",
    "C30_product_expansion",
    "C30_multipole_numbers",
    "C30_positive",
    "C30_bare_sum_is_one",
    "C30_exchange",
    "C30_coefficients_are_projections",
    "C30_convolution_is_multipole_of_product",
    "C30_enough_window_columns"
   ],
   "note": "Adams product theorem proved for all ell, ell_prime, with Legendre orthogonality: the convolution is the multipole of the product. Exact arithmetic (float rounding of np.prod not modelled)."
  },
  {
   "property": "C31",
   "status": "proved",
   "theorems": [
    "C31_out_of_range_rejected",
    "C31_wrong_dimension_rejected",
    "C31_exact_at_nodes",
    "C31_between_corner_values",
    "C31_multi_affine_exact",
    "C31_extrapolation_affine",
    "C31_fill_value",
    "C31_nearest_is_nearest",
    "C31_constructor_requires_ascending",
    "C31_single_point_axis_refuted"
   ],
   "note": "Side note: a single-point axis is accepted and every evaluation is NaN (refuted theorem)."
  },
  {
   "property": "C32",
   "status": "proved",
   "theorems": [
    "C32_storage_is_a_bijection",
    "C32_element_access_reads_the_stored_entry"
   ],
   "note": "index arithmetic on integers; data of any type"
  },
  {
   "property": "C33",
   "status": "proved",
   "theorems": [
    "C33_round_trip",
    "C33_always_symmetric",
    "C33_diag"
   ],
   "note": "holds for every element type and for any prior content of np.empty; positive-semidefinite check of verify=True not modelled"
  },
  {
   "property": "C34",
   "status": "proved",
   "theorems": [
    "C34_elementwise"
   ],
   "note": "Reflected operators: C86."
  },
  {
   "property": "C35",
   "status": "proved",
   "theorems": [
    "C35_trim_keeps_exactly_the_rows_in_range",
    "C35_trim_succeeds_iff",
    "C35_trim_twice"
   ],
   "note": "coordinates as integers (only compared); exact success condition also proved; attrs arrays not modelled"
  },
  {
   "property": "C36",
   "status": "partial",
   "theorems": [
    "C36_rescaling_set_and_kept_by_arithmetic_partial",
    "C36_rescaling_lost_by_slicing_refuted"
   ],
   "note": "REFUTED: trim_k, sel and the kmin/kmax setters rebuild the object with inverse_rescaling 1. Proved: the factor applies right after initialisation and arithmetic keeps it."
  },
  {
   "property": "C37",
   "status": "proved",
   "theorems": [
    "C37_columns_stay_aligned"
   ],
   "note": "NaN wavenumbers included; memoisation covered by the Cache properties"
  },
  {
   "property": "C38",
   "status": "proved",
   "theorems": [
    "C38_slices_partition",
    "C38_kmu_pairs_slices"
   ],
   "note": "any list of columns; also the (k, mu) slices of the theory side"
  },
  {
   "property": "C39",
   "status": "proved",
   "theorems": [
    "C39_aligned_after_narrowing",
    "C39_widening_refuted",
    "C39_failed_change_refuted"
   ],
   "note": "for histories of successful narrowing changes from an aligned start (one row per input row, no NaN k, sorted coordinates). Beyond the property: widening and a failing change leave them misaligned (C39_*_refuted)."
  },
  {
   "property": "C40",
   "status": "proved",
   "theorems": [
    "C40_errors_belong_to_their_points",
    "C40_unequal_sizes_refuted"
   ],
   "note": "Side note: refuted for measurements of unequal size."
  },
  {
   "property": "C41",
   "status": "proved",
   "theorems": [
    "C41_usedata_keeps_rows"
   ],
   "note": "Multipole numbers and negative selections: C87."
  },
  {
   "property": "C42",
   "status": "proved",
   "theorems": [
    "C42_measurements_round_trip",
    "C42_grid_round_trip"
   ],
   "note": "all columns and grid points at their positions, each number through the text format (abstract function)"
  },
  {
   "property": "C43",
   "status": "proved",
   "theorems": [
    "C43_conversions_invert",
    "C43_factors",
    "C43_equal_units_and_errors"
   ],
   "note": "real arithmetic"
  },
  {
   "property": "C44",
   "status": "proved",
   "theorems": [
    "C44_flat_values_scattered",
    "C44_wrong_length_rejected",
    "C44_flat_and_grid_agree",
    "C44_wedge_is_mode_weighted_mean",
    "C44_empty_bin_raises",
    "C44_unordered_bounds_raise",
    "C44_constant_preserved",
    "C44_entry_between_extremes",
    "C44_one_wedge_per_point",
    "C44_no_mode_lost",
    "C44_pole_is_legendre_weighted_mean",
    "C44_single_row_poles_refuted",
    "C44_smooth_wedge_is_mean",
    "C44_wedge_ending_at_one_is_closed"
   ],
   "note": "numpy digitize/bincount by their documented semantics; floats as reals. Side note: multipoles on a single k row always raise (refuted theorem)."
  },
  {
   "property": "C45",
   "status": "partial",
   "theorems": [
    "C45_caller_list_modified_refuted",
    "C45_list_unchanged_iff",
    "C45_other_lists_untouched",
    "C45_second_construction_differs_refuted"
   ],
   "note": "REFUTED: the setter rewrites bounds close to 1 inside the list object passed by the caller; the exact condition and frame are proved."
  },
  {
   "property": "C46",
   "status": "proved",
   "theorems": [
    "C46_within_bounds_iff_finite",
    "C46_within_bounds_is_membership",
    "C46_prior_value",
    "C46_analytic_mode_refuted"
   ],
   "note": "Side note: in analytic mode the smoothed prior is finite everywhere (refuted theorem)."
  },
  {
   "property": "C47",
   "status": "proved",
   "theorems": [
    "C47_value_read_respects_bounds",
    "C47_any_read"
   ],
   "note": "Bounds ordered (min <= max); infinite bounds included."
  },
  {
   "property": "C48",
   "status": "partial",
   "theorems": [
    "C48_up_to_two_levels_partial",
    "C48_read_in_dependency_order",
    "C48_default_theories",
    "C48_derived_bias_refuted",
    "C48_constraint_sees_unclipped_value_refuted"
   ],
   "note": "REFUTED: with three constraint levels (b1 of the galaxy theory) a read after an assignment is stale; a constraint also sees an out-of-range value before clipping. Proved up to two levels (all model parameters of both default theories) and at any depth when read in dependency order."
  },
  {
   "property": "C49",
   "status": "proved",
   "theorems": [
    "C49_free_names",
    "C49_disjoint",
    "C49_independent_of_insertion_order",
    "C49_fixed_parameters_in_neither_list",
    "C49_constrained_names_follow_insertion_order"
   ],
   "note": "Names are modelled as numbers in their sort order."
  },
  {
   "property": "C50",
   "status": "proved",
   "theorems": [
    "C50_all_or_nothing",
    "C50_returns",
    "C50_galaxy"
   ],
   "note": "Model parameters up to two constraint levels (all of both default theories); deeper ones: see C48. NaN not modelled (reals)."
  },
  {
   "property": "C51",
   "status": "proved",
   "theorems": [
    "C51_inverse_of_scale",
    "C51_scale_of_inverse",
    "C51_scale_defined",
    "C51_scaled_gradient",
    "C51_prior_maps_to_unit_range"
   ],
   "note": "Over the reals; every free parameter has a non-empty prior."
  },
  {
   "property": "C52",
   "status": "proved",
   "theorems": [
    "C52_exact",
    "C52_every_string_covered",
    "C52_malformed_raises",
    "C52_plain_text_unchanged",
    "C52_unknown_name_raises",
    "C52_total"
   ],
   "note": "Every string decomposes into a proper template plus a possibly malformed end; exact replacement, KeyError and ValueError cases proved for all strings."
  },
  {
   "property": "C53",
   "status": "proved",
   "theorems": [
    "C53_blank_and_comments_ignored",
    "C53_trailing_comment_ignored",
    "C53_continuation_joined",
    "C53_line_gives_pair",
    "C53_line_without_equals_refused"
   ],
   "note": "Attribution to sections and special characters: C96. eval is an oracle."
  },
  {
   "property": "C54",
   "status": "proved",
   "theorems": [
    "C54_minus_inf_exactly_outside",
    "C54_value_inside",
    "C54_minus_lnlike_is_negative",
    "C54_current_values_after_any_history",
    "C54_minus_lnlike_outside",
    "C54_cut_in_any_mode",
    "C54_use_priors_false_refuted"
   ],
   "note": "Exact (default) prior mode and every mode for the cut at the bounds; C54_use_priors_false_refuted shows that minus_lnlike(use_priors=False) still contains the prior outside the bounds in the smoothed mode (the English claim is about use_priors)."
  },
  {
   "property": "C55",
   "status": "proved",
   "theorems": [
    "C55_chi2_in_bounds",
    "C55_chi2_current_after_any_history",
    "C55_history_total"
   ],
   "note": "Outside the bounds: C95."
  },
  {
   "property": "C56",
   "status": "partial",
   "theorems": [
    "C56_in_order_partial",
    "C56_common_k_any_set_order_partial",
    "C56_set_order_refuted",
    "C56_specific_not_first_refuted",
    "C56_smooth_different_k_refuted",
    "C56_subset_refuted",
    "C56_several_identifiers_refused"
   ],
   "note": "REFUTED in general (set order with unequal k, statistic-specific parameters not leading, smooth transfers with unequal k, usedata subsets). Proved when the groups follow the data order, and for every set order with a common k. Gridded transfers not modelled."
  },
  {
   "property": "C57",
   "status": "partial",
   "theorems": [
    "C57_fisher_never_returns_refuted",
    "C57_assembly_partial",
    "C57_entries_partial"
   ],
   "note": "REFUTED: the analytic path always raises AttributeError (self.pkmu_gradient does not exist on the driver). Proved: the assembly from a gradient is symmetric and positive semi-definite. The numdifftools path is third-party code."
  },
  {
   "property": "C58",
   "status": "proved",
   "theorems": [
    "C58_step_is_matrix_times_gradient",
    "C58_first_step",
    "C58_any_memory",
    "C58_descent",
    "C58_direction_always_descends"
   ],
   "note": "Two-loop recursion equals the explicit BFGS matrix of the last M stored pairs times the gradient, for every dimension, memory, history and iteration counter; positive definite with positive curvature; every direction given to the line search descends or is zero."
  },
  {
   "property": "C59",
   "status": "proved",
   "theorems": [
    "C59_terminates",
    "C59_ending_unique",
    "C59_status_documented_and_true",
    "C59_undefined_only_at_zero_gradient",
    "C59_objective_decreases",
    "C59_zero_max_iter_refuted",
    "C59_restart_stops_immediately_refuted",
    "C59_stationary_start_refuted",
    "C59_tolerance_implies_documented",
    "C59_tolerance_documented_nonneg",
    "C59_tolerance_negative_refuted"
   ],
   "note": "Line search is an oracle with the Armijo contract. Side notes (refuted theorems): max_iter<=0 still performs one iteration; zero gradient at the start divides by zero; a restarted fit with the test on stops at once; tolerance differs from the documented one for negative objectives."
  },
  {
   "property": "C60",
   "status": "proved",
   "theorems": [
    "C60_sliding_window",
    "C60_rows_aligned",
    "C60_update_succeeds_iff",
    "C60_failed_update_rotates_refuted"
   ],
   "note": "Sliding window and alignment proved for every sequence of successful updates; additionally a failed update is shown to rotate the window (C60_failed_update_rotates_refuted), which is outside the property."
  },
  {
   "property": "C61",
   "status": "proved",
   "theorems": [
    "C61_smallest_legal",
    "C61_request_kept_when_legal"
   ],
   "note": "Smallest even number that is at least 2*ndim and at least the request; for all integers."
  },
  {
   "property": "C62",
   "status": "proved",
   "theorems": [
    "C62_schedule"
   ],
   "note": "Propagation of the stop: C94."
  },
  {
   "property": "C63",
   "status": "partial",
   "theorems": [
    "C63_samples_kept_partial",
    "C63_lnprobs_kept_partial",
    "C63_zero_lost_refuted",
    "C63_samples_mixed_refuted"
   ],
   "note": "REFUTED: np.nonzero drops every zero entry, so a chain holding a zero is refused or silently scrambled; proved exact when no stored number is zero."
  },
  {
   "property": "C64",
   "status": "proved",
   "theorems": [
    "C64_concatenates_in_order",
    "C64_associative",
    "C64_refuses_mismatch",
    "C64_no_constrained_fails_refuted"
   ],
   "note": "Side note: without constrained parameters the sum always raises (refuted theorem)."
  },
  {
   "property": "C65",
   "status": "proved",
   "theorems": [
    "C65_emcee_traces_kept",
    "C65_emcee_refuses_other_names",
    "C65_lbfgs_free_values_kept"
   ],
   "note": "Constrained values of minimiser results: C88."
  },
  {
   "property": "C66",
   "status": "proved",
   "theorems": [
    "C66_partition",
    "C66_zero_groups_raise",
    "C66_colours",
    "C66_too_many_groups_raise"
   ],
   "note": "Partition into n groups with sizes differing by at most one for all N and n>0; colours; IndexError when n>N."
  },
  {
   "property": "C67",
   "status": "proved",
   "theorems": [
    "C67_new_name",
    "C67_repeated_calls_distinct",
    "C67_chains_distinct"
   ],
   "note": "Same base concurrently: C97. The only failure is an unreadable number in a matching name."
  },
  {
   "property": "C68",
   "status": "proved",
   "theorems": [
    "C68_shift_invariant",
    "C68_scale_invariant",
    "C68_order_independent",
    "C68_lower_bound",
    "C68_order_matters_refuted",
    "C68_converged_both_sides"
   ],
   "note": "Real arithmetic. Side note: order matters for chains of different length (refuted theorem)."
  },
  {
   "property": "C69",
   "status": "partial",
   "theorems": [
    "C69_override_read_partial",
    "C69_override_refuted"
   ],
   "note": "REFUTED: dependents cached before the block ignore the override, those computed inside keep it. Direct reads proved."
  },
  {
   "property": "C70",
   "status": "proved",
   "theorems": [
    "C70_gradient_leaves_model_alone",
    "C70_power_leaves_model_alone"
   ],
   "note": "Failing evaluations: C89."
  },
  {
   "property": "C71",
   "status": "proved",
   "theorems": [
    "C71_sequential_calls_distorted",
    "C71_no_deadlock",
    "C71_mutual_exclusion"
   ],
   "note": "Overlapping calls: C90."
  },
  {
   "property": "C72",
   "status": "proved",
   "theorems": [
    "C72_power_is_the_expansion",
    "C72_derivative_k",
    "C72_derivative_mu",
    "C72_total_derivative",
    "C72_ap_of_the_sum",
    "C72_quasar_derivative_k",
    "C72_quasar_derivative_mu"
   ],
   "note": "Over the reals; interpolation replaced by the interpolated function."
  },
  {
   "property": "C73",
   "status": "proved",
   "theorems": [
    "C73_terminates_with_exact_dependencies",
    "C73_children_are_direct_mentions"
   ],
   "note": "Every insertion order and graph; the text parsing of expressions is not modelled."
  },
  {
   "property": "C74",
   "status": "partial",
   "theorems": [
    "C74_if_model_is_at_theta_partial",
    "C74_stale_analytic_rows_refuted",
    "C74_scalar_call_refuted"
   ],
   "note": "REFUTED: analytic rows are evaluated at the previous model state; with scalar k, mu only the first parameter's row is returned. Proved when the model is already at theta."
  },
  {
   "property": "C75",
   "status": "proved",
   "theorems": [
    "C75_analytic_mode"
   ],
   "note": "Default mode: C93."
  },
  {
   "property": "C76",
   "status": "proved",
   "theorems": [
    "C76_analytic_gradient",
    "C76_out_of_bounds"
   ],
   "note": "numerical_from_lnlike: C92."
  },
  {
   "property": "C77",
   "status": "partial",
   "theorems": [
    "C77_constrained_values_belong_to_sample",
    "C77_stale_constraints_refuted"
   ],
   "note": "Proved when the constrained values depend only on the assigned free values; refuted for parameter sets with stale (chained) constraints."
  },
  {
   "property": "C78",
   "status": "proved",
   "theorems": [
    "C78_burnin_excluded",
    "C78_summaries_current"
   ],
   "note": "Peak, sums and reorderings: C91."
  },
  {
   "property": "C79",
   "status": "proved",
   "theorems": [
    "C79_copy_is_the_same",
    "C79_unpickled_attributes",
    "C79_unpickled_flat_refuted"
   ],
   "note": "copy and unpickled attributes proved; side note C79_unpickled_flat_refuted: item Ode0 of a flat cosmology comes back as 0.69"
  },
  {
   "property": "C80",
   "status": "proved",
   "theorems": [
    "C80_clone_changes_what_is_asked",
    "C80_flat_request_ignored_refuted"
   ],
   "note": "side note C80_flat_request_ignored_refuted: flat=True in clone is ignored"
  },
  {
   "property": "C81",
   "status": "proved",
   "theorems": [
    "C81_copy_is_equal",
    "C81_equal_means_close",
    "C81_not_symmetric_refuted",
    "C81_not_transitive_refuted"
   ],
   "note": "side notes: == is neither symmetric nor transitive (refuted theorems)"
  },
  {
   "property": "C82",
   "status": "proved",
   "theorems": [
    "C82_engine_parameters_fixed",
    "C82_item_assignment_refused",
    "C82_update_changes_items_refuted"
   ],
   "note": "side note C82_update_changes_items_refuted: dict.update/pop change items, and n_s/sigma8"
  },
  {
   "property": "C83",
   "status": "partial",
   "theorems": [
    "C83_preserve_reads_fresh_partial",
    "C83_preserve_reads_fresh_refuted"
   ],
   "note": "Proved if the block assigns only parameters that held a value; REFUTED otherwise."
  },
  {
   "property": "C84",
   "status": "partial",
   "theorems": [
    "C84_use_spt_error_reported_refuted"
   ],
   "note": "REFUTED: the bare except swallows the exception."
  },
  {
   "property": "C85",
   "status": "partial",
   "theorems": [
    "C85_subsample_components_partial",
    "C85_subsample_components_refuted"
   ],
   "note": "Proved for N=0, REFUTED otherwise (the methods add N, their sum does not)."
  },
  {
   "property": "C86",
   "status": "partial",
   "theorems": [
    "C86_reflected_operations_refuted"
   ],
   "note": "REFUTED: s-C returns C-s, C*D raises AttributeError, s/C raises TypeError in Python 3."
  },
  {
   "property": "C87",
   "status": "partial",
   "theorems": [
    "C87_ells_follow_when_increasing_partial",
    "C87_order_of_ells_refuted",
    "C87_negative_refuted"
   ],
   "note": "Proved for increasing selections; REFUTED otherwise and for negative numbers."
  },
  {
   "property": "C88",
   "status": "partial",
   "theorems": [
    "C88_lbfgs_constrained_swapped_refuted"
   ],
   "note": "REFUTED: the names move, the values do not."
  },
  {
   "property": "C89",
   "status": "partial",
   "theorems": [
    "C89_crash_state_partial",
    "C89_crash_refuted"
   ],
   "note": "REFUTED: b1, b1_bar keep working values; nothing else changes (proved)."
  },
  {
   "property": "C90",
   "status": "partial",
   "theorems": [
    "C90_concurrent_call_undistorted_refuted"
   ],
   "note": "REFUTED: an overlapping call sees the lock taken and skips the distortion."
  },
  {
   "property": "C91",
   "status": "partial",
   "theorems": [
    "C91_peak_stale_refuted",
    "C91_burnin_forgotten_refuted"
   ],
   "note": "REFUTED: the peak is never invalidated; sums and reorderings reset the burn-in of the parameters."
  },
  {
   "property": "C92",
   "status": "partial",
   "theorems": [
    "C92_finite_difference_partial",
    "C92_finite_difference_prior_refuted"
   ],
   "note": "Proved without priors; REFUTED with priors: prior derivative at the last difference point, parameters left there."
  },
  {
   "property": "C93",
   "status": "partial",
   "theorems": [
    "C93_default_mode_refuted"
   ],
   "note": "REFUTED: the derivative of the smoothed prior is returned."
  },
  {
   "property": "C94",
   "status": "partial",
   "theorems": [
    "C94_every_chain_is_told_partial",
    "C94_verdict_takes_effect_partial",
    "C94_stops_when_told_partial",
    "C94_same_reason_partial",
    "C94_all_chains_stop_partial",
    "C94_without_tests_nobody_waits_partial",
    "C94_waiting_chain_blocked_refuted",
    "C94_convergence_can_block_refuted",
    "C94_different_reasons_refuted"
   ],
   "note": "Proved for every interleaving: every other chain is sent the reason, a chain with a message stops at its next step, all stopped chains share the reason when all causes agree. REFUTED: a chain waiting in the Barrier blocks forever, two causes give two reasons."
  },
  {
   "property": "C95",
   "status": "partial",
   "theorems": [
    "C95_out_of_bounds_refuted",
    "C95_chi2_refuted"
   ],
   "note": "REFUTED: evaluates at the previous parameters."
  },
  {
   "property": "C96",
   "status": "partial",
   "theorems": [
    "C96_attribution_partial",
    "C96_suffix_tag_refuted",
    "C96_quoted_characters_refuted"
   ],
   "note": "Proved when no listed tag is a proper suffix of the line tag; REFUTED in general (suffix tags, # in quotes, = in values, trailing continuation)."
  },
  {
   "property": "C97",
   "status": "partial",
   "theorems": [
    "C97_concurrent_same_base_refuted"
   ],
   "note": "REFUTED: check and creation are two steps."
  },
  {
   "property": "C98",
   "status": "partial",
   "theorems": [
    "C98_alpha_par_partial",
    "C98_alpha_par_refuted"
   ],
   "note": "Proved without SO or N=0, REFUTED with SO and N<>0."
  },
  {
   "property": "C99",
   "status": "partial",
   "theorems": [
    "C99_fcB_partial",
    "C99_fsB_partial",
    "C99_f_so_partial",
    "C99_fsB_refuted",
    "C99_fcB_refuted",
    "C99_f_so_refuted"
   ],
   "note": "fcB: proved without SO or alpha_drag=1, else REFUTED. fsB: proved for fs in {0,1}, REFUTED for 0<fs<1. f_so: REFUTED for alpha_drag<>1 and for N<>0, proved otherwise."
  },
  {
   "property": "C100",
   "status": "proved",
   "theorems": [
    "C100_grid_of_values",
    "C100_pairs",
    "C100_scalars",
    "C100_flattened",
    "C100_meshgrid"
   ],
   "note": ""
  },
  {
   "property": "C101",
   "status": "partial",
   "theorems": [
    "C101_single_with_array_refuted",
    "C101_2d_labels_refuted",
    "C101_2d_labels_partial"
   ],
   "note": "refuted: ValueError for one length 1 without flatten; 2-D input that is no meshgrid is mislabelled; what values it does hold is proved"
  },
  {
   "property": "C102",
   "status": "proved",
   "theorems": [
    "C102_multipole_close",
    "C102_cubic_exact",
    "C102_simpson_exact_for_quadratics",
    "C102_poles_close",
    "C102_agree"
   ],
   "note": "exact reals; Simpson's rule on the uniform grid; the model spectrum is an arbitrary function"
  },
  {
   "property": "C103",
   "status": "partial",
   "theorems": [
    "C103_depends_on_count_refuted",
    "C103_single_k_refuted",
    "C103_count_independent_partial"
   ],
   "note": "refuted for 41 wavenumbers and for one; proved for all other lengths"
  },
  {
   "property": "C104",
   "status": "proved",
   "theorems": [
    "C104_constructed_as_asked",
    "C104_unknown_keyword_refused"
   ],
   "note": ""
  },
  {
   "property": "C105",
   "status": "proved",
   "theorems": [
    "C105_rescaled_equals_fresh",
    "C105_linear_spectrum"
   ],
   "note": "The integrators, Bessel functions, FFTLog are arbitrary functions."
  },
  {
   "property": "C106",
   "status": "partial",
   "theorems": [
    "C106_zero_is_forever_refuted"
   ],
   "note": "Refuted: after 0 the stored integrals are NaN for ever. The claim for histories without 0 is C105."
  },
  {
   "property": "C107",
   "status": "partial",
   "theorems": [
    "C107_zeldovich_restored_partial",
    "C107_linear_restored_partial",
    "C107_changes_lost_refuted",
    "C107_linear_without_redshift_refuted"
   ],
   "note": "Proved for ZeldovichPS and for LinearPS with an explicit redshift; refuted for ZeldovichP00/P01/P11 (changes lost) and for LinearPS without redshift (IndexError)."
  },
  {
   "property": "C108",
   "status": "proved",
   "theorems": [
    "C108_correlation_function_current",
    "C108_result_is_a_number"
   ],
   "note": ""
  },
  {
   "property": "C109",
   "status": "proved",
   "theorems": [
    "C109_momentum_spectra_are_growth_derivatives"
   ],
   "note": "FFTLog plus interpolation is assumed linear in the table (stated as a hypothesis)."
  },
  {
   "property": "C110",
   "status": "partial",
   "theorems": [
    "C110_low_k_defects_partial",
    "C110_missing_mode_coupling_refuted"
   ],
   "note": "The exact defects are proved; refuted for P11, where half of Q3 is missing (1.5 instead of 2)."
  },
  {
   "property": "C111",
   "status": "proved",
   "theorems": [
    "C111_cubic_spline"
   ],
   "note": ""
  },
  {
   "property": "C112",
   "status": "proved",
   "theorems": [
    "C112_cubic_reproduces"
   ],
   "note": ""
  },
  {
   "property": "C113",
   "status": "proved",
   "theorems": [
    "C113_linear_spline"
   ],
   "note": ""
  },
  {
   "property": "C114",
   "status": "proved",
   "theorems": [
    "C114_shifted_spline"
   ],
   "note": ""
  },
  {
   "property": "C115",
   "status": "partial",
   "theorems": [
    "C115_search_safe_partial",
    "C115_bad_tables_refuted"
   ],
   "note": "memory safety and termination of the search proved for every table of two or more points, ordered or not; refuted: one-point linear tables abort on evaluation, unordered and unequally spaced (shifted) tables are accepted and miss their points"
  },
  {
   "property": "C116",
   "status": "proved",
   "theorems": [
    "C116_handles_safe",
    "C116_copy_assign_destroy"
   ],
   "note": ""
  },
  {
   "property": "C117",
   "status": "proved",
   "theorems": [
    "C117_adaptive",
    "C117_orientation",
    "C117_inside",
    "C117_rule_exact"
   ],
   "note": "reals for doubles; 1-D Gauss-Kronrod routine only"
  },
  {
   "property": "C118",
   "status": "proved",
   "theorems": [
    "C118_error_bound"
   ],
   "note": ""
  },
  {
   "property": "C119",
   "status": "partial",
   "theorems": [
    "C119_limit_silent_refuted",
    "C119_warnings_partial"
   ],
   "note": "refuted: error code 4 is unreachable, the limit on subintervals is reached silently (witness with the library limit and the default tolerances); positive part: codes 1 and 3 are reported, nothing else ever is"
  },
  {
   "property": "C120",
   "status": "proved",
   "theorems": [
    "C120_substitution",
    "C120_inside"
   ],
   "note": ""
  },
  {
   "property": "C121",
   "status": "proved",
   "theorems": [
    "C121_no_memory"
   ],
   "note": ""
  },
  {
   "property": "C122",
   "status": "partial",
   "theorems": [
    "C122_exclusive_partial",
    "C122_results_partial",
    "C122_progress_partial",
    "C122_finite_partial",
    "C122_unprotected_release_refuted"
   ],
   "note": "exclusive workspaces, results, progress and finiteness proved with taking and returning as atomic steps; refuted: the return is outside the critical section and a data race on the map is reachable"
  },
  {
   "property": "C123",
   "status": "proved",
   "theorems": [
    "C123_safe",
    "C123_parabola",
    "C123_line",
    "C123_linear",
    "C123_agrees_with_scipy_rule"
   ],
   "note": "real arithmetic"
  },
  {
   "property": "C124",
   "status": "partial",
   "theorems": [
    "C124_simps_short_refuted",
    "C124_trapz_short_partial"
   ],
   "note": "refuted: one or two points abort SimpsIntegrate (sizes differ: a slice of an empty range has one element), no points overruns TrapzIntegrate; the trapezoidal rule is right for one and two points"
  },
  {
   "property": "C125",
   "status": "proved",
   "theorems": [
    "C125_polygon",
    "C125_linear",
    "C125_error"
   ],
   "note": ""
  },
  {
   "property": "C126",
   "status": "proved",
   "theorems": [
    "C126_linspace",
    "C126_logspace",
    "C126_refused"
   ],
   "note": ""
  },
  {
   "property": "C127",
   "status": "proved",
   "theorems": [
    "C127_kaiser_multipoles"
   ],
   "note": "for biases other than 0 (the code divides by b1)"
  },
  {
   "property": "C128",
   "status": "partial",
   "theorems": [
    "C128_bias_ignored_refuted",
    "C128_unit_bias_partial",
    "C128_pickle_loses_refuted",
    "C128_pickle_unchanged_partial",
    "C128_default_limits_refuted",
    "C128_given_limits_partial"
   ],
   "note": "refuted: P_s ignores b1, pickles keep the constructor arguments, Xi_ell with default limits aborts; proved for unit bias, unchanged objects, positive limits"
  },
  {
   "property": "C129",
   "status": "proved",
   "theorems": [
    "C129_mesh_interpolation"
   ],
   "note": ""
  },
  {
   "property": "C130",
   "status": "partial",
   "theorems": [
    "C130_outside_mesh_refuted"
   ],
   "note": "refuted: reads one element before or after the tables"
  },
  {
   "property": "C131",
   "status": "proved",
   "theorems": [
    "C131_windows",
    "C131_wrong_coefficient"
   ],
   "note": "C131_wrong_coefficient: the series of PowerSpectrum.cpp has 1/30 instead of 1/10"
  },
  {
   "property": "C132",
   "status": "proved",
   "theorems": [
    "C132_linear_normalised",
    "C132_set_sigma8",
    "C132_linear_stable"
   ],
   "note": "any history of public operations (made); integrator any homogeneous functional, Boltzmann code arbitrary; doubles are reals; raw NormalizeTransferFunction calls excluded"
  },
  {
   "property": "C133",
   "status": "proved",
   "theorems": [
    "C133_pickle"
   ],
   "note": "plain histories; parameters printable and with the two from_dict defaults (otherwise see C135)"
  },
  {
   "property": "C134",
   "status": "proved",
   "theorems": [
    "C134_set_transfer",
    "C134_update",
    "C134_same_fit",
    "C134_copy",
    "C134_clone"
   ],
   "note": "plain histories; FromArrays excluded"
  },
  {
   "property": "C135",
   "status": "partial",
   "theorems": [
    "C135_update_stale_refuted",
    "C135_sigma8_reset_refuted",
    "C135_others_refuted"
   ],
   "note": "refuted: update() under EH/BBKS leaves every computed quantity stale; copy, SetTransferFunction, update and clone(tf) reset sigma8; pickling adds defaults; from_file calls a missing constructor. Positive parts: C133, C134"
  },
  {
   "property": "C136",
   "status": "partial",
   "theorems": [
    "C136_from_power_refuted"
   ],
   "note": "refuted: from_power ignores the given spectrum for all inputs, and the object cannot be unpickled"
  },
  {
   "property": "C137",
   "status": "proved",
   "theorems": [
    "C137_class_transfer"
   ],
   "note": "doubles are reals; cubic spline of C111"
  },
  {
   "property": "C138",
   "status": "proved",
   "theorems": [
    "C138_no_wiggle",
    "C138_bbks"
   ],
   "note": "the full Eisenstein-Hu fit is not modelled"
  },
  {
   "property": "C139",
   "status": "proved",
   "theorems": [
    "C139_several_files",
    "C139_used_samples",
    "C139_kept_results",
    "C139_single_file",
    "C139_best_is_used",
    "C139_nothing_left",
    "C139_best_exists"
   ],
   "note": "several files, one file, nothing left, existence of the best iteration"
  },
  {
   "property": "C140",
   "status": "partial",
   "theorems": [
    "C140_one_survivor_keeps_burnin_refuted",
    "C140_discarded_samples_remain_refuted",
    "C140_no_constrained_refuted",
    "C140_files_ignored_refuted",
    "C140_thinning_fails_refuted"
   ],
   "note": "refuted: one surviving file of several keeps every sample in the combined statistics; thinning always fails; file list ignored; folders without constrained parameters fail"
  },
  {
   "property": "C141",
   "status": "proved",
   "theorems": [
    "C141_positive",
    "C141_widens_iff",
    "C141_many_mocks"
   ],
   "note": "positivity, defining ratio, when errors widen, limit"
  },
  {
   "property": "C142",
   "status": "proved",
   "theorems": [
    "C142_cross_spectrum_is_symmetric_in_the_two_tracers"
   ],
   "note": "proved for all inputs of the model"
  },
  {
   "property": "C143",
   "status": "proved",
   "theorems": [
    "C143_mean_bias_is_the_auto_spectrum_of_the_geometric_mean_bias",
    "C143_halo_auto_spectrum_is_the_cross_spectrum_at_equal_biases",
    "C143_mean_bias_discards_the_separate_biases"
   ],
   "note": "proved for all inputs of the model"
  },
  {
   "property": "C144",
   "status": "proved",
   "theorems": [
    "C144_unit_bias_tracers_have_the_matter_mu0_and_mu2",
    "C144_unit_bias_mu4_differs_from_matter_by_two_known_terms"
   ],
   "note": "proved for all inputs of the model"
  },
  {
   "property": "C145",
   "status": "partial",
   "theorems": [
    "C145_unit_bias_mu4_and_mu6_are_not_the_matter_ones_refuted"
   ],
   "note": "refuted: a concrete model with unit-bias P_mu4 and P_mu6 different from matter; the exact P_mu4 difference is proved in C144"
  },
  {
   "property": "C146",
   "status": "proved",
   "theorems": [
    "C146_biased_power_tends_to_the_kaiser_spectrum",
    "C146_matter_power_tends_to_the_kaiser_spectrum"
   ],
   "note": "proved for all inputs of the model"
  },
  {
   "property": "C147",
   "status": "proved",
   "theorems": [
    "C147_one_loop_matter_terms_are_linear_plus_quadratic"
   ],
   "note": "proved for all inputs of the model"
  },
  {
   "property": "C148",
   "status": "partial",
   "theorems": [
    "C148_matter_power_to_mu6_raises_at_one_loop_refuted",
    "C148_matter_power_to_mu4_and_at_two_loops_is_defined_partial"
   ],
   "note": "refuted at one loop with max_mu = 6 (AttributeError in P13.mu6); proved for the other cases"
  },
  {
   "property": "C149",
   "status": "proved",
   "theorems": [
    "C149_bias_functions_of_a_new_model_are_the_documented_ones",
    "C149_bias_functions_follow_every_session",
    "C149_vlah_biasing_uses_one_function_of_each_kind",
    "C149_without_vlah_biasing_each_name_has_its_own_fit",
    "C149_tables_without_maps_are_self_contained"
   ],
   "note": "proved for all inputs of the model"
  },
  {
   "property": "C150",
   "status": "partial",
   "theorems": [
    "C150_the_group_keywords_always_raise_refuted",
    "C150_a_changed_coefficient_may_not_take_effect_refuted",
    "C150_cyclic_tables_exhaust_the_recursion_limit_refuted",
    "C150_an_unknown_type_is_accepted_and_fails_later_refuted",
    "C150_the_recorded_defaults_are_those_of_the_last_name_refuted",
    "C150_named_keywords_take_effect_partial",
    "C150_several_named_keywords_partial"
   ],
   "note": "refuted in five ways; named keywords proved to take effect"
  },
  {
   "property": "C151",
   "status": "proved",
   "theorems": [
    "C151_each_walker_is_its_first_allowed_draw_of_at_most_102",
    "C151_walkers_found_in_time_have_finite_prior"
   ],
   "note": "All priors, draws and numbers of walkers; each walker is characterised as its first allowed draw."
  },
  {
   "property": "C152",
   "status": "partial",
   "theorems": [
    "C152_a_walker_outside_the_prior_can_be_returned_refuted",
    "C152_the_warning_counts_a_valid_walker_as_impossible_refuted",
    "C152_multivariate_and_posterior_initialisation_never_work_refuted"
   ],
   "note": "Refuted: a walker outside the prior can be returned, a valid one can be counted as impossible, multivariate/posterior initialisation never works."
  },
  {
   "property": "C153",
   "status": "proved",
   "theorems": [
    "C153_the_returned_mass_has_the_requested_bias",
    "C153_mass_from_bias_has_the_requested_bias",
    "C153_bias_increases_with_peak_height",
    "C153_one_mass_per_bias_increasing",
    "C153_the_mass_is_unique"
   ],
   "note": "brentq enters through its contract with an arbitrary tolerance; the contract is shown to be satisfiable."
  },
  {
   "property": "C154",
   "status": "proved",
   "theorems": [
    "C154_dispersion_of_the_mass",
    "C154_dispersion_positive_and_increasing"
   ],
   "note": "Monotonicity stated for exact root finding."
  },
  {
   "property": "C155",
   "status": "proved",
   "theorems": [
    "C155_exact_at_the_nodes",
    "C155_between_the_surrounding_nodes",
    "C155_outside_the_table_solved_directly",
    "C155_dispersions_follow_the_redshift",
    "C155_dispersions_are_the_relations_or_at_the_nearest_end"
   ],
   "note": "The spline of Sigma enters as an arbitrary function; the session theorem has no hypotheses."
  },
  {
   "property": "C156",
   "status": "partial",
   "theorems": [
    "C156_the_table_ignores_the_overdensity_refuted",
    "C156_the_table_survives_a_new_cosmology_refuted",
    "C156_interpolation_fails_for_dense_cosmologies_refuted",
    "C156_dispersions_ignore_a_new_cosmology_refuted",
    "C156_zero_dispersion_on_failure_refuted"
   ],
   "note": "Refuted: overdensity ignored, table and relation stale after a change of cosmology, NameError for dense cosmologies, dispersion 0 on failure."
  },
  {
   "property": "C157",
   "status": "proved",
   "theorems": [
    "C157_second_order_kernels_are_the_standard_ones",
    "C157_every_pair_of_wavevectors_is_in_the_rectangle",
    "C157_every_point_of_the_rectangle_is_a_pair_of_wavevectors"
   ],
   "note": "for every input of the model (exact arithmetic, exact integrals)"
  },
  {
   "property": "C158",
   "status": "proved",
   "theorems": [
    "C158_anisotropic_kernels_are_azimuthal_averages",
    "C158_mixed_kernels_are_products"
   ],
   "note": "for every input of the model (exact arithmetic, exact integrals)"
  },
  {
   "property": "C159",
   "status": "proved",
   "theorems": [
    "C159_each_integral_is_over_all_wavevectors",
    "C159_mixed_integrals_are_over_all_wavevectors",
    "C159_integrals_are_quadratic_in_the_spectrum",
    "C159_integrals_vanish_at_nonpositive_k",
    "C159_squares_give_nonnegative_integrals",
    "C159_cross_integral_is_bounded_by_the_autos",
    "C159_anisotropic_integrals_are_over_all_wavevectors",
    "C159_quartic_integrals_are_over_all_wavevectors",
    "C159_odd_anisotropic_integrals_are_over_all_wavevectors"
   ],
   "note": "for every input of the model (exact arithmetic, exact integrals)"
  },
  {
   "property": "C160",
   "status": "partial",
   "theorems": [
    "C160_i_indices_are_collapsed",
    "C160_k_second_index_two_without_tide_is_the_tidal_integral",
    "C160_indices_outside_the_table_are_rejected_refuted",
    "C160_answered_indices_partial"
   ],
   "note": "refuted: indices are collapsed to one integer before the table lookup; the exact set of answered pairs is proved"
  },
  {
   "property": "C161",
   "status": "proved",
   "theorems": [
    "C161_near_kernels_are_the_averages",
    "C161_far_kernels_are_close_to_the_averages",
    "C161_the_two_forms_meet",
    "C161_long_modes"
   ],
   "note": "for every input of the model (exact arithmetic, exact integrals)"
  },
  {
   "property": "C162",
   "status": "proved",
   "theorems": [
    "C162_each_integral_is_over_all_momenta",
    "C162_integrals_are_linear_in_the_spectrum",
    "C162_integrals_vanish_at_nonpositive_k",
    "C162_cross_is_the_mean"
   ],
   "note": "for every input of the model (exact arithmetic, exact integrals)"
  },
  {
   "property": "C163",
   "status": "partial",
   "theorems": [
    "C163_far_series_is_wrong_from_the_sixth_order_on_refuted",
    "C163_far_series_of_g10_is_right_partial",
    "C163_j_indices_are_collapsed_refuted"
   ],
   "note": "refuted for five of the six kernels (wrong from r^-6 on) and for the indices; g10 is proved right"
  },
  {
   "property": "C164",
   "status": "proved",
   "theorems": [
    "C164_one_loop_spectra",
    "C164_bar_is_the_sky_average",
    "C164_pickling_keeps_the_spectrum",
    "C164_tables_of_the_user",
    "C164_kurtosis_is_the_moment"
   ],
   "note": "all linear spectra; exact integrals and arithmetic, cubic splines as modelled"
  },
  {
   "property": "C165",
   "status": "proved",
   "theorems": [
    "C165_rescaled_kurtosis_is_the_fresh_one",
    "C165_rescaled_spectra_are_the_fresh_ones",
    "C165_rescaled_two_loop_integrals_are_the_fresh_ones"
   ],
   "note": "all spectra, ratios, index pairs; values at the nodes of the interpolation tables"
  },
  {
   "property": "C166",
   "status": "proved",
   "theorems": [
    "C166_two_loop_vvdd",
    "C166_two_loop_dvdv",
    "C166_two_loop_vvvv",
    "C166_order_does_not_matter"
   ],
   "note": "convergence of the four pieces is a hypothesis, shown to be met"
  },
  {
   "property": "C167",
   "status": "partial",
   "theorems": [
    "C167_cross_piece_partial",
    "C167_other_pieces_partial",
    "C167_two_loop_sum_refuted",
    "C167_indices_alias_refuted",
    "C167_base_class_ignores_its_table_refuted"
   ],
   "note": "refuted: (3,2) uses the (2,3) kernel in two of three pieces, indices alias; the cross piece is right"
  },
  {
   "property": "C168",
   "status": "proved",
   "theorems": [
    "C168_history_independent",
    "C168_without_interpolation",
    "C168_outside_is_direct",
    "C168_exact_at_tabulated_values",
    "C168_between_tabulated_values",
    "C168_jennings_restores",
    "C168_jennings_value",
    "C168_broadbands"
   ],
   "note": "real arithmetic; numerical kernels arbitrary"
  },
  {
   "property": "C169",
   "status": "proved",
   "theorems": [
    "C169_broadband_is_fourier_transform",
    "C169_default_matter_correlation"
   ],
   "note": "complete for the stated parameter range"
  },
  {
   "property": "C170",
   "status": "partial",
   "theorems": [
    "C170_zero_removes_the_zeldovich_term_refuted",
    "C170_poisoned_differs_from_fresh_refuted",
    "C170_rejected_value_is_kept_refuted"
   ],
   "note": "refuted: a zero sigma8_z is accepted before the first evaluation and removes the Zeldovich term for good; afterwards it raises but is kept"
  },
  {
   "property": "C171",
   "status": "proved",
   "theorems": [
    "C171_central_fraction",
    "C171_total_bias",
    "C171_type_B_central_bias",
    "C171_one_halo_amplitudes",
    "C171_constraints_together",
    "C171_ranges"
   ],
   "note": "the expressions equal counting over the sample"
  },
  {
   "property": "C172",
   "status": "proved",
   "theorems": [
    "C172_change_of_variables",
    "C172_invertible"
   ],
   "note": "identities and injectivity"
  },
  {
   "property": "C173",
   "status": "proved",
   "theorems": [
    "C173_inside_is_the_model",
    "C173_continuous_at_the_joins",
    "C173_power_laws",
    "C173_constructor_limits",
    "C173_fits_never_stale"
   ],
   "note": "fits are arbitrary functions of the table"
  },
  {
   "property": "C174",
   "status": "partial",
   "theorems": [
    "C174_defaults_rejected_refuted",
    "C174_method_name_ignored_refuted",
    "C174_slopes_stale_refuted",
    "C174_limits_lost_refuted"
   ],
   "note": "refuted: each of the four clauses fails"
  },
  {
   "property": "C175",
   "status": "proved",
   "theorems": [
    "C175_hankel_self_inverse",
    "C175_spherical_bessel_self_inverse",
    "C175_fourier_self_inverse",
    "C175_xi2P_undoes_P2xi"
   ],
   "note": "loggamma only assumed to satisfy Schwarz reflection"
  },
  {
   "property": "C176",
   "status": "proved",
   "theorems": [
    "C176_exact_on_log_harmonics",
    "C176_P2xi_exact",
    "C176_linear"
   ],
   "note": "N free; kernel Mellin transform convergence is a hypothesis met by a concrete kernel"
  },
  {
   "property": "C177",
   "status": "proved",
   "theorems": [
    "C177_plancherel"
   ],
   "note": ""
  },
  {
   "property": "C178",
   "status": "partial",
   "theorems": [
    "C178_default_length_not_invertible_refuted"
   ],
   "note": "refuted: a concrete input is not returned"
  },
  {
   "property": "C179",
   "status": "proved",
   "theorems": [
    "C179_padding_continues_the_grid",
    "C179_unit_window_identity"
   ],
   "note": "even multipoles"
  },
  {
   "property": "C180",
   "status": "partial",
   "theorems": [
    "C180_unit_window_not_identity_refuted"
   ],
   "note": "refuted for every log Gamma with reflection and recurrence: the column returned is a constant != 1 times the right one"
  },
  {
   "property": "C181",
   "status": "proved",
   "theorems": [
    "C181_fftlog_pair_inverse"
   ],
   "note": "exact inverse on every log grid"
  },
  {
   "property": "C182",
   "status": "proved",
   "theorems": [
    "C182_exact_on_log_periodic"
   ],
   "note": "exact on log-periodic spectra, any bias"
  },
  {
   "property": "C183",
   "status": "partial",
   "theorems": [
    "C183_outside_range_zero",
    "C183_smoothing_always_shrinks_refuted"
   ],
   "note": "refuted: any positive smoothing strictly shrinks sum k^3 P^2 in the round trip; separations outside the dual range silently give 0 (C183_outside_range_zero)"
  },
  {
   "property": "C184",
   "status": "proved",
   "theorems": [
    "C184_info_round_trip",
    "C184_new_file_round_trip"
   ],
   "note": "info files restore complete tables and storable metadata"
  },
  {
   "property": "C185",
   "status": "partial",
   "theorems": [
    "C185_nlopt_not_restored_refuted",
    "C185_second_save_appends_refuted",
    "C185_metadata_changed_refuted"
   ],
   "note": "refuted: from_nlopt tables, second save without metadata, False/multi-word/None metadata"
  },
  {
   "property": "C186",
   "status": "partial",
   "theorems": [
    "C186_columns_partial",
    "C186_two_sigma_columns_refuted"
   ],
   "note": "one-sigma columns and scaling proved; two-sigma columns refuted"
  },
  {
   "property": "C187",
   "status": "proved",
   "theorems": [
    "C187_metadata_follow_selections"
   ],
   "note": "any sequence of add_metadata and selections"
  },
  {
   "property": "C188",
   "status": "partial",
   "theorems": [
    "C188_selection_breaks_original_refuted"
   ],
   "note": "refuted: shared list of names"
  },
  {
   "property": "C189",
   "status": "proved",
   "theorems": [
    "C189_restarts_never_lose_results"
   ],
   "note": "all schedules and crash points, distinct labels"
  },
  {
   "property": "C190",
   "status": "partial",
   "theorems": [
    "C190_same_label_loses_results_refuted"
   ],
   "note": "refuted: race between listing and creating"
  },
  {
   "property": "C191",
   "status": "proved",
   "theorems": [
    "C191_every_run_ends",
    "C191_results_saved",
    "C191_restart_replaces"
   ],
   "note": "termination, saved results, exact effect of one restart"
  },
  {
   "property": "C192",
   "status": "partial",
   "theorems": [
    "C192_interrupted_restart_duplicates_refuted",
    "C192_failure_not_reported_refuted"
   ],
   "note": "refuted: duplicated iterations, exit status 0, lost log"
  },
  {
   "property": "C193",
   "status": "proved",
   "theorems": [
    "C193_best_file_found",
    "C193_start_values_by_name"
   ],
   "note": "largest score; values by name"
  },
  {
   "property": "C194",
   "status": "partial",
   "theorems": [
    "C194_found_file_not_used_refuted",
    "C194_crash_blocks_search_refuted",
    "C194_missing_parameter_nan_refuted"
   ],
   "note": "refuted: found file unused, unreadable files, NaN start"
  },
  {
   "property": "C195",
   "status": "proved",
   "theorems": [
    "C195_round_trip"
   ],
   "note": "for all parameter sets whose values are literal texts or $ texts that refer to the environment; Python eval and repr are oracles"
  },
  {
   "property": "C196",
   "status": "partial",
   "theorems": [
    "C196_value_partial",
    "C196_specification_partial",
    "C196_empty_dict_refuted"
   ],
   "note": "proved: values and parameter specifications of tagged lines without '$'. Refuted: an empty dict is taken for a specification and reads as None"
  },
  {
   "property": "C197",
   "status": "partial",
   "theorems": [
    "C197_untagged_reference_refuted",
    "C197_order_refuted"
   ],
   "note": "refuted: an untagged definition, and the order of the written lines; the positive part is C195"
  },
  {
   "property": "C198",
   "status": "proved",
   "theorems": [
    "C198_selection",
    "C198_accepted_iff"
   ],
   "note": ""
  },
  {
   "property": "C199",
   "status": "proved",
   "theorems": [
    "C199_folder_keeps"
   ],
   "note": ""
  },
  {
   "property": "C200",
   "status": "partial",
   "theorems": [
    "C200_new_folder_partial",
    "C200_never_saved_refuted",
    "C200_from_directory_refuted"
   ],
   "note": "proved: a folder created by one run (model saved, neither file given explicitly elsewhere) is used by every later run that names no model: the saved model is loaded. Refuted: in a folder that already had a parameter file but no model the model is built anew at every run; and from_directory ignores the saved model"
  },
  {
   "property": "C201",
   "status": "partial",
   "theorems": [
    "C201_all_end_partial",
    "C201_wait_forever_refuted"
   ],
   "note": "proved: with an accepted command line, or one process, no process can wait for ever and all end in the same way, under every schedule. Refuted: with several processes and a rejected command line all but the first wait for ever"
  },
  {
   "property": "C202",
   "status": "partial",
   "theorems": [
    "C202_same_partial",
    "C202_race_refuted"
   ],
   "note": "proved: for a parameter file that the run does not write, or one process, under every schedule. Refuted: in a folder used again the first process rewrites the file the others still have to read"
  },
  {
   "property": "C203",
   "status": "partial",
   "theorems": [
    "C203_one_step_partial",
    "C203_encloses_refuted",
    "C203_one_cell_refuted"
   ],
   "note": "proved: the level drawn is at most one cell step too high. Refuted: with distinct counts the contour encloses less than the fraction; if one cell reaches the fraction, everything"
  },
  {
   "property": "C204",
   "status": "partial",
   "theorems": [
    "C204_increasing_partial",
    "C204_ordered_partial",
    "C204_two_cells_refuted"
   ],
   "note": "proved: increasing when counts differ, no two cells hold the smaller fraction and no cell the difference; never decreasing when no cell holds the smaller fraction. Refuted: not increasing when two cells hold it"
  },
  {
   "property": "C205",
   "status": "partial",
   "theorems": [
    "C205_same_order_partial",
    "C205_other_order_refuted"
   ],
   "note": "proved if the pair was not asked for in the other order before. Refuted: otherwise the transposed histogram comes back"
  },
  {
   "property": "C206",
   "status": "partial",
   "theorems": [
    "C206_line_holds_partial",
    "C206_expression_partial",
    "C206_default_expression_refuted"
   ],
   "note": "proved for parameters whose default has no expression, and for lines with an expression. Refuted: a line without expr cannot free or fix a parameter constrained by default"
  },
  {
   "property": "C207",
   "status": "partial",
   "theorems": [
    "C207_left_out_partial",
    "C207_no_line_partial",
    "C207_vary_refuted",
    "C207_value_refuted"
   ],
   "note": "proved for the attributes other than vary, and for the value if it satisfies the bounds. Refuted: a line without vary fixes a free default; a lower bound moves the default value onto it"
  },
  {
   "property": "C208",
   "status": "proved",
   "theorems": [
    "C208_constrained",
    "C208_unknown_name"
   ],
   "note": "for chains of expressions of any length"
  },
  {
   "property": "C209",
   "status": "partial",
   "theorems": [
    "C209_intersection_partial",
    "C209_from_the_end_refuted",
    "C209_order_refuted",
    "C209_scalar_refuted"
   ],
   "note": "proved for non-negative positions, masks and slices; an empty intersection is refused. Refuted: positions from the end, the order, a scalar first condition"
  },
  {
   "property": "C210",
   "status": "partial",
   "theorems": [
    "C210_nearest_partial",
    "C210_repeated_refuted"
   ],
   "note": "proved for axes without repeated coordinates. Refuted: with repeated coordinates the position is one among the different coordinates"
  },
  {
   "property": "C211",
   "status": "partial",
   "theorems": [
    "C211_fiducials_partial",
    "C211_missing_refuted",
    "C211_default_theories"
   ],
   "note": "Proved for parameters all of whose dependencies have fiducial values, whatever the depth of the chains. Refuted: one that depends on a parameter without fiducial value gets one whenever its expression is finite at infinity."
  },
  {
   "property": "C212",
   "status": "proved",
   "theorems": [
    "C212_values_kept"
   ],
   "note": "For all parameter sets that prepare_params accepts."
  },
  {
   "property": "C213",
   "status": "partial",
   "theorems": [
    "C213_first_allowed_partial",
    "C213_negative_refuted",
    "C213_zero_refuted"
   ],
   "note": "Proved for initial values that are not negative. Refuted: a negative initial value raises ValueError; zero is never scattered."
  },
  {
   "property": "C214",
   "status": "proved",
   "theorems": [
    "C214_nested",
    "C214_median_in_the_middle"
   ],
   "note": "numpy percentiles are modelled (linear interpolation of the sorted samples), over real numbers."
  },
  {
   "property": "C215",
   "status": "proved",
   "theorems": [
    "C215_order_independent",
    "C215_change_of_unit",
    "C215_change_of_sign",
    "C215_rescaling"
   ],
   "note": "For all chains; over real numbers."
  },
  {
   "property": "C216",
   "status": "partial",
   "theorems": [
    "C216_results_kept_partial",
    "C216_fiducial_lost_refuted",
    "C216_pickle_refuted"
   ],
   "note": "Proved for everything but the fiducial values and the error rescaling, for a numpy that unpickles by default. Refuted: those are lost; with a newer numpy no file can be read."
  },
  {
   "property": "C217",
   "status": "proved",
   "theorems": [
    "C217_total_derivative",
    "C217_unique"
   ],
   "note": "autograd.grad is an oracle that returns the partial derivative of the function it is given where it succeeds (contract met by an explicit oracle). Free parameters are those that vary and have no expression; expressions are arbitrary functions of the named parameters."
  },
  {
   "property": "C218",
   "status": "partial",
   "theorems": [
    "C218_free_and_fixed_kept_partial",
    "C218_constrained_stale_refuted"
   ],
   "note": "Proved for free (brought within bounds) and fixed parameters; refuted for constrained parameters in a chain of three."
  },
  {
   "property": "C219",
   "status": "partial",
   "theorems": [
    "C219_in_Mpc_refuted"
   ],
   "note": "Refuted unless h = 1: the value is in Mpc. H0 and H_z are in km/s/Mpc as in ClassEngine.h."
  },
  {
   "property": "C220",
   "status": "proved",
   "theorems": [
    "C220_refused_exactly",
    "C220_constrained_by_free",
    "C220_free_by_constrained"
   ],
   "note": "autograd.grad is the oracle of C217; a zero derivative to be inverted is excluded by the existence of a differentiable inverse relation."
  },
  {
   "property": "C221",
   "status": "proved",
   "theorems": [
    "C221_free_parameters",
    "C221_fixed_must_be_free"
   ],
   "note": "numpy.linalg.inv is an oracle; the Fisher matrix is given. Requested constrained parameters (columns from constraint_derivative, C217, C220) are in the model but not in the theorem."
  }
 ]
}