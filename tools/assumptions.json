{
"C01_cache_never_stale": [],
"C01_cache_never_stale_history": [],
"C02_body_not_reevaluated": [],
"C02_equal_assignment_does_nothing": [],
"C02_no_recompute": [],
"C03_delete_param_refuted": [],
"C03_delete_property_partial": [],
"C04_array_readback_refuted": [],
"C04_scalar_readback_partial": [],
"C05_gap_free_classes": [],
"C05_quasar_stale_refuted": [],
"C05_real_classes_never_stale_partial": [],
"C05_undeclared_refuted": [],
"C06_equal_arguments_refuted": [],
"C06_negative_maxsize_refuted": [],
"C06_transparent": [],
"C06_transparent_concurrent": [],
"C06_transparent_python_calls": [],
"C07_bounded": [],
"C07_bounded_concurrent": [],
"C07_keeps_exactly_the_most_recent": [],
"C08_clear_resets": [],
"C08_concurrent": [],
"C08_hits_plus_misses": [],
"C08_info_exact": [],
"C08_unlocked_branches_can_lose_counts": [],
"C09_keys_separate": [],
"C09_keyword_order_irrelevant": [],
"C100_flattened": [
"ClassicalDedekindReals.sig_forall_dec"
],
"C100_grid_of_values": [
"ClassicalDedekindReals.sig_forall_dec"
],
"C100_meshgrid": [
"ClassicalDedekindReals.sig_forall_dec"
],
"C100_pairs": [
"ClassicalDedekindReals.sig_forall_dec"
],
"C100_scalars": [],
"C101_2d_labels_partial": [
"ClassicalDedekindReals.sig_forall_dec"
],
"C101_2d_labels_refuted": [
"ClassicalDedekindReals.sig_forall_dec",
"FunctionalExtensionality.functional_extensionality_dep"
],
"C101_single_with_array_refuted": [
"ClassicalDedekindReals.sig_forall_dec"
],
"C102_agree": [
"ClassicalDedekindReals.sig_forall_dec",
"FunctionalExtensionality.functional_extensionality_dep"
],
"C102_cubic_exact": [
"ClassicalDedekindReals.sig_not_dec",
"ClassicalDedekindReals.sig_forall_dec",
"FunctionalExtensionality.functional_extensionality_dep",
"Classical_Prop.classic"
],
"C102_multipole_close": [
"ClassicalDedekindReals.sig_not_dec",
"ClassicalDedekindReals.sig_forall_dec",
"FunctionalExtensionality.functional_extensionality_dep",
"Classical_Prop.classic"
],
"C102_poles_close": [
"ClassicalDedekindReals.sig_not_dec",
"ClassicalDedekindReals.sig_forall_dec",
"FunctionalExtensionality.functional_extensionality_dep",
"Classical_Prop.classic"
],
"C102_simpson_exact_for_quadratics": [
"ClassicalDedekindReals.sig_not_dec",
"ClassicalDedekindReals.sig_forall_dec",
"FunctionalExtensionality.functional_extensionality_dep",
"Classical_Prop.classic"
],
"C103_count_independent_partial": [
"ClassicalDedekindReals.sig_forall_dec",
"FunctionalExtensionality.functional_extensionality_dep"
],
"C103_depends_on_count_refuted": [
"ClassicalDedekindReals.sig_not_dec",
"ClassicalDedekindReals.sig_forall_dec",
"FunctionalExtensionality.functional_extensionality_dep",
"Classical_Prop.classic"
],
"C103_single_k_refuted": [
"ClassicalDedekindReals.sig_forall_dec",
"FunctionalExtensionality.functional_extensionality_dep"
],
"C104_constructed_as_asked": [],
"C104_unknown_keyword_refused": [],
"C105_linear_spectrum": [
"ClassicalDedekindReals.sig_not_dec",
"ClassicalDedekindReals.sig_forall_dec",
"FunctionalExtensionality.functional_extensionality_dep",
"Classical_Prop.classic"
],
"C105_rescaled_equals_fresh": [
"ClassicalDedekindReals.sig_not_dec",
"ClassicalDedekindReals.sig_forall_dec",
"FunctionalExtensionality.functional_extensionality_dep",
"Classical_Prop.classic"
],
"C106_zero_is_forever_refuted": [
"ClassicalDedekindReals.sig_not_dec",
"ClassicalDedekindReals.sig_forall_dec",
"FunctionalExtensionality.functional_extensionality_dep",
"Classical_Prop.classic"
],
"C107_changes_lost_refuted": [
"ClassicalDedekindReals.sig_not_dec",
"ClassicalDedekindReals.sig_forall_dec",
"FunctionalExtensionality.functional_extensionality_dep",
"Classical_Prop.classic"
],
"C107_linear_restored_partial": [
"ClassicalDedekindReals.sig_forall_dec",
"FunctionalExtensionality.functional_extensionality_dep"
],
"C107_linear_without_redshift_refuted": [],
"C107_zeldovich_restored_partial": [
"ClassicalDedekindReals.sig_not_dec",
"ClassicalDedekindReals.sig_forall_dec",
"FunctionalExtensionality.functional_extensionality_dep",
"Classical_Prop.classic"
],
"C108_correlation_function_current": [
"ClassicalDedekindReals.sig_not_dec",
"ClassicalDedekindReals.sig_forall_dec",
"FunctionalExtensionality.functional_extensionality_dep",
"Classical_Prop.classic"
],
"C108_result_is_a_number": [
"ClassicalDedekindReals.sig_not_dec",
"ClassicalDedekindReals.sig_forall_dec",
"FunctionalExtensionality.functional_extensionality_dep",
"Classical_Prop.classic"
],
"C109_momentum_spectra_are_growth_derivatives": [
"ClassicalDedekindReals.sig_not_dec",
"ClassicalDedekindReals.sig_forall_dec",
"FunctionalExtensionality.functional_extensionality_dep",
"Classical_Prop.classic"
],
"C10_cache_gone_after_block": [],
"C10_keywords_collide_refuted": [],
"C10_two_models_collide_refuted": [],
"C10_use_cache_transparent_partial": [],
"C110_low_k_defects_partial": [
"ClassicalDedekindReals.sig_not_dec",
"ClassicalDedekindReals.sig_forall_dec",
"FunctionalExtensionality.functional_extensionality_dep",
"Classical_Prop.classic"
],
"C110_missing_mode_coupling_refuted": [
"ClassicalDedekindReals.sig_not_dec",
"ClassicalDedekindReals.sig_forall_dec",
"FunctionalExtensionality.functional_extensionality_dep",
"Classical_Prop.classic"
],
"C111_cubic_spline": [
"ClassicalDedekindReals.sig_not_dec",
"ClassicalDedekindReals.sig_forall_dec",
"FunctionalExtensionality.functional_extensionality_dep",
"Classical_Prop.classic"
],
"C112_cubic_reproduces": [
"ClassicalDedekindReals.sig_not_dec",
"ClassicalDedekindReals.sig_forall_dec",
"FunctionalExtensionality.functional_extensionality_dep",
"Classical_Prop.classic"
],
"C113_linear_spline": [
"ClassicalDedekindReals.sig_forall_dec",
"FunctionalExtensionality.functional_extensionality_dep"
],
"C114_shifted_spline": [
"ClassicalDedekindReals.sig_forall_dec",
"FunctionalExtensionality.functional_extensionality_dep"
],
"C115_bad_tables_refuted": [
"ClassicalDedekindReals.sig_forall_dec",
"FunctionalExtensionality.functional_extensionality_dep"
],
"C115_search_safe_partial": [
"ClassicalDedekindReals.sig_forall_dec",
"FunctionalExtensionality.functional_extensionality_dep"
],
"C116_copy_assign_destroy": [],
"C116_handles_safe": [],
"C117_adaptive": [
"ClassicalDedekindReals.sig_not_dec",
"ClassicalDedekindReals.sig_forall_dec",
"FunctionalExtensionality.functional_extensionality_dep",
"Classical_Prop.classic"
],
"C117_inside": [
"ClassicalDedekindReals.sig_not_dec",
"ClassicalDedekindReals.sig_forall_dec",
"FunctionalExtensionality.functional_extensionality_dep",
"Classical_Prop.classic"
],
"C117_orientation": [
"ClassicalDedekindReals.sig_not_dec",
"ClassicalDedekindReals.sig_forall_dec",
"FunctionalExtensionality.functional_extensionality_dep",
"Classical_Prop.classic"
],
"C117_rule_exact": [
"ClassicalDedekindReals.sig_not_dec",
"ClassicalDedekindReals.sig_forall_dec",
"FunctionalExtensionality.functional_extensionality_dep",
"Classical_Prop.classic"
],
"C118_error_bound": [
"ClassicalDedekindReals.sig_not_dec",
"ClassicalDedekindReals.sig_forall_dec",
"FunctionalExtensionality.functional_extensionality_dep",
"Classical_Prop.classic"
],
"C119_limit_silent_refuted": [
"ClassicalDedekindReals.sig_not_dec",
"ClassicalDedekindReals.sig_forall_dec",
"FunctionalExtensionality.functional_extensionality_dep",
"Classical_Prop.classic"
],
"C119_warnings_partial": [
"ClassicalDedekindReals.sig_not_dec",
"ClassicalDedekindReals.sig_forall_dec",
"FunctionalExtensionality.functional_extensionality_dep",
"Classical_Prop.classic"
],
"C11_first_load_partial": [],
"C11_second_load_refuted": [],
"C120_inside": [
"ClassicalDedekindReals.sig_not_dec",
"ClassicalDedekindReals.sig_forall_dec",
"FunctionalExtensionality.functional_extensionality_dep",
"Classical_Prop.classic"
],
"C120_substitution": [
"ClassicalDedekindReals.sig_not_dec",
"ClassicalDedekindReals.sig_forall_dec",
"FunctionalExtensionality.functional_extensionality_dep",
"Classical_Prop.classic"
],
"C121_no_memory": [
"ClassicalDedekindReals.sig_not_dec",
"ClassicalDedekindReals.sig_forall_dec",
"FunctionalExtensionality.functional_extensionality_dep",
"Classical_Prop.classic"
],
"C122_exclusive_partial": [
"ClassicalDedekindReals.sig_not_dec",
"ClassicalDedekindReals.sig_forall_dec",
"FunctionalExtensionality.functional_extensionality_dep",
"Classical_Prop.classic"
],
"C122_finite_partial": [
"ClassicalDedekindReals.sig_not_dec",
"ClassicalDedekindReals.sig_forall_dec",
"FunctionalExtensionality.functional_extensionality_dep",
"Classical_Prop.classic"
],
"C122_progress_partial": [
"ClassicalDedekindReals.sig_not_dec",
"ClassicalDedekindReals.sig_forall_dec",
"FunctionalExtensionality.functional_extensionality_dep",
"Classical_Prop.classic"
],
"C122_results_partial": [
"ClassicalDedekindReals.sig_not_dec",
"ClassicalDedekindReals.sig_forall_dec",
"FunctionalExtensionality.functional_extensionality_dep",
"Classical_Prop.classic"
],
"C122_unprotected_release_refuted": [
"ClassicalDedekindReals.sig_not_dec",
"ClassicalDedekindReals.sig_forall_dec",
"FunctionalExtensionality.functional_extensionality_dep",
"Classical_Prop.classic"
],
"C123_agrees_with_scipy_rule": [
"ClassicalDedekindReals.sig_forall_dec",
"FunctionalExtensionality.functional_extensionality_dep"
],
"C123_line": [
"ClassicalDedekindReals.sig_not_dec",
"ClassicalDedekindReals.sig_forall_dec",
"FunctionalExtensionality.functional_extensionality_dep",
"Classical_Prop.classic"
],
"C123_linear": [
"ClassicalDedekindReals.sig_forall_dec",
"FunctionalExtensionality.functional_extensionality_dep"
],
"C123_parabola": [
"ClassicalDedekindReals.sig_not_dec",
"ClassicalDedekindReals.sig_forall_dec",
"FunctionalExtensionality.functional_extensionality_dep",
"Classical_Prop.classic"
],
"C123_safe": [
"ClassicalDedekindReals.sig_forall_dec",
"FunctionalExtensionality.functional_extensionality_dep"
],
"C124_simps_short_refuted": [
"ClassicalDedekindReals.sig_forall_dec",
"FunctionalExtensionality.functional_extensionality_dep"
],
"C124_trapz_short_partial": [
"ClassicalDedekindReals.sig_forall_dec",
"FunctionalExtensionality.functional_extensionality_dep"
],
"C125_error": [
"ClassicalDedekindReals.sig_not_dec",
"ClassicalDedekindReals.sig_forall_dec",
"FunctionalExtensionality.functional_extensionality_dep",
"Classical_Prop.classic"
],
"C125_linear": [
"ClassicalDedekindReals.sig_forall_dec",
"FunctionalExtensionality.functional_extensionality_dep"
],
"C125_polygon": [
"ClassicalDedekindReals.sig_not_dec",
"ClassicalDedekindReals.sig_forall_dec",
"FunctionalExtensionality.functional_extensionality_dep",
"Classical_Prop.classic"
],
"C126_linspace": [
"ClassicalDedekindReals.sig_forall_dec",
"FunctionalExtensionality.functional_extensionality_dep"
],
"C126_logspace": [
"ClassicalDedekindReals.sig_not_dec",
"ClassicalDedekindReals.sig_forall_dec",
"FunctionalExtensionality.functional_extensionality_dep",
"Classical_Prop.classic"
],
"C126_refused": [
"ClassicalDedekindReals.sig_not_dec",
"ClassicalDedekindReals.sig_forall_dec",
"FunctionalExtensionality.functional_extensionality_dep",
"Classical_Prop.classic"
],
"C127_kaiser_multipoles": [
"ClassicalDedekindReals.sig_not_dec",
"ClassicalDedekindReals.sig_forall_dec",
"FunctionalExtensionality.functional_extensionality_dep",
"Classical_Prop.classic"
],
"C128_bias_ignored_refuted": [
"ClassicalDedekindReals.sig_not_dec",
"ClassicalDedekindReals.sig_forall_dec",
"FunctionalExtensionality.functional_extensionality_dep",
"Classical_Prop.classic"
],
"C128_default_limits_refuted": [
"ClassicalDedekindReals.sig_not_dec",
"ClassicalDedekindReals.sig_forall_dec",
"FunctionalExtensionality.functional_extensionality_dep",
"Classical_Prop.classic"
],
"C128_given_limits_partial": [
"ClassicalDedekindReals.sig_not_dec",
"ClassicalDedekindReals.sig_forall_dec",
"FunctionalExtensionality.functional_extensionality_dep",
"Classical_Prop.classic"
],
"C128_pickle_loses_refuted": [
"ClassicalDedekindReals.sig_forall_dec",
"FunctionalExtensionality.functional_extensionality_dep"
],
"C128_pickle_unchanged_partial": [
"ClassicalDedekindReals.sig_forall_dec"
],
"C128_unit_bias_partial": [
"ClassicalDedekindReals.sig_not_dec",
"ClassicalDedekindReals.sig_forall_dec",
"FunctionalExtensionality.functional_extensionality_dep",
"Classical_Prop.classic"
],
"C129_mesh_interpolation": [
"ClassicalDedekindReals.sig_forall_dec",
"FunctionalExtensionality.functional_extensionality_dep"
],
"C12_preserve_restores_values": [],
"C130_outside_mesh_refuted": [
"ClassicalDedekindReals.sig_forall_dec",
"FunctionalExtensionality.functional_extensionality_dep"
],
"C131_windows": [
"ClassicalDedekindReals.sig_not_dec",
"ClassicalDedekindReals.sig_forall_dec",
"FunctionalExtensionality.functional_extensionality_dep",
"Classical_Prop.classic"
],
"C131_wrong_coefficient": [
"ClassicalDedekindReals.sig_not_dec",
"ClassicalDedekindReals.sig_forall_dec",
"FunctionalExtensionality.functional_extensionality_dep",
"Classical_Prop.classic"
],
"C132_linear_normalised": [
"ClassicalDedekindReals.sig_not_dec",
"ClassicalDedekindReals.sig_forall_dec",
"FunctionalExtensionality.functional_extensionality_dep",
"Classical_Prop.classic"
],
"C132_linear_stable": [
"ClassicalDedekindReals.sig_not_dec",
"ClassicalDedekindReals.sig_forall_dec",
"FunctionalExtensionality.functional_extensionality_dep",
"Classical_Prop.classic"
],
"C132_set_sigma8": [
"ClassicalDedekindReals.sig_not_dec",
"ClassicalDedekindReals.sig_forall_dec",
"FunctionalExtensionality.functional_extensionality_dep",
"Classical_Prop.classic"
],
"C133_pickle": [
"ClassicalDedekindReals.sig_not_dec",
"ClassicalDedekindReals.sig_forall_dec",
"FunctionalExtensionality.functional_extensionality_dep",
"Classical_Prop.classic"
],
"C134_clone": [
"ClassicalDedekindReals.sig_not_dec",
"ClassicalDedekindReals.sig_forall_dec",
"FunctionalExtensionality.functional_extensionality_dep",
"Classical_Prop.classic"
],
"C134_copy": [
"ClassicalDedekindReals.sig_not_dec",
"ClassicalDedekindReals.sig_forall_dec",
"FunctionalExtensionality.functional_extensionality_dep",
"Classical_Prop.classic"
],
"C134_same_fit": [
"ClassicalDedekindReals.sig_not_dec",
"ClassicalDedekindReals.sig_forall_dec",
"FunctionalExtensionality.functional_extensionality_dep",
"Classical_Prop.classic"
],
"C134_set_transfer": [
"ClassicalDedekindReals.sig_not_dec",
"ClassicalDedekindReals.sig_forall_dec",
"FunctionalExtensionality.functional_extensionality_dep",
"Classical_Prop.classic"
],
"C134_update": [
"ClassicalDedekindReals.sig_not_dec",
"ClassicalDedekindReals.sig_forall_dec",
"FunctionalExtensionality.functional_extensionality_dep",
"Classical_Prop.classic"
],
"C135_others_refuted": [
"ClassicalDedekindReals.sig_not_dec",
"ClassicalDedekindReals.sig_forall_dec",
"FunctionalExtensionality.functional_extensionality_dep",
"Classical_Prop.classic"
],
"C135_sigma8_reset_refuted": [
"ClassicalDedekindReals.sig_not_dec",
"ClassicalDedekindReals.sig_forall_dec",
"FunctionalExtensionality.functional_extensionality_dep",
"Classical_Prop.classic"
],
"C135_update_stale_refuted": [
"ClassicalDedekindReals.sig_not_dec",
"ClassicalDedekindReals.sig_forall_dec",
"FunctionalExtensionality.functional_extensionality_dep",
"Classical_Prop.classic"
],
"C136_from_power_refuted": [
"ClassicalDedekindReals.sig_not_dec",
"ClassicalDedekindReals.sig_forall_dec",
"FunctionalExtensionality.functional_extensionality_dep",
"Classical_Prop.classic"
],
"C137_class_transfer": [
"ClassicalDedekindReals.sig_not_dec",
"ClassicalDedekindReals.sig_forall_dec",
"FunctionalExtensionality.functional_extensionality_dep",
"Classical_Prop.classic"
],
"C138_bbks": [
"ClassicalDedekindReals.sig_not_dec",
"ClassicalDedekindReals.sig_forall_dec",
"FunctionalExtensionality.functional_extensionality_dep",
"Classical_Prop.classic"
],
"C138_no_wiggle": [
"ClassicalDedekindReals.sig_not_dec",
"ClassicalDedekindReals.sig_forall_dec",
"FunctionalExtensionality.functional_extensionality_dep",
"Classical_Prop.classic"
],
"C139_best_exists": [
"ClassicalDedekindReals.sig_forall_dec",
"FunctionalExtensionality.functional_extensionality_dep"
],
"C139_best_is_used": [
"ClassicalDedekindReals.sig_forall_dec",
"FunctionalExtensionality.functional_extensionality_dep"
],
"C139_kept_results": [
"ClassicalDedekindReals.sig_forall_dec",
"FunctionalExtensionality.functional_extensionality_dep"
],
"C139_nothing_left": [
"ClassicalDedekindReals.sig_forall_dec",
"FunctionalExtensionality.functional_extensionality_dep"
],
"C139_several_files": [
"ClassicalDedekindReals.sig_forall_dec",
"FunctionalExtensionality.functional_extensionality_dep"
],
"C139_single_file": [
"ClassicalDedekindReals.sig_forall_dec",
"FunctionalExtensionality.functional_extensionality_dep"
],
"C139_used_samples": [
"ClassicalDedekindReals.sig_forall_dec",
"FunctionalExtensionality.functional_extensionality_dep"
],
"C13_preserve_exception_partial": [],
"C13_preserve_exception_refuted": [],
"C140_discarded_samples_remain_refuted": [
"ClassicalDedekindReals.sig_forall_dec",
"FunctionalExtensionality.functional_extensionality_dep"
],
"C140_files_ignored_refuted": [],
"C140_no_constrained_refuted": [
"ClassicalDedekindReals.sig_forall_dec",
"FunctionalExtensionality.functional_extensionality_dep"
],
"C140_one_survivor_keeps_burnin_refuted": [
"ClassicalDedekindReals.sig_forall_dec",
"FunctionalExtensionality.functional_extensionality_dep"
],
"C140_thinning_fails_refuted": [],
"C141_many_mocks": [
"ClassicalDedekindReals.sig_not_dec",
"ClassicalDedekindReals.sig_forall_dec",
"FunctionalExtensionality.functional_extensionality_dep"
],
"C141_positive": [
"ClassicalDedekindReals.sig_not_dec",
"ClassicalDedekindReals.sig_forall_dec",
"FunctionalExtensionality.functional_extensionality_dep"
],
"C141_widens_iff": [
"ClassicalDedekindReals.sig_not_dec",
"ClassicalDedekindReals.sig_forall_dec",
"FunctionalExtensionality.functional_extensionality_dep"
],
"C142_cross_spectrum_is_symmetric_in_the_two_tracers": [
"ClassicalDedekindReals.sig_not_dec",
"ClassicalDedekindReals.sig_forall_dec",
"FunctionalExtensionality.functional_extensionality_dep"
],
"C143_halo_auto_spectrum_is_the_cross_spectrum_at_equal_biases": [
"ClassicalDedekindReals.sig_not_dec",
"ClassicalDedekindReals.sig_forall_dec",
"FunctionalExtensionality.functional_extensionality_dep"
],
"C143_mean_bias_discards_the_separate_biases": [
"ClassicalDedekindReals.sig_not_dec",
"ClassicalDedekindReals.sig_forall_dec",
"FunctionalExtensionality.functional_extensionality_dep"
],
"C143_mean_bias_is_the_auto_spectrum_of_the_geometric_mean_bias": [
"ClassicalDedekindReals.sig_not_dec",
"ClassicalDedekindReals.sig_forall_dec",
"FunctionalExtensionality.functional_extensionality_dep"
],
"C144_unit_bias_mu4_differs_from_matter_by_two_known_terms": [
"ClassicalDedekindReals.sig_not_dec",
"ClassicalDedekindReals.sig_forall_dec",
"FunctionalExtensionality.functional_extensionality_dep"
],
"C144_unit_bias_tracers_have_the_matter_mu0_and_mu2": [
"ClassicalDedekindReals.sig_not_dec",
"ClassicalDedekindReals.sig_forall_dec",
"FunctionalExtensionality.functional_extensionality_dep"
],
"C145_unit_bias_mu4_and_mu6_are_not_the_matter_ones_refuted": [
"ClassicalDedekindReals.sig_not_dec",
"ClassicalDedekindReals.sig_forall_dec",
"FunctionalExtensionality.functional_extensionality_dep"
],
"C146_biased_power_tends_to_the_kaiser_spectrum": [
"ClassicalDedekindReals.sig_not_dec",
"ClassicalDedekindReals.sig_forall_dec",
"FunctionalExtensionality.functional_extensionality_dep"
],
"C146_matter_power_tends_to_the_kaiser_spectrum": [
"ClassicalDedekindReals.sig_not_dec",
"ClassicalDedekindReals.sig_forall_dec",
"FunctionalExtensionality.functional_extensionality_dep"
],
"C147_one_loop_matter_terms_are_linear_plus_quadratic": [
"ClassicalDedekindReals.sig_not_dec",
"ClassicalDedekindReals.sig_forall_dec",
"FunctionalExtensionality.functional_extensionality_dep"
],
"C148_matter_power_to_mu4_and_at_two_loops_is_defined_partial": [
"ClassicalDedekindReals.sig_not_dec",
"ClassicalDedekindReals.sig_forall_dec",
"FunctionalExtensionality.functional_extensionality_dep"
],
"C148_matter_power_to_mu6_raises_at_one_loop_refuted": [
"ClassicalDedekindReals.sig_not_dec",
"ClassicalDedekindReals.sig_forall_dec",
"FunctionalExtensionality.functional_extensionality_dep"
],
"C149_bias_functions_follow_every_session": [
"ClassicalDedekindReals.sig_forall_dec",
"FunctionalExtensionality.functional_extensionality_dep"
],
"C149_bias_functions_of_a_new_model_are_the_documented_ones": [
"ClassicalDedekindReals.sig_forall_dec",
"FunctionalExtensionality.functional_extensionality_dep"
],
"C149_tables_without_maps_are_self_contained": [
"ClassicalDedekindReals.sig_forall_dec"
],
"C149_vlah_biasing_uses_one_function_of_each_kind": [
"ClassicalDedekindReals.sig_forall_dec",
"FunctionalExtensionality.functional_extensionality_dep"
],
"C149_without_vlah_biasing_each_name_has_its_own_fit": [
"ClassicalDedekindReals.sig_forall_dec",
"FunctionalExtensionality.functional_extensionality_dep"
],
"C14_shot_noise_block_restores": [
"ClassicalDedekindReals.sig_forall_dec"
],
"C14_so_block_restores": [
"ClassicalDedekindReals.sig_forall_dec"
],
"C14_use_spt_inside_is_off": [],
"C14_use_spt_restores": [],
"C150_a_changed_coefficient_may_not_take_effect_refuted": [
"ClassicalDedekindReals.sig_forall_dec",
"FunctionalExtensionality.functional_extensionality_dep"
],
"C150_an_unknown_type_is_accepted_and_fails_later_refuted": [
"ClassicalDedekindReals.sig_forall_dec"
],
"C150_cyclic_tables_exhaust_the_recursion_limit_refuted": [
"ClassicalDedekindReals.sig_forall_dec"
],
"C150_named_keywords_take_effect_partial": [],
"C150_several_named_keywords_partial": [],
"C150_the_group_keywords_always_raise_refuted": [],
"C150_the_recorded_defaults_are_those_of_the_last_name_refuted": [],
"C151_each_walker_is_its_first_allowed_draw_of_at_most_102": [
"ClassicalDedekindReals.sig_not_dec",
"ClassicalDedekindReals.sig_forall_dec",
"FunctionalExtensionality.functional_extensionality_dep",
"Classical_Prop.classic"
],
"C151_walkers_found_in_time_have_finite_prior": [
"ClassicalDedekindReals.sig_not_dec",
"ClassicalDedekindReals.sig_forall_dec",
"FunctionalExtensionality.functional_extensionality_dep",
"Classical_Prop.classic"
],
"C152_a_walker_outside_the_prior_can_be_returned_refuted": [
"ClassicalDedekindReals.sig_not_dec",
"ClassicalDedekindReals.sig_forall_dec",
"FunctionalExtensionality.functional_extensionality_dep",
"Classical_Prop.classic"
],
"C152_multivariate_and_posterior_initialisation_never_work_refuted": [
"ClassicalDedekindReals.sig_not_dec",
"ClassicalDedekindReals.sig_forall_dec",
"FunctionalExtensionality.functional_extensionality_dep",
"Classical_Prop.classic"
],
"C152_the_warning_counts_a_valid_walker_as_impossible_refuted": [
"ClassicalDedekindReals.sig_not_dec",
"ClassicalDedekindReals.sig_forall_dec",
"FunctionalExtensionality.functional_extensionality_dep",
"Classical_Prop.classic"
],
"C153_bias_increases_with_peak_height": [
"ClassicalDedekindReals.sig_not_dec",
"ClassicalDedekindReals.sig_forall_dec",
"FunctionalExtensionality.functional_extensionality_dep",
"Classical_Prop.classic"
],
"C153_mass_from_bias_has_the_requested_bias": [
"ClassicalDedekindReals.sig_not_dec",
"ClassicalDedekindReals.sig_forall_dec",
"FunctionalExtensionality.functional_extensionality_dep",
"Classical_Prop.classic"
],
"C153_one_mass_per_bias_increasing": [
"ClassicalDedekindReals.sig_not_dec",
"ClassicalDedekindReals.sig_forall_dec",
"FunctionalExtensionality.functional_extensionality_dep",
"Classical_Prop.classic"
],
"C153_the_mass_is_unique": [
"ClassicalDedekindReals.sig_not_dec",
"ClassicalDedekindReals.sig_forall_dec",
"FunctionalExtensionality.functional_extensionality_dep",
"Classical_Prop.classic"
],
"C153_the_returned_mass_has_the_requested_bias": [
"ClassicalDedekindReals.sig_not_dec",
"ClassicalDedekindReals.sig_forall_dec",
"FunctionalExtensionality.functional_extensionality_dep",
"Classical_Prop.classic"
],
"C154_dispersion_of_the_mass": [
"ClassicalDedekindReals.sig_not_dec",
"ClassicalDedekindReals.sig_forall_dec",
"FunctionalExtensionality.functional_extensionality_dep",
"Classical_Prop.classic"
],
"C154_dispersion_positive_and_increasing": [
"ClassicalDedekindReals.sig_not_dec",
"ClassicalDedekindReals.sig_forall_dec",
"FunctionalExtensionality.functional_extensionality_dep",
"Classical_Prop.classic"
],
"C155_between_the_surrounding_nodes": [
"ClassicalDedekindReals.sig_not_dec",
"ClassicalDedekindReals.sig_forall_dec",
"FunctionalExtensionality.functional_extensionality_dep",
"Classical_Prop.classic"
],
"C155_dispersions_are_the_relations_or_at_the_nearest_end": [
"ClassicalDedekindReals.sig_not_dec",
"ClassicalDedekindReals.sig_forall_dec",
"FunctionalExtensionality.functional_extensionality_dep",
"Classical_Prop.classic"
],
"C155_dispersions_follow_the_redshift": [
"ClassicalDedekindReals.sig_not_dec",
"ClassicalDedekindReals.sig_forall_dec",
"FunctionalExtensionality.functional_extensionality_dep",
"Classical_Prop.classic"
],
"C155_exact_at_the_nodes": [
"ClassicalDedekindReals.sig_not_dec",
"ClassicalDedekindReals.sig_forall_dec",
"FunctionalExtensionality.functional_extensionality_dep",
"Classical_Prop.classic"
],
"C155_outside_the_table_solved_directly": [
"ClassicalDedekindReals.sig_not_dec",
"ClassicalDedekindReals.sig_forall_dec",
"FunctionalExtensionality.functional_extensionality_dep",
"Classical_Prop.classic"
],
"C156_dispersions_ignore_a_new_cosmology_refuted": [
"ClassicalDedekindReals.sig_not_dec",
"ClassicalDedekindReals.sig_forall_dec",
"FunctionalExtensionality.functional_extensionality_dep",
"Classical_Prop.classic"
],
"C156_interpolation_fails_for_dense_cosmologies_refuted": [
"ClassicalDedekindReals.sig_not_dec",
"ClassicalDedekindReals.sig_forall_dec",
"FunctionalExtensionality.functional_extensionality_dep",
"Classical_Prop.classic"
],
"C156_the_table_ignores_the_overdensity_refuted": [
"ClassicalDedekindReals.sig_not_dec",
"ClassicalDedekindReals.sig_forall_dec",
"FunctionalExtensionality.functional_extensionality_dep",
"Classical_Prop.classic"
],
"C156_the_table_survives_a_new_cosmology_refuted": [
"ClassicalDedekindReals.sig_not_dec",
"ClassicalDedekindReals.sig_forall_dec",
"FunctionalExtensionality.functional_extensionality_dep",
"Classical_Prop.classic"
],
"C156_zero_dispersion_on_failure_refuted": [
"ClassicalDedekindReals.sig_not_dec",
"ClassicalDedekindReals.sig_forall_dec",
"FunctionalExtensionality.functional_extensionality_dep",
"Classical_Prop.classic"
],
"C157_every_pair_of_wavevectors_is_in_the_rectangle": [
"ClassicalDedekindReals.sig_not_dec",
"ClassicalDedekindReals.sig_forall_dec",
"FunctionalExtensionality.functional_extensionality_dep"
],
"C157_every_point_of_the_rectangle_is_a_pair_of_wavevectors": [
"ClassicalDedekindReals.sig_not_dec",
"ClassicalDedekindReals.sig_forall_dec",
"FunctionalExtensionality.functional_extensionality_dep"
],
"C157_second_order_kernels_are_the_standard_ones": [
"ClassicalDedekindReals.sig_not_dec",
"ClassicalDedekindReals.sig_forall_dec",
"FunctionalExtensionality.functional_extensionality_dep"
],
"C158_anisotropic_kernels_are_azimuthal_averages": [
"ClassicalDedekindReals.sig_not_dec",
"ClassicalDedekindReals.sig_forall_dec",
"FunctionalExtensionality.functional_extensionality_dep",
"Classical_Prop.classic"
],
"C158_mixed_kernels_are_products": [
"ClassicalDedekindReals.sig_not_dec",
"ClassicalDedekindReals.sig_forall_dec",
"FunctionalExtensionality.functional_extensionality_dep"
],
"C159_anisotropic_integrals_are_over_all_wavevectors": [
"ClassicalDedekindReals.sig_not_dec",
"ClassicalDedekindReals.sig_forall_dec",
"FunctionalExtensionality.functional_extensionality_dep",
"Classical_Prop.classic"
],
"C159_cross_integral_is_bounded_by_the_autos": [
"ClassicalDedekindReals.sig_not_dec",
"ClassicalDedekindReals.sig_forall_dec",
"FunctionalExtensionality.functional_extensionality_dep",
"Classical_Prop.classic"
],
"C159_each_integral_is_over_all_wavevectors": [
"ClassicalDedekindReals.sig_not_dec",
"ClassicalDedekindReals.sig_forall_dec",
"FunctionalExtensionality.functional_extensionality_dep",
"Classical_Prop.classic"
],
"C159_integrals_are_quadratic_in_the_spectrum": [
"ClassicalDedekindReals.sig_not_dec",
"ClassicalDedekindReals.sig_forall_dec",
"FunctionalExtensionality.functional_extensionality_dep",
"Classical_Prop.classic"
],
"C159_integrals_vanish_at_nonpositive_k": [
"ClassicalDedekindReals.sig_not_dec",
"ClassicalDedekindReals.sig_forall_dec",
"FunctionalExtensionality.functional_extensionality_dep",
"Classical_Prop.classic"
],
"C159_mixed_integrals_are_over_all_wavevectors": [
"ClassicalDedekindReals.sig_not_dec",
"ClassicalDedekindReals.sig_forall_dec",
"FunctionalExtensionality.functional_extensionality_dep",
"Classical_Prop.classic"
],
"C159_odd_anisotropic_integrals_are_over_all_wavevectors": [
"ClassicalDedekindReals.sig_not_dec",
"ClassicalDedekindReals.sig_forall_dec",
"FunctionalExtensionality.functional_extensionality_dep",
"Classical_Prop.classic"
],
"C159_quartic_integrals_are_over_all_wavevectors": [
"ClassicalDedekindReals.sig_not_dec",
"ClassicalDedekindReals.sig_forall_dec",
"FunctionalExtensionality.functional_extensionality_dep",
"Classical_Prop.classic"
],
"C159_squares_give_nonnegative_integrals": [
"ClassicalDedekindReals.sig_not_dec",
"ClassicalDedekindReals.sig_forall_dec",
"FunctionalExtensionality.functional_extensionality_dep",
"Classical_Prop.classic"
],
"C15_distorted_exactly_once": [],
"C15_lock_state_restored": [],
"C160_answered_indices_partial": [
"ClassicalDedekindReals.sig_not_dec",
"ClassicalDedekindReals.sig_forall_dec",
"FunctionalExtensionality.functional_extensionality_dep",
"Classical_Prop.classic"
],
"C160_i_indices_are_collapsed": [
"ClassicalDedekindReals.sig_not_dec",
"ClassicalDedekindReals.sig_forall_dec",
"FunctionalExtensionality.functional_extensionality_dep",
"Classical_Prop.classic"
],
"C160_indices_outside_the_table_are_rejected_refuted": [
"ClassicalDedekindReals.sig_not_dec",
"ClassicalDedekindReals.sig_forall_dec",
"FunctionalExtensionality.functional_extensionality_dep",
"Classical_Prop.classic"
],
"C160_k_second_index_two_without_tide_is_the_tidal_integral": [
"ClassicalDedekindReals.sig_not_dec",
"ClassicalDedekindReals.sig_forall_dec",
"FunctionalExtensionality.functional_extensionality_dep",
"Classical_Prop.classic"
],
"C161_far_kernels_are_close_to_the_averages": [
"ClassicalDedekindReals.sig_not_dec",
"ClassicalDedekindReals.sig_forall_dec",
"FunctionalExtensionality.functional_extensionality_dep",
"Classical_Prop.classic"
],
"C161_long_modes": [
"ClassicalDedekindReals.sig_not_dec",
"ClassicalDedekindReals.sig_forall_dec",
"FunctionalExtensionality.functional_extensionality_dep",
"Classical_Prop.classic"
],
"C161_near_kernels_are_the_averages": [
"ClassicalDedekindReals.sig_not_dec",
"ClassicalDedekindReals.sig_forall_dec",
"FunctionalExtensionality.functional_extensionality_dep",
"Classical_Prop.classic"
],
"C161_the_two_forms_meet": [
"ClassicalDedekindReals.sig_not_dec",
"ClassicalDedekindReals.sig_forall_dec",
"FunctionalExtensionality.functional_extensionality_dep",
"Classical_Prop.classic"
],
"C162_cross_is_the_mean": [
"ClassicalDedekindReals.sig_not_dec",
"ClassicalDedekindReals.sig_forall_dec",
"FunctionalExtensionality.functional_extensionality_dep",
"Classical_Prop.classic"
],
"C162_each_integral_is_over_all_momenta": [
"ClassicalDedekindReals.sig_not_dec",
"ClassicalDedekindReals.sig_forall_dec",
"FunctionalExtensionality.functional_extensionality_dep",
"Classical_Prop.classic"
],
"C162_integrals_are_linear_in_the_spectrum": [
"ClassicalDedekindReals.sig_not_dec",
"ClassicalDedekindReals.sig_forall_dec",
"FunctionalExtensionality.functional_extensionality_dep",
"Classical_Prop.classic"
],
"C162_integrals_vanish_at_nonpositive_k": [
"ClassicalDedekindReals.sig_not_dec",
"ClassicalDedekindReals.sig_forall_dec",
"FunctionalExtensionality.functional_extensionality_dep",
"Classical_Prop.classic"
],
"C163_far_series_is_wrong_from_the_sixth_order_on_refuted": [
"ClassicalDedekindReals.sig_not_dec",
"ClassicalDedekindReals.sig_forall_dec",
"FunctionalExtensionality.functional_extensionality_dep",
"Classical_Prop.classic"
],
"C163_far_series_of_g10_is_right_partial": [
"ClassicalDedekindReals.sig_not_dec",
"ClassicalDedekindReals.sig_forall_dec",
"FunctionalExtensionality.functional_extensionality_dep",
"Classical_Prop.classic"
],
"C163_j_indices_are_collapsed_refuted": [
"ClassicalDedekindReals.sig_not_dec",
"ClassicalDedekindReals.sig_forall_dec",
"FunctionalExtensionality.functional_extensionality_dep",
"Classical_Prop.classic"
],
"C164_bar_is_the_sky_average": [
"ClassicalDedekindReals.sig_not_dec",
"ClassicalDedekindReals.sig_forall_dec",
"FunctionalExtensionality.functional_extensionality_dep",
"Classical_Prop.classic"
],
"C164_kurtosis_is_the_moment": [
"ClassicalDedekindReals.sig_not_dec",
"ClassicalDedekindReals.sig_forall_dec",
"FunctionalExtensionality.functional_extensionality_dep",
"Classical_Prop.classic"
],
"C164_one_loop_spectra": [
"ClassicalDedekindReals.sig_not_dec",
"ClassicalDedekindReals.sig_forall_dec",
"FunctionalExtensionality.functional_extensionality_dep",
"Classical_Prop.classic"
],
"C164_pickling_keeps_the_spectrum": [
"ClassicalDedekindReals.sig_not_dec",
"ClassicalDedekindReals.sig_forall_dec",
"FunctionalExtensionality.functional_extensionality_dep",
"Classical_Prop.classic"
],
"C164_tables_of_the_user": [
"ClassicalDedekindReals.sig_not_dec",
"ClassicalDedekindReals.sig_forall_dec",
"FunctionalExtensionality.functional_extensionality_dep",
"Classical_Prop.classic"
],
"C165_rescaled_kurtosis_is_the_fresh_one": [
"ClassicalDedekindReals.sig_not_dec",
"ClassicalDedekindReals.sig_forall_dec",
"FunctionalExtensionality.functional_extensionality_dep",
"Classical_Prop.classic"
],
"C165_rescaled_spectra_are_the_fresh_ones": [
"ClassicalDedekindReals.sig_not_dec",
"ClassicalDedekindReals.sig_forall_dec",
"FunctionalExtensionality.functional_extensionality_dep",
"Classical_Prop.classic"
],
"C165_rescaled_two_loop_integrals_are_the_fresh_ones": [
"ClassicalDedekindReals.sig_not_dec",
"ClassicalDedekindReals.sig_forall_dec",
"FunctionalExtensionality.functional_extensionality_dep",
"Classical_Prop.classic"
],
"C166_order_does_not_matter": [
"ClassicalDedekindReals.sig_not_dec",
"ClassicalDedekindReals.sig_forall_dec",
"FunctionalExtensionality.functional_extensionality_dep",
"Classical_Prop.classic"
],
"C166_two_loop_dvdv": [
"ClassicalDedekindReals.sig_not_dec",
"ClassicalDedekindReals.sig_forall_dec",
"FunctionalExtensionality.functional_extensionality_dep",
"Classical_Prop.classic"
],
"C166_two_loop_vvdd": [
"ClassicalDedekindReals.sig_not_dec",
"ClassicalDedekindReals.sig_forall_dec",
"FunctionalExtensionality.functional_extensionality_dep",
"Classical_Prop.classic"
],
"C166_two_loop_vvvv": [
"ClassicalDedekindReals.sig_not_dec",
"ClassicalDedekindReals.sig_forall_dec",
"FunctionalExtensionality.functional_extensionality_dep",
"Classical_Prop.classic"
],
"C167_base_class_ignores_its_table_refuted": [
"ClassicalDedekindReals.sig_forall_dec",
"FunctionalExtensionality.functional_extensionality_dep"
],
"C167_cross_piece_partial": [
"ClassicalDedekindReals.sig_not_dec",
"ClassicalDedekindReals.sig_forall_dec",
"FunctionalExtensionality.functional_extensionality_dep",
"Classical_Prop.classic"
],
"C167_indices_alias_refuted": [
"ClassicalDedekindReals.sig_not_dec",
"ClassicalDedekindReals.sig_forall_dec",
"FunctionalExtensionality.functional_extensionality_dep",
"Classical_Prop.classic"
],
"C167_other_pieces_partial": [
"ClassicalDedekindReals.sig_not_dec",
"ClassicalDedekindReals.sig_forall_dec",
"FunctionalExtensionality.functional_extensionality_dep",
"Classical_Prop.classic"
],
"C167_two_loop_sum_refuted": [
"ClassicalDedekindReals.sig_not_dec",
"ClassicalDedekindReals.sig_forall_dec",
"FunctionalExtensionality.functional_extensionality_dep",
"Classical_Prop.classic"
],
"C168_between_tabulated_values": [
"ClassicalDedekindReals.sig_not_dec",
"ClassicalDedekindReals.sig_forall_dec",
"FunctionalExtensionality.functional_extensionality_dep",
"Classical_Prop.classic"
],
"C168_broadbands": [
"ClassicalDedekindReals.sig_not_dec",
"ClassicalDedekindReals.sig_forall_dec",
"FunctionalExtensionality.functional_extensionality_dep",
"Classical_Prop.classic"
],
"C168_exact_at_tabulated_values": [
"ClassicalDedekindReals.sig_not_dec",
"ClassicalDedekindReals.sig_forall_dec",
"FunctionalExtensionality.functional_extensionality_dep",
"Classical_Prop.classic"
],
"C168_history_independent": [
"ClassicalDedekindReals.sig_not_dec",
"ClassicalDedekindReals.sig_forall_dec",
"FunctionalExtensionality.functional_extensionality_dep",
"Classical_Prop.classic"
],
"C168_jennings_restores": [
"ClassicalDedekindReals.sig_not_dec",
"ClassicalDedekindReals.sig_forall_dec",
"FunctionalExtensionality.functional_extensionality_dep",
"Classical_Prop.classic"
],
"C168_jennings_value": [
"ClassicalDedekindReals.sig_not_dec",
"ClassicalDedekindReals.sig_forall_dec",
"FunctionalExtensionality.functional_extensionality_dep",
"Classical_Prop.classic"
],
"C168_outside_is_direct": [
"ClassicalDedekindReals.sig_not_dec",
"ClassicalDedekindReals.sig_forall_dec",
"FunctionalExtensionality.functional_extensionality_dep",
"Classical_Prop.classic"
],
"C168_without_interpolation": [
"ClassicalDedekindReals.sig_not_dec",
"ClassicalDedekindReals.sig_forall_dec",
"FunctionalExtensionality.functional_extensionality_dep",
"Classical_Prop.classic"
],
"C169_broadband_is_fourier_transform": [
"ClassicalDedekindReals.sig_not_dec",
"ClassicalDedekindReals.sig_forall_dec",
"FunctionalExtensionality.functional_extensionality_dep",
"Classical_Prop.classic"
],
"C169_default_matter_correlation": [
"ClassicalDedekindReals.sig_not_dec",
"ClassicalDedekindReals.sig_forall_dec",
"FunctionalExtensionality.functional_extensionality_dep",
"Classical_Prop.classic"
],
"C16_fixed_points": [
"ClassicalDedekindReals.sig_not_dec",
"ClassicalDedekindReals.sig_forall_dec",
"FunctionalExtensionality.functional_extensionality_dep"
],
"C16_identity": [
"ClassicalDedekindReals.sig_not_dec",
"ClassicalDedekindReals.sig_forall_dec",
"FunctionalExtensionality.functional_extensionality_dep"
],
"C16_parallel": [
"ClassicalDedekindReals.sig_not_dec",
"ClassicalDedekindReals.sig_forall_dec",
"FunctionalExtensionality.functional_extensionality_dep"
],
"C16_perpendicular": [
"ClassicalDedekindReals.sig_not_dec",
"ClassicalDedekindReals.sig_forall_dec",
"FunctionalExtensionality.functional_extensionality_dep"
],
"C16_range": [
"ClassicalDedekindReals.sig_not_dec",
"ClassicalDedekindReals.sig_forall_dec",
"FunctionalExtensionality.functional_extensionality_dep"
],
"C170_poisoned_differs_from_fresh_refuted": [
"ClassicalDedekindReals.sig_not_dec",
"ClassicalDedekindReals.sig_forall_dec",
"FunctionalExtensionality.functional_extensionality_dep",
"Classical_Prop.classic"
],
"C170_rejected_value_is_kept_refuted": [
"ClassicalDedekindReals.sig_not_dec",
"ClassicalDedekindReals.sig_forall_dec",
"FunctionalExtensionality.functional_extensionality_dep",
"Classical_Prop.classic"
],
"C170_zero_removes_the_zeldovich_term_refuted": [
"ClassicalDedekindReals.sig_not_dec",
"ClassicalDedekindReals.sig_forall_dec",
"FunctionalExtensionality.functional_extensionality_dep",
"Classical_Prop.classic"
],
"C171_central_fraction": [
"ClassicalDedekindReals.sig_forall_dec",
"FunctionalExtensionality.functional_extensionality_dep"
],
"C171_constraints_together": [
"ClassicalDedekindReals.sig_forall_dec",
"FunctionalExtensionality.functional_extensionality_dep"
],
"C171_one_halo_amplitudes": [
"ClassicalDedekindReals.sig_forall_dec",
"FunctionalExtensionality.functional_extensionality_dep"
],
"C171_ranges": [
"ClassicalDedekindReals.sig_forall_dec",
"FunctionalExtensionality.functional_extensionality_dep"
],
"C171_total_bias": [
"ClassicalDedekindReals.sig_forall_dec",
"FunctionalExtensionality.functional_extensionality_dep"
],
"C171_type_B_central_bias": [
"ClassicalDedekindReals.sig_forall_dec",
"FunctionalExtensionality.functional_extensionality_dep"
],
"C172_change_of_variables": [
"ClassicalDedekindReals.sig_not_dec",
"ClassicalDedekindReals.sig_forall_dec",
"FunctionalExtensionality.functional_extensionality_dep",
"Classical_Prop.classic"
],
"C172_invertible": [
"ClassicalDedekindReals.sig_not_dec",
"ClassicalDedekindReals.sig_forall_dec",
"FunctionalExtensionality.functional_extensionality_dep",
"Classical_Prop.classic"
],
"C173_constructor_limits": [
"ClassicalDedekindReals.sig_forall_dec",
"FunctionalExtensionality.functional_extensionality_dep"
],
"C173_continuous_at_the_joins": [
"ClassicalDedekindReals.sig_not_dec",
"ClassicalDedekindReals.sig_forall_dec",
"FunctionalExtensionality.functional_extensionality_dep",
"Classical_Prop.classic"
],
"C173_fits_never_stale": [
"ClassicalDedekindReals.sig_not_dec",
"ClassicalDedekindReals.sig_forall_dec",
"FunctionalExtensionality.functional_extensionality_dep",
"Classical_Prop.classic"
],
"C173_inside_is_the_model": [
"ClassicalDedekindReals.sig_not_dec",
"ClassicalDedekindReals.sig_forall_dec",
"FunctionalExtensionality.functional_extensionality_dep",
"Classical_Prop.classic"
],
"C173_power_laws": [
"ClassicalDedekindReals.sig_not_dec",
"ClassicalDedekindReals.sig_forall_dec",
"FunctionalExtensionality.functional_extensionality_dep",
"Classical_Prop.classic"
],
"C174_defaults_rejected_refuted": [
"ClassicalDedekindReals.sig_forall_dec",
"FunctionalExtensionality.functional_extensionality_dep"
],
"C174_limits_lost_refuted": [
"ClassicalDedekindReals.sig_forall_dec",
"FunctionalExtensionality.functional_extensionality_dep"
],
"C174_method_name_ignored_refuted": [
"ClassicalDedekindReals.sig_not_dec",
"ClassicalDedekindReals.sig_forall_dec",
"FunctionalExtensionality.functional_extensionality_dep",
"Classical_Prop.classic"
],
"C174_slopes_stale_refuted": [
"ClassicalDedekindReals.sig_not_dec",
"ClassicalDedekindReals.sig_forall_dec",
"FunctionalExtensionality.functional_extensionality_dep",
"Classical_Prop.classic"
],
"C175_fourier_self_inverse": [
"ClassicalDedekindReals.sig_not_dec",
"ClassicalDedekindReals.sig_forall_dec",
"FunctionalExtensionality.functional_extensionality_dep",
"Classical_Prop.classic"
],
"C175_hankel_self_inverse": [
"ClassicalDedekindReals.sig_not_dec",
"ClassicalDedekindReals.sig_forall_dec",
"FunctionalExtensionality.functional_extensionality_dep",
"Classical_Prop.classic"
],
"C175_spherical_bessel_self_inverse": [
"ClassicalDedekindReals.sig_not_dec",
"ClassicalDedekindReals.sig_forall_dec",
"FunctionalExtensionality.functional_extensionality_dep",
"Classical_Prop.classic"
],
"C175_xi2P_undoes_P2xi": [
"ClassicalDedekindReals.sig_not_dec",
"ClassicalDedekindReals.sig_forall_dec",
"FunctionalExtensionality.functional_extensionality_dep",
"Classical_Prop.classic"
],
"C176_P2xi_exact": [
"ClassicalDedekindReals.sig_not_dec",
"ClassicalDedekindReals.sig_forall_dec",
"FunctionalExtensionality.functional_extensionality_dep",
"Classical_Prop.classic"
],
"C176_exact_on_log_harmonics": [
"ClassicalDedekindReals.sig_not_dec",
"ClassicalDedekindReals.sig_forall_dec",
"FunctionalExtensionality.functional_extensionality_dep",
"Classical_Prop.classic"
],
"C176_linear": [
"ClassicalDedekindReals.sig_not_dec",
"ClassicalDedekindReals.sig_forall_dec",
"FunctionalExtensionality.functional_extensionality_dep",
"Classical_Prop.classic"
],
"C177_plancherel": [
"ClassicalDedekindReals.sig_not_dec",
"ClassicalDedekindReals.sig_forall_dec",
"FunctionalExtensionality.functional_extensionality_dep",
"Classical_Prop.classic"
],
"C178_default_length_not_invertible_refuted": [
"ClassicalDedekindReals.sig_not_dec",
"ClassicalDedekindReals.sig_forall_dec",
"FunctionalExtensionality.functional_extensionality_dep",
"Classical_Prop.classic"
],
"C179_padding_continues_the_grid": [
"ClassicalDedekindReals.sig_not_dec",
"ClassicalDedekindReals.sig_forall_dec",
"FunctionalExtensionality.functional_extensionality_dep",
"Classical_Prop.classic"
],
"C179_unit_window_identity": [
"ClassicalDedekindReals.sig_not_dec",
"ClassicalDedekindReals.sig_forall_dec",
"FunctionalExtensionality.functional_extensionality_dep",
"Classical_Prop.classic"
],
"C17_kernel_damps": [
"ClassicalDedekindReals.sig_not_dec",
"ClassicalDedekindReals.sig_forall_dec",
"FunctionalExtensionality.functional_extensionality_dep",
"Classical_Prop.classic"
],
"C17_kernel_derivatives": [
"ClassicalDedekindReals.sig_not_dec",
"ClassicalDedekindReals.sig_forall_dec",
"FunctionalExtensionality.functional_extensionality_dep",
"Classical_Prop.classic"
],
"C180_unit_window_not_identity_refuted": [
"ClassicalDedekindReals.sig_not_dec",
"ClassicalDedekindReals.sig_forall_dec",
"FunctionalExtensionality.functional_extensionality_dep",
"Classical_Prop.classic"
],
"C181_fftlog_pair_inverse": [
"ClassicalDedekindReals.sig_not_dec",
"ClassicalDedekindReals.sig_forall_dec",
"FunctionalExtensionality.functional_extensionality_dep",
"Classical_Prop.classic"
],
"C182_exact_on_log_periodic": [
"ClassicalDedekindReals.sig_not_dec",
"ClassicalDedekindReals.sig_forall_dec",
"FunctionalExtensionality.functional_extensionality_dep",
"Classical_Prop.classic"
],
"C183_outside_range_zero": [
"ClassicalDedekindReals.sig_not_dec",
"ClassicalDedekindReals.sig_forall_dec",
"FunctionalExtensionality.functional_extensionality_dep",
"Classical_Prop.classic"
],
"C183_smoothing_always_shrinks_refuted": [
"ClassicalDedekindReals.sig_not_dec",
"ClassicalDedekindReals.sig_forall_dec",
"FunctionalExtensionality.functional_extensionality_dep",
"Classical_Prop.classic"
],
"C184_info_round_trip": [],
"C184_new_file_round_trip": [],
"C185_metadata_changed_refuted": [],
"C185_nlopt_not_restored_refuted": [],
"C185_second_save_appends_refuted": [],
"C186_columns_partial": [
"ClassicalDedekindReals.sig_forall_dec",
"FunctionalExtensionality.functional_extensionality_dep"
],
"C186_two_sigma_columns_refuted": [
"ClassicalDedekindReals.sig_forall_dec",
"FunctionalExtensionality.functional_extensionality_dep"
],
"C187_metadata_follow_selections": [],
"C188_selection_breaks_original_refuted": [],
"C189_restarts_never_lose_results": [],
"C18_equal_components": [
"ClassicalDedekindReals.sig_not_dec",
"ClassicalDedekindReals.sig_forall_dec",
"FunctionalExtensionality.functional_extensionality_dep"
],
"C18_power_is_weighted_sum": [
"ClassicalDedekindReals.sig_not_dec",
"ClassicalDedekindReals.sig_forall_dec",
"FunctionalExtensionality.functional_extensionality_dep"
],
"C18_power_with_AP": [
"ClassicalDedekindReals.sig_not_dec",
"ClassicalDedekindReals.sig_forall_dec",
"FunctionalExtensionality.functional_extensionality_dep"
],
"C18_public_components": [
"ClassicalDedekindReals.sig_not_dec",
"ClassicalDedekindReals.sig_forall_dec",
"FunctionalExtensionality.functional_extensionality_dep"
],
"C18_subsample_values": [
"ClassicalDedekindReals.sig_not_dec",
"ClassicalDedekindReals.sig_forall_dec",
"FunctionalExtensionality.functional_extensionality_dep"
],
"C190_same_label_loses_results_refuted": [],
"C191_every_run_ends": [],
"C191_restart_replaces": [],
"C191_results_saved": [],
"C192_failure_not_reported_refuted": [],
"C192_interrupted_restart_duplicates_refuted": [],
"C193_best_file_found": [
"ClassicalDedekindReals.sig_forall_dec",
"FunctionalExtensionality.functional_extensionality_dep"
],
"C193_start_values_by_name": [
"ClassicalDedekindReals.sig_forall_dec",
"FunctionalExtensionality.functional_extensionality_dep"
],
"C194_crash_blocks_search_refuted": [
"ClassicalDedekindReals.sig_forall_dec",
"FunctionalExtensionality.functional_extensionality_dep"
],
"C194_found_file_not_used_refuted": [
"ClassicalDedekindReals.sig_forall_dec",
"FunctionalExtensionality.functional_extensionality_dep"
],
"C194_missing_parameter_nan_refuted": [
"ClassicalDedekindReals.sig_forall_dec",
"FunctionalExtensionality.functional_extensionality_dep"
],
"C195_round_trip": [],
"C196_empty_dict_refuted": [],
"C196_specification_partial": [],
"C196_value_partial": [],
"C197_order_refuted": [],
"C197_untagged_reference_refuted": [],
"C198_accepted_iff": [],
"C198_selection": [],
"C199_folder_keeps": [],
"C19_power_ignores_N_refuted": [
"ClassicalDedekindReals.sig_not_dec",
"ClassicalDedekindReals.sig_forall_dec",
"FunctionalExtensionality.functional_extensionality_dep"
],
"C200_from_directory_refuted": [],
"C200_never_saved_refuted": [],
"C200_new_folder_partial": [],
"C201_all_end_partial": [],
"C201_wait_forever_refuted": [],
"C202_race_refuted": [],
"C202_same_partial": [],
"C203_encloses_refuted": [],
"C203_one_cell_refuted": [],
"C203_one_step_partial": [],
"C204_increasing_partial": [],
"C204_ordered_partial": [],
"C204_two_cells_refuted": [],
"C205_other_order_refuted": [],
"C205_same_order_partial": [],
"C206_default_expression_refuted": [],
"C206_expression_partial": [],
"C206_line_holds_partial": [],
"C207_left_out_partial": [],
"C207_no_line_partial": [],
"C207_value_refuted": [],
"C207_vary_refuted": [],
"C208_constrained": [],
"C208_unknown_name": [],
"C209_from_the_end_refuted": [],
"C209_intersection_partial": [],
"C209_order_refuted": [],
"C209_scalar_refuted": [],
"C20_derivative_k_partial": [
"ClassicalDedekindReals.sig_not_dec",
"ClassicalDedekindReals.sig_forall_dec",
"FunctionalExtensionality.functional_extensionality_dep",
"Classical_Prop.classic"
],
"C20_derivative_k_refuted": [
"ClassicalDedekindReals.sig_not_dec",
"ClassicalDedekindReals.sig_forall_dec",
"FunctionalExtensionality.functional_extensionality_dep",
"Classical_Prop.classic"
],
"C20_derivative_mu_partial": [
"ClassicalDedekindReals.sig_not_dec",
"ClassicalDedekindReals.sig_forall_dec",
"FunctionalExtensionality.functional_extensionality_dep",
"Classical_Prop.classic"
],
"C210_nearest_partial": [],
"C210_repeated_refuted": [],
"C211_default_theories": [],
"C211_fiducials_partial": [],
"C211_missing_refuted": [],
"C212_values_kept": [],
"C213_first_allowed_partial": [
"ClassicalDedekindReals.sig_forall_dec",
"FunctionalExtensionality.functional_extensionality_dep"
],
"C213_negative_refuted": [
"ClassicalDedekindReals.sig_forall_dec",
"FunctionalExtensionality.functional_extensionality_dep"
],
"C213_zero_refuted": [
"ClassicalDedekindReals.sig_forall_dec",
"FunctionalExtensionality.functional_extensionality_dep"
],
"C214_median_in_the_middle": [
"ClassicalDedekindReals.sig_forall_dec",
"FunctionalExtensionality.functional_extensionality_dep"
],
"C214_nested": [
"ClassicalDedekindReals.sig_forall_dec",
"FunctionalExtensionality.functional_extensionality_dep"
],
"C215_change_of_sign": [
"ClassicalDedekindReals.sig_forall_dec",
"FunctionalExtensionality.functional_extensionality_dep"
],
"C215_change_of_unit": [
"ClassicalDedekindReals.sig_forall_dec",
"FunctionalExtensionality.functional_extensionality_dep"
],
"C215_order_independent": [
"ClassicalDedekindReals.sig_forall_dec",
"FunctionalExtensionality.functional_extensionality_dep"
],
"C215_rescaling": [
"ClassicalDedekindReals.sig_forall_dec",
"FunctionalExtensionality.functional_extensionality_dep"
],
"C216_fiducial_lost_refuted": [],
"C216_pickle_refuted": [],
"C216_results_kept_partial": [],
"C217_total_derivative": [
"ClassicalDedekindReals.sig_forall_dec",
"FunctionalExtensionality.functional_extensionality_dep"
],
"C217_unique": [
"ClassicalDedekindReals.sig_not_dec",
"ClassicalDedekindReals.sig_forall_dec",
"FunctionalExtensionality.functional_extensionality_dep"
],
"C218_constrained_stale_refuted": [],
"C218_free_and_fixed_kept_partial": [],
"C219_in_Mpc_refuted": [
"ClassicalDedekindReals.sig_not_dec",
"ClassicalDedekindReals.sig_forall_dec",
"FunctionalExtensionality.functional_extensionality_dep",
"Classical_Prop.classic"
],
"C21_fs": [
"ClassicalDedekindReals.sig_not_dec",
"ClassicalDedekindReals.sig_forall_dec",
"FunctionalExtensionality.functional_extensionality_dep",
"Classical_Prop.classic"
],
"C220_constrained_by_free": [
"ClassicalDedekindReals.sig_forall_dec",
"FunctionalExtensionality.functional_extensionality_dep"
],
"C220_free_by_constrained": [
"ClassicalDedekindReals.sig_not_dec",
"ClassicalDedekindReals.sig_forall_dec",
"FunctionalExtensionality.functional_extensionality_dep"
],
"C220_refused_exactly": [],
"C221_fixed_must_be_free": [
"ClassicalDedekindReals.sig_not_dec",
"ClassicalDedekindReals.sig_forall_dec",
"FunctionalExtensionality.functional_extensionality_dep"
],
"C221_free_parameters": [
"ClassicalDedekindReals.sig_not_dec",
"ClassicalDedekindReals.sig_forall_dec",
"FunctionalExtensionality.functional_extensionality_dep"
],
"C22_NcBs_partial": [
"ClassicalDedekindReals.sig_not_dec",
"ClassicalDedekindReals.sig_forall_dec",
"FunctionalExtensionality.functional_extensionality_dep",
"Classical_Prop.classic"
],
"C22_NsBsB_partial": [
"ClassicalDedekindReals.sig_not_dec",
"ClassicalDedekindReals.sig_forall_dec",
"FunctionalExtensionality.functional_extensionality_dep",
"Classical_Prop.classic"
],
"C22_one_halo_refuted": [
"ClassicalDedekindReals.sig_not_dec",
"ClassicalDedekindReals.sig_forall_dec",
"FunctionalExtensionality.functional_extensionality_dep",
"Classical_Prop.classic"
],
"C23_sigma_c_partial": [
"ClassicalDedekindReals.sig_not_dec",
"ClassicalDedekindReals.sig_forall_dec",
"FunctionalExtensionality.functional_extensionality_dep",
"Classical_Prop.classic"
],
"C23_sigma_refuted": [
"ClassicalDedekindReals.sig_not_dec",
"ClassicalDedekindReals.sig_forall_dec",
"FunctionalExtensionality.functional_extensionality_dep",
"Classical_Prop.classic"
],
"C23_sigma_so_partial": [
"ClassicalDedekindReals.sig_not_dec",
"ClassicalDedekindReals.sig_forall_dec",
"FunctionalExtensionality.functional_extensionality_dep",
"Classical_Prop.classic"
],
"C24_alpha_perp": [
"ClassicalDedekindReals.sig_not_dec",
"ClassicalDedekindReals.sig_forall_dec",
"FunctionalExtensionality.functional_extensionality_dep",
"Classical_Prop.classic"
],
"C24_quasar_alpha_par": [
"ClassicalDedekindReals.sig_not_dec",
"ClassicalDedekindReals.sig_forall_dec",
"FunctionalExtensionality.functional_extensionality_dep",
"Classical_Prop.classic"
],
"C24_quasar_alpha_perp": [
"ClassicalDedekindReals.sig_not_dec",
"ClassicalDedekindReals.sig_forall_dec",
"FunctionalExtensionality.functional_extensionality_dep",
"Classical_Prop.classic"
],
"C25_b1_error": [
"ClassicalDedekindReals.sig_not_dec",
"ClassicalDedekindReals.sig_forall_dec",
"FunctionalExtensionality.functional_extensionality_dep",
"Classical_Prop.classic"
],
"C25_b1_partial": [
"ClassicalDedekindReals.sig_not_dec",
"ClassicalDedekindReals.sig_forall_dec",
"FunctionalExtensionality.functional_extensionality_dep",
"Classical_Prop.classic"
],
"C25_f_error": [
"ClassicalDedekindReals.sig_not_dec",
"ClassicalDedekindReals.sig_forall_dec",
"FunctionalExtensionality.functional_extensionality_dep",
"Classical_Prop.classic"
],
"C25_f_nl_error": [
"ClassicalDedekindReals.sig_not_dec",
"ClassicalDedekindReals.sig_forall_dec",
"FunctionalExtensionality.functional_extensionality_dep",
"Classical_Prop.classic"
],
"C25_f_nl_partial": [
"ClassicalDedekindReals.sig_not_dec",
"ClassicalDedekindReals.sig_forall_dec",
"FunctionalExtensionality.functional_extensionality_dep",
"Classical_Prop.classic"
],
"C25_f_partial": [
"ClassicalDedekindReals.sig_not_dec",
"ClassicalDedekindReals.sig_forall_dec",
"FunctionalExtensionality.functional_extensionality_dep",
"Classical_Prop.classic"
],
"C25_max_mu_refuted": [
"ClassicalDedekindReals.sig_not_dec",
"ClassicalDedekindReals.sig_forall_dec",
"FunctionalExtensionality.functional_extensionality_dep",
"Classical_Prop.classic"
],
"C25_offset_refuted": [
"ClassicalDedekindReals.sig_not_dec",
"ClassicalDedekindReals.sig_forall_dec",
"FunctionalExtensionality.functional_extensionality_dep",
"Classical_Prop.classic"
],
"C25_sigma8_error": [
"ClassicalDedekindReals.sig_not_dec",
"ClassicalDedekindReals.sig_forall_dec",
"FunctionalExtensionality.functional_extensionality_dep",
"Classical_Prop.classic"
],
"C25_sigma8_partial": [
"ClassicalDedekindReals.sig_not_dec",
"ClassicalDedekindReals.sig_forall_dec",
"FunctionalExtensionality.functional_extensionality_dep",
"Classical_Prop.classic"
],
"C25_sigma_fog_error": [
"ClassicalDedekindReals.sig_not_dec",
"ClassicalDedekindReals.sig_forall_dec",
"FunctionalExtensionality.functional_extensionality_dep",
"Classical_Prop.classic"
],
"C25_sigma_fog_partial": [
"ClassicalDedekindReals.sig_not_dec",
"ClassicalDedekindReals.sig_forall_dec",
"FunctionalExtensionality.functional_extensionality_dep",
"Classical_Prop.classic"
],
"C26_P01_is_the_log_derivative_of_P00": [
"ClassicalDedekindReals.sig_not_dec",
"ClassicalDedekindReals.sig_forall_dec",
"FunctionalExtensionality.functional_extensionality_dep",
"Classical_Prop.classic"
],
"C27_chain_refuted": [
"ClassicalDedekindReals.sig_forall_dec",
"FunctionalExtensionality.functional_extensionality_dep"
],
"C27_default_coverage": [
"ClassicalDedekindReals.sig_forall_dec",
"FunctionalExtensionality.functional_extensionality_dep"
],
"C27_direct_dependents_partial": [
"ClassicalDedekindReals.sig_not_dec",
"ClassicalDedekindReals.sig_forall_dec",
"FunctionalExtensionality.functional_extensionality_dep"
],
"C27_galaxy": [
"ClassicalDedekindReals.sig_not_dec",
"ClassicalDedekindReals.sig_forall_dec",
"FunctionalExtensionality.functional_extensionality_dep"
],
"C27_galaxy_example_file": [
"ClassicalDedekindReals.sig_not_dec",
"ClassicalDedekindReals.sig_forall_dec",
"FunctionalExtensionality.functional_extensionality_dep"
],
"C28_analytic_exception_refuted": [
"ClassicalDedekindReals.sig_forall_dec",
"FunctionalExtensionality.functional_extensionality_dep"
],
"C28_exact_for_quadratics": [
"ClassicalDedekindReals.sig_forall_dec",
"FunctionalExtensionality.functional_extensionality_dep"
],
"C28_near_bound_refuted": [
"ClassicalDedekindReals.sig_forall_dec",
"FunctionalExtensionality.functional_extensionality_dep"
],
"C28_rows": [
"ClassicalDedekindReals.sig_forall_dec",
"FunctionalExtensionality.functional_extensionality_dep"
],
"C28_state_after_exception": [
"ClassicalDedekindReals.sig_forall_dec",
"FunctionalExtensionality.functional_extensionality_dep"
],
"C28_step_is_along_one_axis": [
"ClassicalDedekindReals.sig_forall_dec"
],
"C29_bad_input_raises": [
"ClassicalDedekindReals.sig_forall_dec",
"FunctionalExtensionality.functional_extensionality_dep"
],
"C29_identity_for_ordered_multipoles": [
"ClassicalDedekindReals.sig_not_dec",
"ClassicalDedekindReals.sig_forall_dec",
"FunctionalExtensionality.functional_extensionality_dep",
"Classical_Prop.classic"
],
"C29_outside_range_unconvolved": [
"ClassicalDedekindReals.sig_forall_dec",
"FunctionalExtensionality.functional_extensionality_dep"
],
"C29_trivial_window_identity": [
"ClassicalDedekindReals.sig_not_dec",
"ClassicalDedekindReals.sig_forall_dec",
"FunctionalExtensionality.functional_extensionality_dep",
"Classical_Prop.classic"
],
"C29_unordered_multipoles_refuted": [
"ClassicalDedekindReals.sig_not_dec",
"ClassicalDedekindReals.sig_forall_dec",
"FunctionalExtensionality.functional_extensionality_dep",
"Classical_Prop.classic"
],
"C30_bare_sum_is_one": [
"ClassicalDedekindReals.sig_forall_dec",
"FunctionalExtensionality.functional_extensionality_dep"
],
"C30_coefficients_are_projections": [
"ClassicalDedekindReals.sig_not_dec",
"ClassicalDedekindReals.sig_forall_dec",
"FunctionalExtensionality.functional_extensionality_dep",
"Classical_Prop.classic"
],
"C30_convolution_is_multipole_of_product": [
"ClassicalDedekindReals.sig_not_dec",
"ClassicalDedekindReals.sig_forall_dec",
"FunctionalExtensionality.functional_extensionality_dep",
"Classical_Prop.classic"
],
"C30_enough_window_columns": [
"ClassicalDedekindReals.sig_forall_dec",
"FunctionalExtensionality.functional_extensionality_dep"
],
"C30_exchange": [
"ClassicalDedekindReals.sig_forall_dec",
"FunctionalExtensionality.functional_extensionality_dep"
],
"C30_legendre_orthogonal": [
"ClassicalDedekindReals.sig_not_dec",
"ClassicalDedekindReals.sig_forall_dec",
"FunctionalExtensionality.functional_extensionality_dep",
"Classical_Prop.classic"
],
"C30_legendre_polynomials": [
"ClassicalDedekindReals.sig_forall_dec",
"FunctionalExtensionality.functional_extensionality_dep"
],
"C30_multipole_numbers": [
"ClassicalDedekindReals.sig_forall_dec",
"FunctionalExtensionality.functional_extensionality_dep"
],
"C30_positive": [
"ClassicalDedekindReals.sig_forall_dec",
"FunctionalExtensionality.functional_extensionality_dep"
],
"C30_product_expansion": [
"ClassicalDedekindReals.sig_forall_dec",
"FunctionalExtensionality.functional_extensionality_dep"
],
"C31_between_corner_values": [
"ClassicalDedekindReals.sig_forall_dec",
"FunctionalExtensionality.functional_extensionality_dep"
],
"C31_constructor_requires_ascending": [
"ClassicalDedekindReals.sig_forall_dec",
"FunctionalExtensionality.functional_extensionality_dep"
],
"C31_exact_at_nodes": [
"ClassicalDedekindReals.sig_forall_dec",
"FunctionalExtensionality.functional_extensionality_dep"
],
"C31_extrapolation_affine": [
"ClassicalDedekindReals.sig_forall_dec",
"FunctionalExtensionality.functional_extensionality_dep"
],
"C31_fill_value": [
"ClassicalDedekindReals.sig_forall_dec",
"FunctionalExtensionality.functional_extensionality_dep"
],
"C31_multi_affine_exact": [
"ClassicalDedekindReals.sig_forall_dec",
"FunctionalExtensionality.functional_extensionality_dep"
],
"C31_nearest_is_nearest": [
"ClassicalDedekindReals.sig_forall_dec",
"FunctionalExtensionality.functional_extensionality_dep"
],
"C31_out_of_range_rejected": [
"ClassicalDedekindReals.sig_forall_dec",
"FunctionalExtensionality.functional_extensionality_dep"
],
"C31_single_point_axis_refuted": [
"ClassicalDedekindReals.sig_forall_dec",
"FunctionalExtensionality.functional_extensionality_dep"
],
"C31_wrong_dimension_rejected": [
"ClassicalDedekindReals.sig_forall_dec",
"FunctionalExtensionality.functional_extensionality_dep"
],
"C32_element_access_reads_the_stored_entry": [],
"C32_storage_is_a_bijection": [],
"C33_always_symmetric": [],
"C33_diag": [],
"C33_round_trip": [],
"C34_elementwise": [],
"C35_trim_keeps_exactly_the_rows_in_range": [],
"C35_trim_succeeds_iff": [],
"C35_trim_twice": [],
"C36_rescaling_lost_by_slicing_refuted": [],
"C36_rescaling_set_and_kept_by_arithmetic_partial": [],
"C37_columns_stay_aligned": [],
"C38_kmu_pairs_slices": [],
"C38_slices_partition": [],
"C39_aligned_after_narrowing": [],
"C39_failed_change_refuted": [],
"C39_widening_refuted": [],
"C40_errors_belong_to_their_points": [],
"C40_unequal_sizes_refuted": [],
"C41_usedata_keeps_rows": [],
"C42_grid_round_trip": [],
"C42_measurements_round_trip": [],
"C43_conversions_invert": [
"ClassicalDedekindReals.sig_forall_dec",
"FunctionalExtensionality.functional_extensionality_dep"
],
"C43_equal_units_and_errors": [
"ClassicalDedekindReals.sig_forall_dec",
"FunctionalExtensionality.functional_extensionality_dep"
],
"C43_factors": [
"ClassicalDedekindReals.sig_forall_dec",
"FunctionalExtensionality.functional_extensionality_dep"
],
"C44_constant_preserved": [
"ClassicalDedekindReals.sig_forall_dec",
"FunctionalExtensionality.functional_extensionality_dep"
],
"C44_empty_bin_raises": [
"ClassicalDedekindReals.sig_forall_dec",
"FunctionalExtensionality.functional_extensionality_dep"
],
"C44_entry_between_extremes": [
"ClassicalDedekindReals.sig_forall_dec",
"FunctionalExtensionality.functional_extensionality_dep"
],
"C44_flat_and_grid_agree": [
"ClassicalDedekindReals.sig_forall_dec",
"FunctionalExtensionality.functional_extensionality_dep"
],
"C44_flat_values_scattered": [
"ClassicalDedekindReals.sig_forall_dec",
"FunctionalExtensionality.functional_extensionality_dep"
],
"C44_no_mode_lost": [
"ClassicalDedekindReals.sig_forall_dec",
"FunctionalExtensionality.functional_extensionality_dep"
],
"C44_one_wedge_per_point": [
"ClassicalDedekindReals.sig_forall_dec",
"FunctionalExtensionality.functional_extensionality_dep"
],
"C44_pole_is_legendre_weighted_mean": [
"ClassicalDedekindReals.sig_forall_dec",
"FunctionalExtensionality.functional_extensionality_dep"
],
"C44_single_row_poles_refuted": [
"ClassicalDedekindReals.sig_forall_dec",
"FunctionalExtensionality.functional_extensionality_dep"
],
"C44_smooth_wedge_is_mean": [
"ClassicalDedekindReals.sig_forall_dec",
"FunctionalExtensionality.functional_extensionality_dep"
],
"C44_unordered_bounds_raise": [
"ClassicalDedekindReals.sig_forall_dec",
"FunctionalExtensionality.functional_extensionality_dep"
],
"C44_wedge_ending_at_one_is_closed": [
"ClassicalDedekindReals.sig_forall_dec",
"FunctionalExtensionality.functional_extensionality_dep"
],
"C44_wedge_is_mode_weighted_mean": [
"ClassicalDedekindReals.sig_forall_dec",
"FunctionalExtensionality.functional_extensionality_dep"
],
"C44_wrong_length_rejected": [
"ClassicalDedekindReals.sig_forall_dec",
"FunctionalExtensionality.functional_extensionality_dep"
],
"C45_caller_list_modified_refuted": [
"ClassicalDedekindReals.sig_forall_dec",
"FunctionalExtensionality.functional_extensionality_dep"
],
"C45_list_unchanged_iff": [
"ClassicalDedekindReals.sig_forall_dec",
"FunctionalExtensionality.functional_extensionality_dep"
],
"C45_other_lists_untouched": [
"ClassicalDedekindReals.sig_forall_dec",
"FunctionalExtensionality.functional_extensionality_dep"
],
"C45_second_construction_differs_refuted": [
"ClassicalDedekindReals.sig_forall_dec",
"FunctionalExtensionality.functional_extensionality_dep"
],
"C46_analytic_mode_refuted": [
"ClassicalDedekindReals.sig_not_dec",
"ClassicalDedekindReals.sig_forall_dec",
"FunctionalExtensionality.functional_extensionality_dep",
"Classical_Prop.classic"
],
"C46_prior_value": [
"ClassicalDedekindReals.sig_not_dec",
"ClassicalDedekindReals.sig_forall_dec",
"FunctionalExtensionality.functional_extensionality_dep",
"Classical_Prop.classic"
],
"C46_within_bounds_iff_finite": [
"ClassicalDedekindReals.sig_not_dec",
"ClassicalDedekindReals.sig_forall_dec",
"FunctionalExtensionality.functional_extensionality_dep",
"Classical_Prop.classic"
],
"C46_within_bounds_is_membership": [
"ClassicalDedekindReals.sig_forall_dec",
"FunctionalExtensionality.functional_extensionality_dep"
],
"C47_any_read": [
"ClassicalDedekindReals.sig_forall_dec",
"FunctionalExtensionality.functional_extensionality_dep"
],
"C47_value_read_respects_bounds": [
"ClassicalDedekindReals.sig_forall_dec",
"FunctionalExtensionality.functional_extensionality_dep"
],
"C48_constraint_sees_unclipped_value_refuted": [],
"C48_default_theories": [],
"C48_derived_bias_refuted": [],
"C48_read_in_dependency_order": [],
"C48_up_to_two_levels_partial": [],
"C49_constrained_names_follow_insertion_order": [],
"C49_disjoint": [],
"C49_fixed_parameters_in_neither_list": [],
"C49_free_names": [],
"C49_independent_of_insertion_order": [],
"C50_all_or_nothing": [
"ClassicalDedekindReals.sig_forall_dec",
"FunctionalExtensionality.functional_extensionality_dep"
],
"C50_galaxy": [
"ClassicalDedekindReals.sig_forall_dec",
"FunctionalExtensionality.functional_extensionality_dep"
],
"C50_returns": [
"ClassicalDedekindReals.sig_forall_dec",
"FunctionalExtensionality.functional_extensionality_dep"
],
"C51_inverse_of_scale": [
"ClassicalDedekindReals.sig_forall_dec",
"FunctionalExtensionality.functional_extensionality_dep"
],
"C51_prior_maps_to_unit_range": [
"ClassicalDedekindReals.sig_forall_dec",
"FunctionalExtensionality.functional_extensionality_dep"
],
"C51_scale_defined": [
"ClassicalDedekindReals.sig_forall_dec",
"FunctionalExtensionality.functional_extensionality_dep"
],
"C51_scale_of_inverse": [
"ClassicalDedekindReals.sig_forall_dec",
"FunctionalExtensionality.functional_extensionality_dep"
],
"C51_scaled_gradient": [
"ClassicalDedekindReals.sig_not_dec",
"ClassicalDedekindReals.sig_forall_dec",
"FunctionalExtensionality.functional_extensionality_dep",
"Classical_Prop.classic"
],
"C52_every_string_covered": [],
"C52_exact": [],
"C52_malformed_raises": [],
"C52_plain_text_unchanged": [],
"C52_total": [],
"C52_unknown_name_raises": [],
"C53_blank_and_comments_ignored": [],
"C53_continuation_joined": [],
"C53_line_gives_pair": [],
"C53_line_without_equals_refused": [],
"C53_trailing_comment_ignored": [],
"C54_current_values_after_any_history": [
"ClassicalDedekindReals.sig_not_dec",
"ClassicalDedekindReals.sig_forall_dec",
"FunctionalExtensionality.functional_extensionality_dep",
"Classical_Prop.classic"
],
"C54_cut_in_any_mode": [
"ClassicalDedekindReals.sig_not_dec",
"ClassicalDedekindReals.sig_forall_dec",
"FunctionalExtensionality.functional_extensionality_dep",
"Classical_Prop.classic"
],
"C54_minus_inf_exactly_outside": [
"ClassicalDedekindReals.sig_not_dec",
"ClassicalDedekindReals.sig_forall_dec",
"FunctionalExtensionality.functional_extensionality_dep",
"Classical_Prop.classic"
],
"C54_minus_lnlike_is_negative": [
"ClassicalDedekindReals.sig_not_dec",
"ClassicalDedekindReals.sig_forall_dec",
"FunctionalExtensionality.functional_extensionality_dep",
"Classical_Prop.classic"
],
"C54_minus_lnlike_outside": [
"ClassicalDedekindReals.sig_not_dec",
"ClassicalDedekindReals.sig_forall_dec",
"FunctionalExtensionality.functional_extensionality_dep",
"Classical_Prop.classic"
],
"C54_use_priors_false_refuted": [
"ClassicalDedekindReals.sig_not_dec",
"ClassicalDedekindReals.sig_forall_dec",
"FunctionalExtensionality.functional_extensionality_dep",
"Classical_Prop.classic"
],
"C54_value_inside": [
"ClassicalDedekindReals.sig_not_dec",
"ClassicalDedekindReals.sig_forall_dec",
"FunctionalExtensionality.functional_extensionality_dep",
"Classical_Prop.classic"
],
"C55_chi2_current_after_any_history": [
"ClassicalDedekindReals.sig_not_dec",
"ClassicalDedekindReals.sig_forall_dec",
"FunctionalExtensionality.functional_extensionality_dep",
"Classical_Prop.classic"
],
"C55_chi2_in_bounds": [
"ClassicalDedekindReals.sig_forall_dec",
"FunctionalExtensionality.functional_extensionality_dep"
],
"C55_history_total": [
"ClassicalDedekindReals.sig_forall_dec",
"FunctionalExtensionality.functional_extensionality_dep"
],
"C56_common_k_any_set_order_partial": [],
"C56_in_order_partial": [],
"C56_set_order_refuted": [],
"C56_several_identifiers_refused": [],
"C56_smooth_different_k_refuted": [],
"C56_specific_not_first_refuted": [],
"C56_subset_refuted": [],
"C57_assembly_partial": [
"ClassicalDedekindReals.sig_forall_dec",
"FunctionalExtensionality.functional_extensionality_dep"
],
"C57_entries_partial": [
"ClassicalDedekindReals.sig_forall_dec",
"FunctionalExtensionality.functional_extensionality_dep"
],
"C57_fisher_never_returns_refuted": [
"ClassicalDedekindReals.sig_forall_dec",
"FunctionalExtensionality.functional_extensionality_dep"
],
"C58_any_memory": [
"ClassicalDedekindReals.sig_forall_dec",
"FunctionalExtensionality.functional_extensionality_dep"
],
"C58_descent": [
"ClassicalDedekindReals.sig_not_dec",
"ClassicalDedekindReals.sig_forall_dec",
"FunctionalExtensionality.functional_extensionality_dep"
],
"C58_direction_always_descends": [
"ClassicalDedekindReals.sig_not_dec",
"ClassicalDedekindReals.sig_forall_dec",
"FunctionalExtensionality.functional_extensionality_dep"
],
"C58_first_step": [
"ClassicalDedekindReals.sig_forall_dec",
"FunctionalExtensionality.functional_extensionality_dep"
],
"C58_step_is_matrix_times_gradient": [
"ClassicalDedekindReals.sig_not_dec",
"ClassicalDedekindReals.sig_forall_dec",
"FunctionalExtensionality.functional_extensionality_dep"
],
"C59_ending_unique": [
"ClassicalDedekindReals.sig_not_dec",
"ClassicalDedekindReals.sig_forall_dec",
"FunctionalExtensionality.functional_extensionality_dep"
],
"C59_objective_decreases": [
"ClassicalDedekindReals.sig_not_dec",
"ClassicalDedekindReals.sig_forall_dec",
"FunctionalExtensionality.functional_extensionality_dep"
],
"C59_restart_stops_immediately_refuted": [
"ClassicalDedekindReals.sig_not_dec",
"ClassicalDedekindReals.sig_forall_dec",
"FunctionalExtensionality.functional_extensionality_dep"
],
"C59_stationary_start_refuted": [
"ClassicalDedekindReals.sig_not_dec",
"ClassicalDedekindReals.sig_forall_dec",
"FunctionalExtensionality.functional_extensionality_dep"
],
"C59_status_documented_and_true": [
"ClassicalDedekindReals.sig_not_dec",
"ClassicalDedekindReals.sig_forall_dec",
"FunctionalExtensionality.functional_extensionality_dep"
],
"C59_terminates": [
"ClassicalDedekindReals.sig_not_dec",
"ClassicalDedekindReals.sig_forall_dec",
"FunctionalExtensionality.functional_extensionality_dep"
],
"C59_tolerance_documented_nonneg": [
"ClassicalDedekindReals.sig_forall_dec",
"FunctionalExtensionality.functional_extensionality_dep"
],
"C59_tolerance_implies_documented": [
"ClassicalDedekindReals.sig_forall_dec",
"FunctionalExtensionality.functional_extensionality_dep"
],
"C59_tolerance_negative_refuted": [
"ClassicalDedekindReals.sig_forall_dec",
"FunctionalExtensionality.functional_extensionality_dep"
],
"C59_undefined_only_at_zero_gradient": [
"ClassicalDedekindReals.sig_not_dec",
"ClassicalDedekindReals.sig_forall_dec",
"FunctionalExtensionality.functional_extensionality_dep"
],
"C59_zero_max_iter_refuted": [
"ClassicalDedekindReals.sig_not_dec",
"ClassicalDedekindReals.sig_forall_dec",
"FunctionalExtensionality.functional_extensionality_dep"
],
"C60_failed_update_rotates_refuted": [
"ClassicalDedekindReals.sig_not_dec",
"ClassicalDedekindReals.sig_forall_dec",
"FunctionalExtensionality.functional_extensionality_dep"
],
"C60_rows_aligned": [
"ClassicalDedekindReals.sig_not_dec",
"ClassicalDedekindReals.sig_forall_dec",
"FunctionalExtensionality.functional_extensionality_dep"
],
"C60_sliding_window": [
"ClassicalDedekindReals.sig_not_dec",
"ClassicalDedekindReals.sig_forall_dec",
"FunctionalExtensionality.functional_extensionality_dep"
],
"C60_update_succeeds_iff": [
"ClassicalDedekindReals.sig_not_dec",
"ClassicalDedekindReals.sig_forall_dec",
"FunctionalExtensionality.functional_extensionality_dep"
],
"C61_request_kept_when_legal": [],
"C61_smallest_legal": [],
"C62_schedule": [],
"C63_lnprobs_kept_partial": [],
"C63_samples_kept_partial": [],
"C63_samples_mixed_refuted": [],
"C63_zero_lost_refuted": [],
"C64_associative": [],
"C64_concatenates_in_order": [],
"C64_no_constrained_fails_refuted": [],
"C64_refuses_mismatch": [],
"C65_emcee_refuses_other_names": [],
"C65_emcee_traces_kept": [],
"C65_lbfgs_free_values_kept": [],
"C66_colours": [],
"C66_partition": [],
"C66_too_many_groups_raise": [],
"C66_zero_groups_raise": [],
"C67_chains_distinct": [],
"C67_new_name": [],
"C67_repeated_calls_distinct": [],
"C68_converged_both_sides": [
"ClassicalDedekindReals.sig_forall_dec",
"FunctionalExtensionality.functional_extensionality_dep"
],
"C68_lower_bound": [
"ClassicalDedekindReals.sig_not_dec",
"ClassicalDedekindReals.sig_forall_dec",
"FunctionalExtensionality.functional_extensionality_dep"
],
"C68_order_independent": [
"ClassicalDedekindReals.sig_not_dec",
"ClassicalDedekindReals.sig_forall_dec",
"FunctionalExtensionality.functional_extensionality_dep"
],
"C68_order_matters_refuted": [
"ClassicalDedekindReals.sig_not_dec",
"ClassicalDedekindReals.sig_forall_dec",
"FunctionalExtensionality.functional_extensionality_dep"
],
"C68_scale_invariant": [
"ClassicalDedekindReals.sig_not_dec",
"ClassicalDedekindReals.sig_forall_dec",
"FunctionalExtensionality.functional_extensionality_dep"
],
"C68_shift_invariant": [
"ClassicalDedekindReals.sig_not_dec",
"ClassicalDedekindReals.sig_forall_dec",
"FunctionalExtensionality.functional_extensionality_dep"
],
"C69_override_read_partial": [],
"C69_override_refuted": [],
"C70_gradient_leaves_model_alone": [
"ClassicalDedekindReals.sig_not_dec",
"ClassicalDedekindReals.sig_forall_dec",
"FunctionalExtensionality.functional_extensionality_dep"
],
"C70_power_leaves_model_alone": [
"ClassicalDedekindReals.sig_forall_dec"
],
"C71_mutual_exclusion": [],
"C71_no_deadlock": [],
"C71_sequential_calls_distorted": [],
"C72_ap_of_the_sum": [
"ClassicalDedekindReals.sig_not_dec",
"ClassicalDedekindReals.sig_forall_dec",
"FunctionalExtensionality.functional_extensionality_dep"
],
"C72_derivative_k": [
"ClassicalDedekindReals.sig_not_dec",
"ClassicalDedekindReals.sig_forall_dec",
"FunctionalExtensionality.functional_extensionality_dep"
],
"C72_derivative_mu": [
"ClassicalDedekindReals.sig_not_dec",
"ClassicalDedekindReals.sig_forall_dec",
"FunctionalExtensionality.functional_extensionality_dep"
],
"C72_power_is_the_expansion": [
"ClassicalDedekindReals.sig_forall_dec"
],
"C72_quasar_derivative_k": [
"ClassicalDedekindReals.sig_not_dec",
"ClassicalDedekindReals.sig_forall_dec",
"FunctionalExtensionality.functional_extensionality_dep",
"Classical_Prop.classic"
],
"C72_quasar_derivative_mu": [
"ClassicalDedekindReals.sig_not_dec",
"ClassicalDedekindReals.sig_forall_dec",
"FunctionalExtensionality.functional_extensionality_dep",
"Classical_Prop.classic"
],
"C72_total_derivative": [
"ClassicalDedekindReals.sig_not_dec",
"ClassicalDedekindReals.sig_forall_dec",
"FunctionalExtensionality.functional_extensionality_dep"
],
"C73_children_are_direct_mentions": [],
"C73_terminates_with_exact_dependencies": [],
"C74_if_model_is_at_theta_partial": [
"ClassicalDedekindReals.sig_forall_dec",
"FunctionalExtensionality.functional_extensionality_dep"
],
"C74_scalar_call_refuted": [
"ClassicalDedekindReals.sig_forall_dec",
"FunctionalExtensionality.functional_extensionality_dep"
],
"C74_stale_analytic_rows_refuted": [
"ClassicalDedekindReals.sig_forall_dec",
"FunctionalExtensionality.functional_extensionality_dep"
],
"C75_analytic_mode": [
"ClassicalDedekindReals.sig_not_dec",
"ClassicalDedekindReals.sig_forall_dec",
"FunctionalExtensionality.functional_extensionality_dep",
"Classical_Prop.classic"
],
"C76_analytic_gradient": [
"ClassicalDedekindReals.sig_not_dec",
"ClassicalDedekindReals.sig_forall_dec",
"FunctionalExtensionality.functional_extensionality_dep",
"Classical_Prop.classic"
],
"C76_out_of_bounds": [
"ClassicalDedekindReals.sig_not_dec",
"ClassicalDedekindReals.sig_forall_dec",
"FunctionalExtensionality.functional_extensionality_dep",
"Classical_Prop.classic"
],
"C77_constrained_values_belong_to_sample": [],
"C77_stale_constraints_refuted": [],
"C78_burnin_excluded": [],
"C78_summaries_current": [],
"C79_copy_is_the_same": [],
"C79_unpickled_attributes": [],
"C79_unpickled_flat_refuted": [],
"C80_clone_changes_what_is_asked": [],
"C80_flat_request_ignored_refuted": [],
"C81_copy_is_equal": [],
"C81_equal_means_close": [],
"C81_not_symmetric_refuted": [],
"C81_not_transitive_refuted": [],
"C82_engine_parameters_fixed": [],
"C82_item_assignment_refused": [],
"C82_update_changes_items_refuted": [],
"C83_preserve_reads_fresh_partial": [],
"C83_preserve_reads_fresh_refuted": [],
"C84_use_spt_error_reported_refuted": [],
"C85_subsample_components_partial": [
"ClassicalDedekindReals.sig_not_dec",
"ClassicalDedekindReals.sig_forall_dec",
"FunctionalExtensionality.functional_extensionality_dep"
],
"C85_subsample_components_refuted": [
"ClassicalDedekindReals.sig_not_dec",
"ClassicalDedekindReals.sig_forall_dec",
"FunctionalExtensionality.functional_extensionality_dep"
],
"C86_reflected_operations_refuted": [],
"C87_ells_follow_when_increasing_partial": [],
"C87_negative_refuted": [],
"C87_order_of_ells_refuted": [],
"C88_lbfgs_constrained_swapped_refuted": [],
"C89_crash_refuted": [
"ClassicalDedekindReals.sig_not_dec",
"ClassicalDedekindReals.sig_forall_dec",
"FunctionalExtensionality.functional_extensionality_dep"
],
"C89_crash_state_partial": [
"ClassicalDedekindReals.sig_forall_dec"
],
"C90_concurrent_call_undistorted_refuted": [],
"C91_burnin_forgotten_refuted": [],
"C91_peak_stale_refuted": [],
"C92_finite_difference_partial": [
"ClassicalDedekindReals.sig_not_dec",
"ClassicalDedekindReals.sig_forall_dec",
"FunctionalExtensionality.functional_extensionality_dep",
"Classical_Prop.classic"
],
"C92_finite_difference_prior_refuted": [
"ClassicalDedekindReals.sig_not_dec",
"ClassicalDedekindReals.sig_forall_dec",
"FunctionalExtensionality.functional_extensionality_dep",
"Classical_Prop.classic"
],
"C93_default_mode_refuted": [
"ClassicalDedekindReals.sig_not_dec",
"ClassicalDedekindReals.sig_forall_dec",
"FunctionalExtensionality.functional_extensionality_dep",
"Classical_Prop.classic"
],
"C94_all_chains_stop_partial": [],
"C94_convergence_can_block_refuted": [],
"C94_different_reasons_refuted": [],
"C94_every_chain_is_told_partial": [],
"C94_same_reason_partial": [],
"C94_stops_when_told_partial": [],
"C94_verdict_takes_effect_partial": [],
"C94_waiting_chain_blocked_refuted": [],
"C94_without_tests_nobody_waits_partial": [],
"C95_chi2_refuted": [
"ClassicalDedekindReals.sig_forall_dec",
"FunctionalExtensionality.functional_extensionality_dep"
],
"C95_out_of_bounds_refuted": [
"ClassicalDedekindReals.sig_forall_dec",
"FunctionalExtensionality.functional_extensionality_dep"
],
"C96_attribution_partial": [],
"C96_quoted_characters_refuted": [],
"C96_suffix_tag_refuted": [],
"C97_concurrent_same_base_refuted": [],
"C98_alpha_par_partial": [
"ClassicalDedekindReals.sig_not_dec",
"ClassicalDedekindReals.sig_forall_dec",
"FunctionalExtensionality.functional_extensionality_dep",
"Classical_Prop.classic"
],
"C98_alpha_par_refuted": [
"ClassicalDedekindReals.sig_not_dec",
"ClassicalDedekindReals.sig_forall_dec",
"FunctionalExtensionality.functional_extensionality_dep",
"Classical_Prop.classic"
],
"C99_f_so_partial": [
"ClassicalDedekindReals.sig_not_dec",
"ClassicalDedekindReals.sig_forall_dec",
"FunctionalExtensionality.functional_extensionality_dep",
"Classical_Prop.classic"
],
"C99_f_so_refuted": [
"ClassicalDedekindReals.sig_not_dec",
"ClassicalDedekindReals.sig_forall_dec",
"FunctionalExtensionality.functional_extensionality_dep",
"Classical_Prop.classic"
],
"C99_fcB_partial": [
"ClassicalDedekindReals.sig_not_dec",
"ClassicalDedekindReals.sig_forall_dec",
"FunctionalExtensionality.functional_extensionality_dep",
"Classical_Prop.classic"
],
"C99_fcB_refuted": [
"ClassicalDedekindReals.sig_not_dec",
"ClassicalDedekindReals.sig_forall_dec",
"FunctionalExtensionality.functional_extensionality_dep",
"Classical_Prop.classic"
],
"C99_fsB_partial": [
"ClassicalDedekindReals.sig_not_dec",
"ClassicalDedekindReals.sig_forall_dec",
"FunctionalExtensionality.functional_extensionality_dep",
"Classical_Prop.classic"
],
"C99_fsB_refuted": [
"ClassicalDedekindReals.sig_not_dec",
"ClassicalDedekindReals.sig_forall_dec",
"FunctionalExtensionality.functional_extensionality_dep",
"Classical_Prop.classic"
]
}