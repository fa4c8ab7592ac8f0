# What Print Assumptions lists, theorem by theorem

Generated by tools/gen_axioms.py from the compiled theories.  All axioms are of Coq's standard library
(real numbers: `ClassicalDedekindReals`, `Classical_Prop`, `FunctionalExtensionality`).

## no axioms: closed under the global context (231 theorems)

C03_bin_elementwise, C03_bin_errors, C06_no_weights, C07_get_fmd_rejects, C08_last_count, C08_no_weights, C09_used_events, C15_unusable_sample_nan, C16_reuse_is_history_independent, C17_failed_call_keeps_result, C17_never_successful, C18_used_differences, C19_find_next_larger, C19_used_pairs, C23_bad_weights_never_accepted, C23_negative_dmc, C23_negative_weight, C23_not_binned, C23_read_before_calculate, C23_wrong_length, C26_kept_events, C27_statistic_error, C29_errors, C29_outputs, C30_missing_b, C30_no_events, C30_not_binned, C31_classic, C31_more_positive, C31_positive, C35_offset_error, C35_pieces, C36_every_window_once, C36_scalar_mc, C39_not_square, C39_too_short, C39_wrong_size, C40_empty_part, C40_empty_part_nan, C40_lengths, C40_parts_are_independent, C40_scalar_mc, C40_single_part_a, C40_single_part_b, C41_maxc_errors, C42_best, C42_stop_same_selection, C42_tested, C42_unbinned_rejected, C45_tested, C51_batched_download, C52_batch_count, C53_pieces, C54_fields, C54_one_record_per_event, C55_preferred, C55_secondary, C56_missing_type_refuted, C57_class_of_result, C57_columns, C57_history, C57_in_place, C57_last_result, C57_plain_stays, C58_bin_magnitudes_effects, C58_bin_magnitudes_errors, C59_b_effects, C59_b_explicit_wins, C59_b_missing, C59_b_omitted_is_attribute, C60_lost_refuted, C60_no_type_refuted, C62_get_returns_last_set, C62_last_value_unique, C62_set_known, C62_unknown_key, C67_idempotent, C67_moment_magnitudes, C67_other_magnitudes, C69_kijko_smit_beta_refuted, C69_weichert_beta_refuted, C70_reverse_power_zero, C71_keeps_exactly_inside_rows, C71_missing_column, C72_dates_are_parsed, C74_history_independent, C75_failed_call_keeps_a_value, C76_every_bad_weights_refuted, C79_return_n_alone_refuted, C83_failed_call_overwrites_refuted, C87_nothing_to_test_refuted, C90_always_refuted, C96_batch_size_zero_refuted, C97_limit_with_batches_refuted, C98_parameters, C98_same_filters, C99_every_text_refuted, C99_inner_white_space_refuted, C100_origin, C113_runs_iff_columns_present, C114_fraction_kept_refuted, C115_missing_and_dates, C115_parsed_dates_exist, C116_offset_without_fraction_refuted, C119_empty_catalogue_refuted, C125_errors, C126_no_line, C127_arguments_changed_refuted, C127_second_call_fails_refuted, C128_points_are_estimates, C129_errors, C130_points_or_nan, C133_metadata_survive, C133_n_catalogs_lost, C133_n_catalogs_survives, C134_first_decides, C135_strip, C135_strip_needs_columns, C136_drop_ids, C136_drop_uncertainties, C136_from_dict, C137_always_refuted, C137_forecast_strip_refuted, C138_a_effects, C138_a_explicit_wins, C138_a_missing, C138_a_omitted_is_attribute, C138_a_stored_b_unused, C139_ks_binning_and_b, C139_ks_effects, C139_maxc_effects, C139_none_found, C139_stability_binning, C139_stability_effects, C139_workflow_maxc, C140_a_classic, C140_a_classic_arguments, C140_a_needs_times, C140_a_positive, C140_b_classic, C140_b_classic_arguments, C140_b_dmc_column, C140_b_positive, C141_more_columns, C141_need_columns, C141_plot_cum_count, C141_plot_cum_fmd, C141_plot_fmd, C141_plot_in_space, C141_plot_mags_in_time, C141_plot_mc_vs_b, C142_texts, C150_round_trip, C150_secondary_ids, C151_exported_events, C152_always_refuted, C152_secondary_ids_refuted, C153_missing_mode_refuted, C153_missing_type_refuted, C154_uncertainties_lost_refuted, C155_missing_ids_refuted, C156_forecast_documents, C157_secondary_kept, C162_columns_come_back, C162_exported_columns, C162_exported_empty, C162_exported_without_required_columns, C162_imported_columns, C162_imported_empty, C162_imported_lengths, C162_imported_without_time, C177_other_entries, C177_times_in_range, C177_times_with_T, C178_independent_of_the_others_refuted, C179_blank_refuted, C183_text, C184_complete_events, C184_cut_off_file, C184_cut_off_string, C184_empty_text, C185_silently_short_refuted, C186_text_round_trip, C187_text_unreadable_refuted, C188_escaped_text, C190_catalogue, C190_function_and_object, C192_spacing, C192_trimmed, C193_download, C193_interrupted, C194_error_page_refuted, C194_short_body_refuted, C195_never_ends_refuted, C197_p_value, C203_b_stability_refuted, C203_ks_raises_refuted, C203_ks_refuted, C204_b_stability_refuted, C204_ks_refuted, C205_b_stability_times_in_order, C205_ks_times_in_order, C205_same_estimate, C207_class, C207_no_records, C207_rows_and_columns, C207_succeeds, C208_other_columns, C208_texts, C208_times, C209_dropping_columns, C209_idempotent, C210_without_magnitude_refuted, C211_any_spelling, C211_file_or_text, C211_missing_file, C212_empty_path_refuted, C214_texts_for_numbers_refuted, C215_download, C216_any_spelling, C216_same_records, C217_line_breaks, C219_exactly, C219_only_dates, C220_instruction_in_a_text_refuted, C221_every_document_is_answered_refuted, C226_reasonable, C228_list_refuted, C228_same_without_marker, C229_points, C231_no_markup_refused

## `ClassicalDedekindReals.sig_forall_dec` (1 theorems)

C61_same_cell

## `ClassicalDedekindReals.sig_forall_dec`, `FunctionalExtensionality.functional_extensionality_dep` (7 theorems)

C01_near_grid_determines, C01_near_grid_meaning, C47_clusters_unique, C47_largest, C106_at_mag_max, C176_nine_digits, C191_rectangle

## `ClassicalDedekindReals.sig_forall_dec`, `ClassicalDedekindReals.sig_not_dec`, `Classical_Prop.classic`, `FunctionalExtensionality.functional_extensionality_dep` (304 theorems)

C01_bin_to_precision_nearest, C02_bin_idempotent, C02_bin_monotone, C02_bin_shift, C03_bin_nan_kept, C04_binning_test_characterisation, C04_binning_test_larger_characterisation, C04_binning_test_no_data, C04_binning_test_sound, C04_binning_test_tiny_delta, C05_binning_test_depends_on_values_only, C05_binning_test_nan_and_shift, C05_binning_test_permutation, C06_get_fmd_counts, C06_get_fmd_left, C06_get_fmd_order_independent, C06_get_fmd_weighted, C07_get_cum_fmd_rejects, C07_get_fmd_bad_position, C08_get_cum_fmd_counts, C08_get_cum_fmd_unbinned, C08_get_cum_fmd_weighted, C08_left, C09_nan_never_counts, C10_classic_binned_mle, C10_classic_continuous_mle, C10_classic_weighted_mle, C11_classic_above_utsu, C11_equal_for_continuous, C12_constant_weights, C12_integer_weights_repeat, C12_scaled_weights, C12_zero_weight_dropped, C13_order_irrelevant, C14_nan_events_irrelevant, C14_scale, C14_shift, C14_small_events_irrelevant, C15_std_nan_unweighted, C20_only_time_order_matters, C21_unweighted_nan, C22_continuous_refuted, C24_formula, C24_formula_weighted, C24_integer_weights_repeat, C24_nonneg_zero_iff_all_equal, C24_order_and_shift, C24_std_beta, C24_unit_weights, C25_beta_after_calculate, C25_inverse, C26_idempotent, C27_bootstrap_std, C28_defined, C30_bad_scaling, C30_classic_formula, C32_time_shift_scale_and_order, C33_at_least_the_count, C33_formula, C34_nan_and_empty, C36_subsamples, C36_subsamples_along_x, C37_every_input_refuted, C37_input_in_order, C37_mc_not_sorted_refuted, C38_elementwise, C38_error, C38_transform, C39_affine, C39_forms_agree, C39_nan_is_deletion, C39_only_triangular_or_symmetric, C39_value, C41_maxc, C41_maxc_order_and_nan, C42_best_is_smallest, C42_default_magnitudes, C43_b_stability, C43_estimate_mc_ks, C43_ks_test_gr, C44_distance_between_0_and_1, C44_distance_value, C44_p_antitone, C44_p_between_0_and_1, C44_p_value, C45_default_magnitudes, C45_first_stable, C45_given_magnitudes, C45_most_stable, C45_value, C46_cdf_increasing, C46_cdf_steps, C46_cdf_tends_to_one, C46_cdf_values, C47_flags_unique, C47_gardner_knopoff, C47_package_windows, C48_index_error_refuted, C48_swapped_labels_refuted, C49_cutoff, C49_gardner_knopoff_time, C49_space_windows, C49_time_windows, C50_great_circle, C50_symmetric_bounded, C50_triangle, C50_zero_iff_same_point, C58_bin_again, C58_bin_magnitudes, C61_cell_ids, C63_arrays, C63_external_round_trip, C63_local_round_trip, C63_polygon_from_local, C63_polygon_to_local, C64_bounding_box, C64_box_round_trip, C65_truncated, C65_untruncated, C66_binned_simulation, C66_binned_simulation_truncated, C66_dithering, C67_increasing, C67_local_magnitudes, C68_kijko_smit, C68_no_complete_events, C70_bounds_replaced, C70_dot_size, C70_power_zero, C70_reverse_dot_size, C73_binning_test_zero, C76_stale_result_refuted, C77_weighted_raises_refuted, C78_equal_weights_refuted, C78_every_common_weight_refuted, C80_times_not_emptied_refuted, C81_mag_max_zero_refuted, C82_always_refuted, C82_zero_edge_refuted, C84_bounded, C85_order_irrelevant, C85_x_variable_sorts, C86_every_single_value_refuted, C86_single_value_sample_refuted, C88_one_step_range_refuted, C89_always_refuted, C92_exactly_refuted, C92_gardner_knopoff_time_refuted, C93_zero_cutoff_refuted, C94_gruenthal_negative_refuted, C95_clusters, C95_row_order, C101_weichert_is_mle, C102_one_minimum, C103_kijko_smit_std, C103_weichert_std, C104_rows, C105_empty_bins_refuted, C105_mag_max_refuted, C106_mag_max_refuted, C107_empty_period_refuted, C108_rate_refuted, C109_a_value_refuted, C110_weichert_a, C111_alignment_refuted, C112_weichert_rate, C117_reference_in_external_system, C117_reference_is_origin, C117_reference_shifts, C118_box_functions_compose_refuted, C118_every_polygon_refuted, C120_equal_magnitudes_refuted, C121_histogram, C121_points, C121_points_weighted, C122_default_mc, C122_line_through_first_point, C123_nan_with_weights_refuted, C124_every_weighted_line_refuted, C124_weighted_line_refuted, C125_cumulative_counts, C125_defaults, C126_completeness_line, C129_scalar_mc, C129_series, C129_series_by_index, C130_points, C130_scalar_mc, C130_x_variable, C131_country, C131_extent, C131_succeeds, C132_darker, C132_lighter, C143_unknown_bounds_refuted, C144_add_time_index, C144_add_time_index_errors, C144_concat, C144_concat_errors, C144_concat_indexed, C145_selection_renumbers, C145_stable_numbers_refuted, C146_statistics_by_cell, C146_statistics_by_level, C147_bounds_kept, C147_bounds_of_summary, C147_bounds_refuted, C148_exact_condition, C148_unknown_bound_refuted, C149_class_and_attributes, C158_exported_times, C158_round_trip, C159_imported_times, C160_fractions_lost, C160_microseconds_kept_refuted, C161_numbers_only_refuted, C163_impossible_dates_rejected, C164_impossible_times_rejected_refuted, C165_weighted_std_raises_refuted, C166_all_nan_raises_refuted, C167_coarse_sample_refuted, C168_below_mc_refuted, C169_binning_test_zero_default_refuted, C170_half_way_goes_up, C170_result_is_the_decimal, C171_idempotent, C171_same_bin_same_double, C172_accepted_is_a_grid, C172_grid_is_accepted, C173_large_magnitudes_rejected_refuted, C173_no_estimate_refuted, C174_complete_events, C174_more_positive_differences, C174_positive_differences, C175_every_event_counted_once, C175_fmd, C176_classic_and_utsu, C176_more_positive, C176_positive, C180_complete_events, C180_maxc, C180_maxc_then_estimate, C181_decimal_result_refuted, C182_cum_fmd, C182_unbinned, C189_warning, C191_country, C196_a_warnings, C196_b_warnings, C197_conservative, C197_conservative_is_larger, C197_moments, C197_probability, C198_nearest_double, C198_round_trip, C199_infinity, C199_not_a_number, C199_other_entries, C199_too_large, C200_integers, C201_relative_refuted, C201_round_trip_refuted, C202_accuracy, C202_too_small, C204_differs_refuted, C206_refuted, C208_no_numbers, C208_numbers, C213_round_trip, C218_distance_between_0_and_1, C218_equal_weights, C218_one_valued, C218_scaling, C218_whole_weights, C218_wrong_length, C222_classic, C222_plain, C223_document, C223_document_maxc, C223_download, C223_maxc_then_b, C223_missing_magnitudes, C223_records, C223_round_trip, C224_document, C224_maxc_then_b, C224_near_mc, C224_records, C225_catalogue, C225_weighted, C226_default_numbers, C226_default_numbers_double, C226_every_point_estimated, C227_few_events_refuted, C227_large_min_num_refuted, C229_markers, C229_outside_the_band, C230_declustered, C230_no_window, C230_refused, C232_mainshocks_stay, C233_time_shift, C234_longitude_shift, C234_moved_epicentres

## `PrimFloat.abs`, `PrimFloat.add`, `PrimFloat.div`, `PrimFloat.eqb`, `PrimFloat.float`, `PrimFloat.frshiftexp`, `PrimFloat.ldshiftexp`, `PrimFloat.leb`, `PrimFloat.ltb`, `PrimFloat.mul`, `PrimFloat.normfr_mantissa`, `PrimFloat.of_uint63`, `PrimFloat.opp`, `PrimFloat.sqrt`, `PrimFloat.sub`, `PrimInt63.eqb`, `PrimInt63.int`, `PrimInt63.land`, `PrimInt63.lor`, `PrimInt63.lsl`, `PrimInt63.lsr`, `PrimInt63.sub` (3 theorems)

C89_zero_is_none_refuted, C90_nan_first_refuted, C91_average_in_doubles_refuted

