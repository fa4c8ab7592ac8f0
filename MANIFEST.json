{
 "claims": [
  {
   "property": "C01",
   "status": "proved",
   "theorems": [
    "C01_bin_to_precision_nearest",
    "C01_near_grid_determines",
    "C01_near_grid_meaning"
   ],
   "note": ""
  },
  {
   "property": "C02",
   "status": "proved",
   "theorems": [
    "C02_bin_idempotent",
    "C02_bin_monotone",
    "C02_bin_shift"
   ],
   "note": ""
  },
  {
   "property": "C03",
   "status": "proved",
   "theorems": [
    "C03_bin_errors",
    "C03_bin_elementwise",
    "C03_bin_nan_kept"
   ],
   "note": ""
  },
  {
   "property": "C04",
   "status": "proved",
   "theorems": [
    "C04_binning_test_characterisation",
    "C04_binning_test_larger_characterisation",
    "C04_binning_test_sound",
    "C04_binning_test_no_data",
    "C04_binning_test_tiny_delta"
   ],
   "note": "The iff is stated for tolerances below half a bin (tol_small); soundness (True implies binned) holds without this."
  },
  {
   "property": "C05",
   "status": "proved",
   "theorems": [
    "C05_binning_test_depends_on_values_only",
    "C05_binning_test_permutation",
    "C05_binning_test_nan_and_shift"
   ],
   "note": ""
  },
  {
   "property": "C06",
   "status": "proved",
   "theorems": [
    "C06_get_fmd_weighted",
    "C06_get_fmd_counts",
    "C06_get_fmd_left",
    "C06_get_fmd_order_independent",
    "C06_no_weights"
   ],
   "note": ""
  },
  {
   "property": "C07",
   "status": "proved",
   "theorems": [
    "C07_get_fmd_rejects",
    "C07_get_fmd_bad_position",
    "C07_get_cum_fmd_rejects"
   ],
   "note": ""
  },
  {
   "property": "C08",
   "status": "proved",
   "theorems": [
    "C08_get_cum_fmd_weighted",
    "C08_get_cum_fmd_counts",
    "C08_get_cum_fmd_unbinned",
    "C08_no_weights",
    "C08_left",
    "C08_last_count"
   ],
   "note": ""
  },
  {
   "property": "C09",
   "status": "proved",
   "theorems": [
    "C09_used_events",
    "C09_nan_never_counts"
   ],
   "note": ""
  },
  {
   "property": "C10",
   "status": "proved",
   "theorems": [
    "C10_classic_continuous_mle",
    "C10_classic_binned_mle",
    "C10_classic_weighted_mle"
   ],
   "note": ""
  },
  {
   "property": "C11",
   "status": "proved",
   "theorems": [
    "C11_classic_above_utsu",
    "C11_equal_for_continuous"
   ],
   "note": ""
  },
  {
   "property": "C12",
   "status": "proved",
   "theorems": [
    "C12_constant_weights",
    "C12_scaled_weights",
    "C12_zero_weight_dropped",
    "C12_integer_weights_repeat"
   ],
   "note": ""
  },
  {
   "property": "C13",
   "status": "proved",
   "theorems": [
    "C13_order_irrelevant"
   ],
   "note": ""
  },
  {
   "property": "C14",
   "status": "proved",
   "theorems": [
    "C14_shift",
    "C14_scale",
    "C14_small_events_irrelevant",
    "C14_nan_events_irrelevant"
   ],
   "note": ""
  },
  {
   "property": "C15",
   "status": "proved",
   "theorems": [
    "C15_unusable_sample_nan",
    "C15_std_nan_unweighted"
   ],
   "note": ""
  },
  {
   "property": "C16",
   "status": "proved",
   "theorems": [
    "C16_reuse_is_history_independent"
   ],
   "note": ""
  },
  {
   "property": "C17",
   "status": "proved",
   "theorems": [
    "C17_failed_call_keeps_result",
    "C17_never_successful"
   ],
   "note": ""
  },
  {
   "property": "C18",
   "status": "proved",
   "theorems": [
    "C18_used_differences"
   ],
   "note": ""
  },
  {
   "property": "C19",
   "status": "proved",
   "theorems": [
    "C19_find_next_larger",
    "C19_used_pairs"
   ],
   "note": ""
  },
  {
   "property": "C20",
   "status": "proved",
   "theorems": [
    "C20_only_time_order_matters"
   ],
   "note": ""
  },
  {
   "property": "C21",
   "status": "proved",
   "theorems": [
    "C21_unweighted_nan"
   ],
   "note": ""
  },
  {
   "property": "C22",
   "status": "partial",
   "theorems": [
    "C22_continuous_refuted"
   ],
   "note": "False of the code: BMorePositive with delta_m=0 raises ValueError for every catalogue with at least one complete event (unweighted); refutation proved for all inputs."
  },
  {
   "property": "C23",
   "status": "proved",
   "theorems": [
    "C23_wrong_length",
    "C23_negative_weight",
    "C23_not_binned",
    "C23_bad_weights_never_accepted",
    "C23_negative_dmc",
    "C23_read_before_calculate"
   ],
   "note": ""
  },
  {
   "property": "C24",
   "status": "proved",
   "theorems": [
    "C24_formula",
    "C24_formula_weighted",
    "C24_nonneg_zero_iff_all_equal",
    "C24_order_and_shift",
    "C24_std_beta",
    "C24_unit_weights",
    "C24_integer_weights_repeat"
   ],
   "note": ""
  },
  {
   "property": "C25",
   "status": "proved",
   "theorems": [
    "C25_inverse",
    "C25_beta_after_calculate"
   ],
   "note": ""
  },
  {
   "property": "C26",
   "status": "proved",
   "theorems": [
    "C26_kept_events",
    "C26_idempotent"
   ],
   "note": ""
  },
  {
   "property": "C27",
   "status": "proved",
   "theorems": [
    "C27_bootstrap_std",
    "C27_statistic_error"
   ],
   "note": ""
  },
  {
   "property": "C28",
   "status": "proved",
   "theorems": [
    "C28_defined"
   ],
   "note": ""
  },
  {
   "property": "C29",
   "status": "proved",
   "theorems": [
    "C29_outputs",
    "C29_errors"
   ],
   "note": ""
  },
  {
   "property": "C30",
   "status": "proved",
   "theorems": [
    "C30_classic_formula",
    "C30_no_events",
    "C30_missing_b",
    "C30_not_binned",
    "C30_bad_scaling"
   ],
   "note": ""
  },
  {
   "property": "C31",
   "status": "proved",
   "theorems": [
    "C31_classic",
    "C31_positive",
    "C31_more_positive"
   ],
   "note": ""
  },
  {
   "property": "C32",
   "status": "proved",
   "theorems": [
    "C32_time_shift_scale_and_order"
   ],
   "note": ""
  },
  {
   "property": "C33",
   "status": "proved",
   "theorems": [
    "C33_formula",
    "C33_at_least_the_count"
   ],
   "note": ""
  },
  {
   "property": "C34",
   "status": "proved",
   "theorems": [
    "C34_nan_and_empty"
   ],
   "note": ""
  },
  {
   "property": "C35",
   "status": "proved",
   "theorems": [
    "C35_pieces",
    "C35_offset_error"
   ],
   "note": ""
  },
  {
   "property": "C36",
   "status": "proved",
   "theorems": [
    "C36_every_window_once",
    "C36_subsamples",
    "C36_scalar_mc",
    "C36_subsamples_along_x"
   ],
   "note": ""
  },
  {
   "property": "C37",
   "status": "partial",
   "theorems": [
    "C37_mc_not_sorted_refuted",
    "C37_every_input_refuted",
    "C37_input_in_order"
   ],
   "note": "False of the code: mc is not reordered with the events when x_variable is given. Theorems: for every input, the i-th event along x gets the completeness magnitude of the i-th event of the input; a witness where the result changes; events given in the order of x_variable are paired rightly. Without x_variable the pairing is right: C36_subsamples."
  },
  {
   "property": "C38",
   "status": "proved",
   "theorems": [
    "C38_elementwise",
    "C38_error",
    "C38_transform"
   ],
   "note": ""
  },
  {
   "property": "C39",
   "status": "proved",
   "theorems": [
    "C39_value",
    "C39_forms_agree",
    "C39_affine",
    "C39_nan_is_deletion",
    "C39_too_short",
    "C39_not_square",
    "C39_wrong_size",
    "C39_only_triangular_or_symmetric"
   ],
   "note": ""
  },
  {
   "property": "C40",
   "status": "proved",
   "theorems": [
    "C40_parts_are_independent",
    "C40_empty_part",
    "C40_single_part_b",
    "C40_scalar_mc",
    "C40_lengths",
    "C40_empty_part_nan",
    "C40_single_part_a"
   ],
   "note": ""
  },
  {
   "property": "C41",
   "status": "proved",
   "theorems": [
    "C41_maxc",
    "C41_maxc_order_and_nan",
    "C41_maxc_errors"
   ],
   "note": ""
  },
  {
   "property": "C42",
   "status": "proved",
   "theorems": [
    "C42_tested",
    "C42_best",
    "C42_stop_same_selection",
    "C42_best_is_smallest",
    "C42_default_magnitudes",
    "C42_unbinned_rejected"
   ],
   "note": ""
  },
  {
   "property": "C43",
   "status": "proved",
   "theorems": [
    "C43_ks_test_gr",
    "C43_b_stability",
    "C43_estimate_mc_ks"
   ],
   "note": ""
  },
  {
   "property": "C44",
   "status": "proved",
   "theorems": [
    "C44_p_value",
    "C44_p_between_0_and_1",
    "C44_p_antitone",
    "C44_distance_between_0_and_1",
    "C44_distance_value"
   ],
   "note": ""
  },
  {
   "property": "C45",
   "status": "proved",
   "theorems": [
    "C45_tested",
    "C45_first_stable",
    "C45_most_stable",
    "C45_value",
    "C45_given_magnitudes",
    "C45_default_magnitudes"
   ],
   "note": "In exact arithmetic; the rounding of np.arange (C91), mc = 0 (C89), a NaN first difference (C90) and a one-bin range (C88) are separate, refuted properties."
  },
  {
   "property": "C46",
   "status": "proved",
   "theorems": [
    "C46_cdf_values",
    "C46_cdf_increasing",
    "C46_cdf_tends_to_one",
    "C46_cdf_steps"
   ],
   "note": ""
  },
  {
   "property": "C47",
   "status": "proved",
   "theorems": [
    "C47_gardner_knopoff",
    "C47_flags_unique",
    "C47_largest",
    "C47_package_windows",
    "C47_clusters_unique"
   ],
   "note": "For every window function with non-negative windows (C47_gardner_knopoff) and for the package's windows and distance (C47_package_windows), over exact real numbers; the rounding of time windows to nanoseconds is not modelled."
  },
  {
   "property": "C48",
   "status": "partial",
   "theorems": [
    "C48_index_error_refuted",
    "C48_swapped_labels_refuted"
   ],
   "note": "False of the code: numpy arrays are indexed with index labels. Proved: IndexError for every non-empty catalogue whose labels are all >= its length; with swapped labels the flags of two co-located events are swapped. True part (labels = positions): C47."
  },
  {
   "property": "C49",
   "status": "proved",
   "theorems": [
    "C49_space_windows",
    "C49_time_windows",
    "C49_gardner_knopoff_time",
    "C49_cutoff"
   ],
   "note": ""
  },
  {
   "property": "C50",
   "status": "proved",
   "theorems": [
    "C50_great_circle",
    "C50_symmetric_bounded",
    "C50_zero_iff_same_point",
    "C50_triangle"
   ],
   "note": "Over exact real numbers, default earth radius, one pair of points at a time."
  },
  {
   "property": "C51",
   "status": "proved",
   "theorems": [
    "C51_batched_download"
   ],
   "note": "For servers that honour limit/offset on a fixed list; kwargs must not contain limit or offset. Splitting of years etc. is not part of the code."
  },
  {
   "property": "C52",
   "status": "proved",
   "theorems": [
    "C52_batch_count"
   ],
   "note": "Number of batches and termination for every batch size >= 1."
  },
  {
   "property": "C53",
   "status": "proved",
   "theorems": [
    "C53_pieces"
   ],
   "note": "Texts without inner white space; with it the claim is false, see C99."
  },
  {
   "property": "C54",
   "status": "proved",
   "theorems": [
    "C54_one_record_per_event",
    "C54_fields"
   ],
   "note": ""
  },
  {
   "property": "C55",
   "status": "proved",
   "theorems": [
    "C55_preferred",
    "C55_secondary"
   ],
   "note": "float() and strptime are parameters; any set iteration order; type names that clash with other columns (underscore) are excluded."
  },
  {
   "property": "C56",
   "status": "partial",
   "theorems": [
    "C56_missing_type_refuted"
   ],
   "note": "False of the code: KeyError ('magnitudetype') for every event with such a magnitude."
  },
  {
   "property": "C57",
   "status": "proved",
   "theorems": [
    "C57_class_of_result",
    "C57_plain_stays",
    "C57_history",
    "C57_last_result",
    "C57_in_place",
    "C57_columns"
   ],
   "note": ""
  },
  {
   "property": "C58",
   "status": "proved",
   "theorems": [
    "C58_bin_magnitudes_effects",
    "C58_bin_magnitudes_errors",
    "C58_bin_magnitudes",
    "C58_bin_again"
   ],
   "note": ""
  },
  {
   "property": "C59",
   "status": "proved",
   "theorems": [
    "C59_b_omitted_is_attribute",
    "C59_b_explicit_wins",
    "C59_b_missing",
    "C59_b_effects"
   ],
   "note": ""
  },
  {
   "property": "C60",
   "status": "partial",
   "theorems": [
    "C60_lost_refuted",
    "C60_no_type_refuted"
   ],
   "note": "False of the code: `event['magnitude_type'] not in mag` is a substring test. Theorems: for every catalogue, a secondary column whose name contains the preferred type (ML in magnitude_MLhc, m in every name) is lost, and so are all of a row without type. What survives: C150, C157."
  },
  {
   "property": "C61",
   "status": "proved",
   "theorems": [
    "C61_cell_ids",
    "C61_same_cell"
   ],
   "note": "For bounds that are all known (C61_same_cell); rows with unknown bounds are covered by numbers_cells in C61_cell_ids and refuted as a separate claim in C143. The sort inside numpy.unique is abstract: any function satisfying sorts_rows."
  },
  {
   "property": "C62",
   "status": "proved",
   "theorems": [
    "C62_get_returns_last_set",
    "C62_last_value_unique",
    "C62_unknown_key",
    "C62_set_known"
   ],
   "note": ""
  },
  {
   "property": "C63",
   "status": "proved",
   "theorems": [
    "C63_external_round_trip",
    "C63_local_round_trip",
    "C63_polygon_to_local",
    "C63_polygon_from_local",
    "C63_arrays"
   ],
   "note": ""
  },
  {
   "property": "C64",
   "status": "proved",
   "theorems": [
    "C64_bounding_box",
    "C64_box_round_trip"
   ],
   "note": ""
  },
  {
   "property": "C65",
   "status": "proved",
   "theorems": [
    "C65_truncated",
    "C65_untruncated"
   ],
   "note": ""
  },
  {
   "property": "C66",
   "status": "proved",
   "theorems": [
    "C66_binned_simulation",
    "C66_binned_simulation_truncated",
    "C66_dithering"
   ],
   "note": ""
  },
  {
   "property": "C67",
   "status": "proved",
   "theorems": [
    "C67_local_magnitudes",
    "C67_moment_magnitudes",
    "C67_other_magnitudes",
    "C67_idempotent",
    "C67_increasing"
   ],
   "note": ""
  },
  {
   "property": "C68",
   "status": "proved",
   "theorems": [
    "C68_kijko_smit",
    "C68_no_complete_events"
   ],
   "note": ""
  },
  {
   "property": "C69",
   "status": "partial",
   "theorems": [
    "C69_kijko_smit_beta_refuted",
    "C69_weichert_beta_refuted"
   ],
   "note": "False of the code (proved for every instance of the arithmetic): whenever 'b_value' gives a result, 'beta' raises UnboundLocalError, in both functions."
  },
  {
   "property": "C70",
   "status": "proved",
   "theorems": [
    "C70_dot_size",
    "C70_bounds_replaced",
    "C70_power_zero",
    "C70_reverse_dot_size",
    "C70_reverse_power_zero"
   ],
   "note": ""
  },
  {
   "property": "C71",
   "status": "proved",
   "theorems": [
    "C71_keeps_exactly_inside_rows",
    "C71_missing_column"
   ],
   "note": ""
  },
  {
   "property": "C72",
   "status": "proved",
   "theorems": [
    "C72_dates_are_parsed"
   ],
   "note": ""
  },
  {
   "property": "C73",
   "status": "proved",
   "theorems": [
    "C73_binning_test_zero"
   ],
   "note": "For tolerances t with 10^p <= t < 10^(p+1), 10^(p+1) >= 1e-12, and a range small against the relative rounding allowance."
  },
  {
   "property": "C74",
   "status": "proved",
   "theorems": [
    "C74_history_independent"
   ],
   "note": ""
  },
  {
   "property": "C75",
   "status": "proved",
   "theorems": [
    "C75_failed_call_keeps_a_value"
   ],
   "note": ""
  },
  {
   "property": "C76",
   "status": "partial",
   "theorems": [
    "C76_stale_result_refuted",
    "C76_every_bad_weights_refuted"
   ],
   "note": "False of the code: refutation with a two-call history; the true part is C17."
  },
  {
   "property": "C77",
   "status": "partial",
   "theorems": [
    "C77_weighted_raises_refuted"
   ],
   "note": "False of the code: raises ZeroDivisionError for all such catalogues; the true part is C21."
  },
  {
   "property": "C78",
   "status": "partial",
   "theorems": [
    "C78_equal_weights_refuted",
    "C78_every_common_weight_refuted"
   ],
   "note": "False of the code: weights (2,2) on magnitudes (1,2) give a smaller std. Unit and integer weights: C24."
  },
  {
   "property": "C79",
   "status": "partial",
   "theorems": [
    "C79_return_n_alone_refuted"
   ],
   "note": "False of the code: TypeError for every input (proved)."
  },
  {
   "property": "C80",
   "status": "partial",
   "theorems": [
    "C80_times_not_emptied_refuted"
   ],
   "note": "False of the code: times keep all complete events (proved for all such catalogues)."
  },
  {
   "property": "C81",
   "status": "partial",
   "theorems": [
    "C81_mag_max_zero_refuted"
   ],
   "note": "False of the code (proved): mag_max=0 is falsy and is ignored."
  },
  {
   "property": "C82",
   "status": "partial",
   "theorems": [
    "C82_zero_edge_refuted",
    "C82_always_refuted"
   ],
   "note": "False of the code (proved): consequence of C81 in dithering."
  },
  {
   "property": "C83",
   "status": "partial",
   "theorems": [
    "C83_failed_call_overwrites_refuted"
   ],
   "note": "False of the code (proved): m_ref without b_value raises after _estimate has overwritten the a-value; the true part is C75."
  },
  {
   "property": "C84",
   "status": "proved",
   "theorems": [
    "C84_bounded"
   ],
   "note": ""
  },
  {
   "property": "C85",
   "status": "proved",
   "theorems": [
    "C85_x_variable_sorts",
    "C85_order_irrelevant"
   ],
   "note": ""
  },
  {
   "property": "C86",
   "status": "partial",
   "theorems": [
    "C86_single_value_sample_refuted",
    "C86_every_single_value_refuted"
   ],
   "note": "False of the code: for every one-valued sample, with warnings on (0, 1, []) is returned without a test, with warnings off the test is done; a witness where mc changes."
  },
  {
   "property": "C87",
   "status": "partial",
   "theorems": [
    "C87_nothing_to_test_refuted"
   ],
   "note": "False of the code: ValueError with warnings on, (None, ...) with warnings off, for every sample (proved)."
  },
  {
   "property": "C88",
   "status": "partial",
   "theorems": [
    "C88_one_step_range_refuted"
   ],
   "note": "False of the code: mcs_test[:-steps+1] is empty for one step: nothing is tested, ValueError with warnings on, None with warnings off (proved for all grid samples). True part: C43, C45."
  },
  {
   "property": "C89",
   "status": "partial",
   "theorems": [
    "C89_zero_is_none_refuted",
    "C89_always_refuted"
   ],
   "note": "False of the code: `if best_mc` treats 0.0 as None (proved in general and on a catalogue)."
  },
  {
   "property": "C90",
   "status": "partial",
   "theorems": [
    "C90_nan_first_refuted",
    "C90_always_refuted"
   ],
   "note": "False of the code, for all samples and in every arithmetic: min(diff_bs) stays NaN if the first difference is NaN, and nothing is returned. True part: C45."
  },
  {
   "property": "C91",
   "status": "partial",
   "theorems": [
    "C91_average_in_doubles_refuted"
   ],
   "note": "False of the code: np.arange(0.6, 1.1, 0.1) has 6 elements, the sum of 6 b-values is divided by 5 (witness in the model's doubles). True part in exact arithmetic: C45_value."
  },
  {
   "property": "C92",
   "status": "partial",
   "theorems": [
    "C92_exactly_refuted",
    "C92_gardner_knopoff_time_refuted"
   ],
   "note": "False of the code (and of the published formula): the time window drops at magnitude 6.5. True part: C49."
  },
  {
   "property": "C93",
   "status": "partial",
   "theorems": [
    "C93_zero_cutoff_refuted"
   ],
   "note": "False of the code: `if self.time_cutoff` treats 0 as no cutoff (proved for all magnitudes). True part: C49_cutoff."
  },
  {
   "property": "C94",
   "status": "partial",
   "theorems": [
    "C94_gruenthal_negative_refuted"
   ],
   "note": "False of the code: the time window is NaN for every magnitude below -0.62/17.32 (about -0.036), the distance window below -0.037/1.02. True part (same theorem): positive windows for all larger magnitudes."
  },
  {
   "property": "C95",
   "status": "proved",
   "theorems": [
    "C95_row_order",
    "C95_clusters"
   ],
   "note": ""
  },
  {
   "property": "C96",
   "status": "partial",
   "theorems": [
    "C96_batch_size_zero_refuted"
   ],
   "note": "False of the code: with a server that has an event every number of steps is exceeded (proved)."
  },
  {
   "property": "C97",
   "status": "partial",
   "theorems": [
    "C97_limit_with_batches_refuted"
   ],
   "note": "False of the code: the limit parameter is overwritten by the batch size."
  },
  {
   "property": "C98",
   "status": "proved",
   "theorems": [
    "C98_parameters",
    "C98_same_filters"
   ],
   "note": ""
  },
  {
   "property": "C99",
   "status": "partial",
   "theorems": [
    "C99_inner_white_space_refuted",
    "C99_every_text_refuted"
   ],
   "note": "False of the code: each piece is stripped before it is joined. Theorem for every pair of words (the blank between them is lost if the reader cuts there), and a witness."
  },
  {
   "property": "C100",
   "status": "proved",
   "theorems": [
    "C100_origin"
   ],
   "note": ""
  },
  {
   "property": "C101",
   "status": "proved",
   "theorems": [
    "C101_weichert_is_mle"
   ],
   "note": "The minimiser is a parameter, assumed to find a global minimum when there is one (Nelder-Mead itself is not modelled; see C102). Labels of the bins (rounding inside pd.cut) are an arbitrary function. The non-vacuity example of the minimiser uses constructive_indefinite_description."
  },
  {
   "property": "C102",
   "status": "proved",
   "theorems": [
    "C102_one_minimum"
   ],
   "note": ""
  },
  {
   "property": "C103",
   "status": "proved",
   "theorems": [
    "C103_kijko_smit_std",
    "C103_weichert_std"
   ],
   "note": ""
  },
  {
   "property": "C104",
   "status": "proved",
   "theorems": [
    "C104_rows"
   ],
   "note": ""
  },
  {
   "property": "C105",
   "status": "partial",
   "theorems": [
    "C105_mag_max_refuted",
    "C105_empty_bins_refuted"
   ],
   "note": "False of the code: only occupied bins enter; any larger mag_max gives the same result (all inputs), and a catalogue with an empty bin whose estimate is not the maximiser over all bins."
  },
  {
   "property": "C106",
   "status": "partial",
   "theorems": [
    "C106_mag_max_refuted",
    "C106_at_mag_max"
   ],
   "note": "False of the code: AttributeError for every catalogue with a complete event in the last bin; for bins wider than 0.02 this happens at magnitude = mag_max in the centre of a bin."
  },
  {
   "property": "C107",
   "status": "partial",
   "theorems": [
    "C107_empty_period_refuted"
   ],
   "note": "False of the code: all four outputs are NaN for every such catalogue."
  },
  {
   "property": "C108",
   "status": "partial",
   "theorems": [
    "C108_rate_refuted"
   ],
   "note": "False of the code: durations overlap; the rate is strictly too low for every table with at least two rows."
  },
  {
   "property": "C109",
   "status": "partial",
   "theorems": [
    "C109_a_value_refuted"
   ],
   "note": "False of the code: 10^a is larger by 10^(b*delta_m/2) for all inputs. Weichert's a-value: C110."
  },
  {
   "property": "C110",
   "status": "proved",
   "theorems": [
    "C110_weichert_a"
   ],
   "note": ""
  },
  {
   "property": "C111",
   "status": "partial",
   "theorems": [
    "C111_alignment_refuted"
   ],
   "note": "False of the code: the assertion tests a non-empty list, which is always true."
  },
  {
   "property": "C112",
   "status": "proved",
   "theorems": [
    "C112_weichert_rate"
   ],
   "note": ""
  },
  {
   "property": "C113",
   "status": "proved",
   "theorems": [
    "C113_runs_iff_columns_present"
   ],
   "note": ""
  },
  {
   "property": "C114",
   "status": "partial",
   "theorems": [
    "C114_fraction_kept_refuted"
   ],
   "note": "False of the code: everything after the decimal point is cut, so all instants of a second are parsed to the same whole second (proved for all dates)."
  },
  {
   "property": "C115",
   "status": "proved",
   "theorems": [
    "C115_parsed_dates_exist",
    "C115_missing_and_dates"
   ],
   "note": ""
  },
  {
   "property": "C116",
   "status": "partial",
   "theorems": [
    "C116_offset_without_fraction_refuted"
   ],
   "note": "False of the code: for every date an offset directly after the seconds raises ValueError (after a fraction it is ignored, C72)."
  },
  {
   "property": "C117",
   "status": "proved",
   "theorems": [
    "C117_reference_is_origin",
    "C117_reference_in_external_system",
    "C117_reference_shifts"
   ],
   "note": ""
  },
  {
   "property": "C118",
   "status": "partial",
   "theorems": [
    "C118_box_functions_compose_refuted",
    "C118_every_polygon_refuted"
   ],
   "note": "False of the code: polygon_to_bounding_box returns (minx, miny, maxx, maxy) but bounding_box_to_polygon takes (x_min, x_max, y_min, y_max); C64 proves both functions right on their own."
  },
  {
   "property": "C119",
   "status": "partial",
   "theorems": [
    "C119_empty_catalogue_refuted"
   ],
   "note": "False of the code: DataFrame.apply on an empty frame returns a frame, and assigning it to one column raises ValueError."
  },
  {
   "property": "C120",
   "status": "partial",
   "theorems": [
    "C120_equal_magnitudes_refuted"
   ],
   "note": "False of the code: 0/0 makes every size NaN (with a warning only). Theorem: for every list of equal magnitudes all sizes are NaN."
  },
  {
   "property": "C121",
   "status": "proved",
   "theorems": [
    "C121_points",
    "C121_points_weighted",
    "C121_histogram"
   ],
   "note": ""
  },
  {
   "property": "C122",
   "status": "proved",
   "theorems": [
    "C122_line_through_first_point",
    "C122_default_mc"
   ],
   "note": ""
  },
  {
   "property": "C123",
   "status": "partial",
   "theorems": [
    "C123_nan_with_weights_refuted"
   ],
   "note": "False of the code: the magnitudes lose their NaN entries, the weights do not, so that the histogram raises ValueError. Theorem: for every such input ValueError is raised."
  },
  {
   "property": "C124",
   "status": "partial",
   "theorems": [
    "C124_weighted_line_refuted",
    "C124_every_weighted_line_refuted"
   ],
   "note": "False of the code: the line starts at the unweighted number of complete magnitudes. Theorem: a weighted example where the line starts away from the point."
  },
  {
   "property": "C125",
   "status": "proved",
   "theorems": [
    "C125_cumulative_counts",
    "C125_defaults",
    "C125_errors"
   ],
   "note": ""
  },
  {
   "property": "C126",
   "status": "proved",
   "theorems": [
    "C126_completeness_line",
    "C126_no_line"
   ],
   "note": ""
  },
  {
   "property": "C127",
   "status": "partial",
   "theorems": [
    "C127_arguments_changed_refuted",
    "C127_second_call_fails_refuted"
   ],
   "note": "False of the code: both lists of the caller grow by one element with each call (the years are replaced by a new list first), and with years the repeated call fails. Theorems: for every successful call."
  },
  {
   "property": "C128",
   "status": "proved",
   "theorems": [
    "C128_points_are_estimates"
   ],
   "note": ""
  },
  {
   "property": "C129",
   "status": "proved",
   "theorems": [
    "C129_series",
    "C129_series_by_index",
    "C129_scalar_mc",
    "C129_errors"
   ],
   "note": ""
  },
  {
   "property": "C130",
   "status": "proved",
   "theorems": [
    "C130_points_or_nan",
    "C130_points",
    "C130_scalar_mc",
    "C130_x_variable"
   ],
   "note": ""
  },
  {
   "property": "C131",
   "status": "proved",
   "theorems": [
    "C131_extent",
    "C131_succeeds",
    "C131_country"
   ],
   "note": ""
  },
  {
   "property": "C132",
   "status": "proved",
   "theorems": [
    "C132_lighter",
    "C132_darker"
   ],
   "note": ""
  },
  {
   "property": "C133",
   "status": "proved",
   "theorems": [
    "C133_metadata_survive",
    "C133_n_catalogs_survives",
    "C133_n_catalogs_lost"
   ],
   "note": ""
  },
  {
   "property": "C134",
   "status": "proved",
   "theorems": [
    "C134_first_decides"
   ],
   "note": ""
  },
  {
   "property": "C135",
   "status": "proved",
   "theorems": [
    "C135_strip",
    "C135_strip_needs_columns"
   ],
   "note": ""
  },
  {
   "property": "C136",
   "status": "proved",
   "theorems": [
    "C136_drop_uncertainties",
    "C136_drop_ids",
    "C136_from_dict"
   ],
   "note": ""
  },
  {
   "property": "C137",
   "status": "partial",
   "theorems": [
    "C137_forecast_strip_refuted",
    "C137_always_refuted"
   ],
   "note": "False of the code: __finalize__ copies the instance's list of required columns, so a ForecastCatalog derived from a Catalog by adding catalog_id loses catalog_id in strip. Theorem: such an example; C135 proves the claim for objects made by ForecastCatalog(...)."
  },
  {
   "property": "C138",
   "status": "proved",
   "theorems": [
    "C138_a_omitted_is_attribute",
    "C138_a_explicit_wins",
    "C138_a_stored_b_unused",
    "C138_a_missing",
    "C138_a_effects"
   ],
   "note": ""
  },
  {
   "property": "C139",
   "status": "proved",
   "theorems": [
    "C139_maxc_effects",
    "C139_stability_effects",
    "C139_stability_binning",
    "C139_ks_effects",
    "C139_ks_binning_and_b",
    "C139_workflow_maxc",
    "C139_none_found"
   ],
   "note": ""
  },
  {
   "property": "C140",
   "status": "proved",
   "theorems": [
    "C140_b_classic",
    "C140_b_classic_arguments",
    "C140_b_positive",
    "C140_b_dmc_column",
    "C140_a_needs_times",
    "C140_a_positive",
    "C140_a_classic",
    "C140_a_classic_arguments"
   ],
   "note": ""
  },
  {
   "property": "C141",
   "status": "proved",
   "theorems": [
    "C141_plot_cum_fmd",
    "C141_plot_cum_count",
    "C141_plot_fmd",
    "C141_need_columns",
    "C141_plot_in_space",
    "C141_plot_mags_in_time",
    "C141_plot_mc_vs_b",
    "C141_more_columns"
   ],
   "note": ""
  },
  {
   "property": "C142",
   "status": "proved",
   "theorems": [
    "C142_texts"
   ],
   "note": ""
  },
  {
   "property": "C143",
   "status": "partial",
   "theorems": [
    "C143_unknown_bounds_refuted"
   ],
   "note": "False of the code: numpy.unique with axis=0 ignores equal_nan, so each row with an unknown bound is a cell of its own. Theorem: for every such grid all numbers are different."
  },
  {
   "property": "C144",
   "status": "proved",
   "theorems": [
    "C144_add_time_index",
    "C144_add_time_index_errors",
    "C144_concat",
    "C144_concat_indexed",
    "C144_concat_errors"
   ],
   "note": ""
  },
  {
   "property": "C145",
   "status": "partial",
   "theorems": [
    "C145_selection_renumbers",
    "C145_stable_numbers_refuted"
   ],
   "note": "False of the code: every pandas operation renumbers the rows that are left. Theorems: a selection of one cell gets number 0; an example where the number changes."
  },
  {
   "property": "C146",
   "status": "proved",
   "theorems": [
    "C146_statistics_by_cell",
    "C146_statistics_by_level"
   ],
   "note": ""
  },
  {
   "property": "C147",
   "status": "partial",
   "theorems": [
    "C147_bounds_of_summary",
    "C147_bounds_kept",
    "C147_bounds_refuted"
   ],
   "note": "False of the code: the bounds are aggregated like every column. Theorems: what the bound columns hold for every function; they are kept by every function that returns a constant's value; a counterexample for sum."
  },
  {
   "property": "C148",
   "status": "partial",
   "theorems": [
    "C148_unknown_bound_refuted",
    "C148_exact_condition"
   ],
   "note": "False of the code: dropna removes the depth columns, then groupby raises KeyError. Theorem: for every grid with a wholly unknown bound. C148_exact_condition: every grid without an index is summarised if and only if each bound is known in some row."
  },
  {
   "property": "C149",
   "status": "proved",
   "theorems": [
    "C149_class_and_attributes"
   ],
   "note": ""
  },
  {
   "property": "C150",
   "status": "proved",
   "theorems": [
    "C150_round_trip",
    "C150_secondary_ids"
   ],
   "note": "XML escaping is not modelled: the template escapes nothing (autoescape is off for .j2 files), so texts with & or < give a malformed document. Numbers are their texts (repr round trip trusted)."
  },
  {
   "property": "C151",
   "status": "proved",
   "theorems": [
    "C151_exported_events"
   ],
   "note": ""
  },
  {
   "property": "C152",
   "status": "partial",
   "theorems": [
    "C152_secondary_ids_refuted",
    "C152_always_refuted"
   ],
   "note": "False of the code, for every catalogue: the id columns are created in the copy, but the list of secondary columns comes from the original; the document has publicID=\"\" for a secondary magnitude whose id column is missing."
  },
  {
   "property": "C153",
   "status": "partial",
   "theorems": [
    "C153_missing_mode_refuted",
    "C153_missing_type_refuted"
   ],
   "note": "False of the code: a missing evaluation mode is read back as the text nan (or None), and a missing type gives a new column magnitude_nan or magnitude_None."
  },
  {
   "property": "C154",
   "status": "partial",
   "theorems": [
    "C154_uncertainties_lost_refuted"
   ],
   "note": "False of the code: the template writes value and uncertainty only (no uncertainty for the time). Theorem: for every catalogue these columns are absent after the round trip."
  },
  {
   "property": "C155",
   "status": "partial",
   "theorems": [
    "C155_missing_ids_refuted"
   ],
   "note": "False of the code: ids are created only if the whole column is missing; a missing cell is written as nan. Theorem for every catalogue."
  },
  {
   "property": "C156",
   "status": "proved",
   "theorems": [
    "C156_forecast_documents"
   ],
   "note": ""
  },
  {
   "property": "C157",
   "status": "proved",
   "theorems": [
    "C157_secondary_kept"
   ],
   "note": ""
  },
  {
   "property": "C158",
   "status": "proved",
   "theorems": [
    "C158_exported_times",
    "C158_round_trip"
   ],
   "note": "Floating point is IEEE double, round to nearest even, through Flocq (its definitions only; axioms are those of Coq's real numbers)."
  },
  {
   "property": "C159",
   "status": "proved",
   "theorems": [
    "C159_imported_times"
   ],
   "note": "Years 1000 to 9999: pandas parses the text of year*10000+month*100+day, which is ambiguous for shorter years (not modelled)."
  },
  {
   "property": "C160",
   "status": "partial",
   "theorems": [
    "C160_fractions_lost",
    "C160_microseconds_kept_refuted"
   ],
   "note": "False of the code: one event before 1677 or after 2262 makes every event of the catalogue lose its fraction of a second. Theorem for every such catalogue, and a witness."
  },
  {
   "property": "C161",
   "status": "partial",
   "theorems": [
    "C161_numbers_only_refuted"
   ],
   "note": "False of the code: with numeric columns only, apply(axis=1) gives floats and datetime raises TypeError. Theorem for every such catalogue."
  },
  {
   "property": "C162",
   "status": "proved",
   "theorems": [
    "C162_exported_columns",
    "C162_exported_without_required_columns",
    "C162_exported_empty",
    "C162_imported_columns",
    "C162_imported_lengths",
    "C162_imported_without_time",
    "C162_imported_empty",
    "C162_columns_come_back"
   ],
   "note": ""
  },
  {
   "property": "C163",
   "status": "proved",
   "theorems": [
    "C163_impossible_dates_rejected"
   ],
   "note": ""
  },
  {
   "property": "C164",
   "status": "partial",
   "theorems": [
    "C164_impossible_times_rejected_refuted"
   ],
   "note": "False of the code: hours and minutes are added as durations, hour 24 becomes the next day. Theorem: accepted for every in-range row with an impossible time of day."
  },
  {
   "property": "C165",
   "status": "partial",
   "theorems": [
    "C165_weighted_std_raises_refuted"
   ],
   "note": "False of the code: ZeroDivisionError for every such sample."
  },
  {
   "property": "C166",
   "status": "partial",
   "theorems": [
    "C166_all_nan_raises_refuted"
   ],
   "note": "False of the code: ValueError for every such sample."
  },
  {
   "property": "C167",
   "status": "partial",
   "theorems": [
    "C167_coarse_sample_refuted"
   ],
   "note": "False of the code: ValueError for every such sample."
  },
  {
   "property": "C168",
   "status": "partial",
   "theorems": [
    "C168_below_mc_refuted"
   ],
   "note": "False of the code: for some draws ValueError, as soon as one used magnitude lies below mc."
  },
  {
   "property": "C169",
   "status": "partial",
   "theorems": [
    "C169_binning_test_zero_default_refuted"
   ],
   "note": "False of the code: ValueError for every sample whose range exceeds 1e-14, because the loop starts with bin width 1e-14, which bin_to_precision rejects."
  },
  {
   "property": "C170",
   "status": "proved",
   "theorems": [
    "C170_result_is_the_decimal",
    "C170_half_way_goes_up"
   ],
   "note": "Doubles up to 1000, bin widths 0.0001 to 10 with at most ten decimals. The statement on edges reaches 1000 bins from 0."
  },
  {
   "property": "C171",
   "status": "proved",
   "theorems": [
    "C171_idempotent",
    "C171_same_bin_same_double"
   ],
   "note": ""
  },
  {
   "property": "C172",
   "status": "proved",
   "theorems": [
    "C172_grid_is_accepted",
    "C172_accepted_is_a_grid"
   ],
   "note": "Completeness below magnitude 8 (C173 shows the bound is needed), soundness up to 100 with error 1e-11."
  },
  {
   "property": "C173",
   "status": "partial",
   "theorems": [
    "C173_large_magnitudes_rejected_refuted",
    "C173_no_estimate_refuted"
   ],
   "note": "False of the code: the magnitudes 7.4 and 8.2 with delta_m = 0.1 are rejected (the absolute tolerance 1e-15 is below the spacing of doubles from 8 on) and calculate raises ValueError. Proved in the model of double precision, for every mathematical library."
  },
  {
   "property": "C174",
   "status": "proved",
   "theorems": [
    "C174_complete_events",
    "C174_positive_differences",
    "C174_more_positive_differences"
   ],
   "note": ""
  },
  {
   "property": "C175",
   "status": "proved",
   "theorems": [
    "C175_fmd",
    "C175_every_event_counted_once"
   ],
   "note": "bin_position center, no weights; magnitudes up to 80 in size."
  },
  {
   "property": "C176",
   "status": "proved",
   "theorems": [
    "C176_classic_and_utsu",
    "C176_positive",
    "C176_more_positive",
    "C176_nine_digits"
   ],
   "note": "In IEEE double precision (F64.v); np.log with a relative error of 2^-51 and np.sum in any order are hypotheses (met by Example C176_example). Without weights."
  },
  {
   "property": "C177",
   "status": "proved",
   "theorems": [
    "C177_times_in_range",
    "C177_times_with_T",
    "C177_other_entries"
   ],
   "note": "Entries: missing, naive time objects, ISO texts all with or all without Z; other offsets are not modelled."
  },
  {
   "property": "C178",
   "status": "partial",
   "theorems": [
    "C178_independent_of_the_others_refuted"
   ],
   "note": "False of the code, for every such pair of times: one time out of range sends all rows to the fallback parser, which drops fractions."
  },
  {
   "property": "C179",
   "status": "partial",
   "theorems": [
    "C179_blank_refuted"
   ],
   "note": "False of the code, for every such column: the fallback parser needs T, ValueError."
  },
  {
   "property": "C180",
   "status": "proved",
   "theorems": [
    "C180_complete_events",
    "C180_maxc",
    "C180_maxc_then_estimate"
   ],
   "note": "np.sum in any order is a hypothesis (met by the example)."
  },
  {
   "property": "C181",
   "status": "partial",
   "theorems": [
    "C181_decimal_result_refuted"
   ],
   "note": "False of the code: whenever the fullest bin is 2.1 the result is 2.3000000000000003, above every magnitude 2.3."
  },
  {
   "property": "C182",
   "status": "proved",
   "theorems": [
    "C182_cum_fmd",
    "C182_unbinned"
   ],
   "note": "Without weights; fmd_bin = 0 as the literal 0."
  },
  {
   "property": "C183",
   "status": "proved",
   "theorems": [
    "C183_text"
   ],
   "note": "The plainest spelling; every other one is C216. Not modelled: document type declarations and references to characters from number 256 on (the model answers Beyond)."
  },
  {
   "property": "C184",
   "status": "proved",
   "theorems": [
    "C184_cut_off_file",
    "C184_complete_events",
    "C184_cut_off_string",
    "C184_empty_text"
   ],
   "note": ""
  },
  {
   "property": "C185",
   "status": "partial",
   "theorems": [
    "C185_silently_short_refuted"
   ],
   "note": "False of the code: parse_quakeml_file and parse_quakeml_response ignore the error 'no element found', so that a file or response cut off after any event is read as a shorter catalogue without an error."
  },
  {
   "property": "C186",
   "status": "proved",
   "theorems": [
    "C186_text_round_trip"
   ],
   "note": ""
  },
  {
   "property": "C187",
   "status": "partial",
   "theorems": [
    "C187_text_unreadable_refuted"
   ],
   "note": "False of the code: the template is named quakeml.j2, for which select_autoescape() does not escape; one event id with an & (the ids of the USGS have one) makes the whole file unreadable."
  },
  {
   "property": "C188",
   "status": "proved",
   "theorems": [
    "C188_escaped_text"
   ],
   "note": ""
  },
  {
   "property": "C189",
   "status": "proved",
   "theorems": [
    "C189_warning"
   ],
   "note": ""
  },
  {
   "property": "C190",
   "status": "proved",
   "theorems": [
    "C190_function_and_object",
    "C190_catalogue"
   ],
   "note": ""
  },
  {
   "property": "C191",
   "status": "proved",
   "theorems": [
    "C191_rectangle",
    "C191_country"
   ],
   "note": ""
  },
  {
   "property": "C192",
   "status": "proved",
   "theorems": [
    "C192_trimmed",
    "C192_spacing"
   ],
   "note": ""
  },
  {
   "property": "C193",
   "status": "proved",
   "theorems": [
    "C193_download",
    "C193_interrupted"
   ],
   "note": ""
  },
  {
   "property": "C194",
   "status": "partial",
   "theorems": [
    "C194_error_page_refuted",
    "C194_short_body_refuted"
   ],
   "note": "False of the code: get_events does not look at the status, and parse_quakeml_response ignores 'no element found'. Theorems: every answer with a well-formed body without events (an XHTML error page) gives an empty catalogue, and every body that ends after complete events gives these events, without an exception. True part: C193_interrupted."
  },
  {
   "property": "C195",
   "status": "partial",
   "theorems": [
    "C195_never_ends_refuted"
   ],
   "note": "False of the code: _exists_with_offset takes every answer with status 200 and a body for an event; with such a service the first loop never ends (proved for every number of steps)."
  },
  {
   "property": "C196",
   "status": "proved",
   "theorems": [
    "C196_b_warnings",
    "C196_a_warnings"
   ],
   "note": ""
  },
  {
   "property": "C197",
   "status": "proved",
   "theorems": [
    "C197_p_value",
    "C197_probability",
    "C197_conservative",
    "C197_conservative_is_larger",
    "C197_moments"
   ],
   "note": ""
  },
  {
   "property": "C198",
   "status": "proved",
   "theorems": [
    "C198_nearest_double",
    "C198_round_trip"
   ],
   "note": ""
  },
  {
   "property": "C199",
   "status": "proved",
   "theorems": [
    "C199_not_a_number",
    "C199_infinity",
    "C199_other_entries",
    "C199_too_large"
   ],
   "note": ""
  },
  {
   "property": "C200",
   "status": "proved",
   "theorems": [
    "C200_integers"
   ],
   "note": ""
  },
  {
   "property": "C201",
   "status": "partial",
   "theorems": [
    "C201_round_trip_refuted",
    "C201_relative_refuted"
   ],
   "note": "False of the code: pd.to_numeric uses at most 17 digits, and leading zeros count. Theorems: '0.30000000000000004' (str of 0.1 + 0.2) is read as 0.3; '0.00012345678901234567' is read with a relative error above 10^-13. True parts: C198, C202."
  },
  {
   "property": "C202",
   "status": "proved",
   "theorems": [
    "C202_accuracy",
    "C202_too_small"
   ],
   "note": ""
  },
  {
   "property": "C203",
   "status": "partial",
   "theorems": [
    "C203_ks_refuted",
    "C203_ks_raises_refuted",
    "C203_b_stability_refuted"
   ],
   "note": "False of the code: the weights are handed on unchanged with the events above the tested magnitude. Theorems: whenever the search returns, all events were complete at every tested magnitude; if one event lies below the smallest magnitude to test, it raises (every estimator, every arithmetic)."
  },
  {
   "property": "C204",
   "status": "partial",
   "theorems": [
    "C204_ks_refuted",
    "C204_b_stability_refuted",
    "C204_differs_refuted"
   ],
   "note": "False of the code: the first n times are used for the n complete events. Theorems: this holds for every call; and a catalogue of three events for which the own times give NaN and the code gives ln 2/ln 10, for every argsort. True part: C205."
  },
  {
   "property": "C205",
   "status": "proved",
   "theorems": [
    "C205_same_estimate",
    "C205_ks_times_in_order",
    "C205_b_stability_times_in_order"
   ],
   "note": ""
  },
  {
   "property": "C206",
   "status": "partial",
   "theorems": [
    "C206_refuted"
   ],
   "note": "False of the code: all weights are handed to the estimator with the events of each sub-sample. Theorem: with one weight per event and enough events for sub-samples the call always raises."
  },
  {
   "property": "C207",
   "status": "proved",
   "theorems": [
    "C207_rows_and_columns",
    "C207_no_records",
    "C207_class",
    "C207_succeeds"
   ],
   "note": ""
  },
  {
   "property": "C208",
   "status": "proved",
   "theorems": [
    "C208_texts",
    "C208_other_columns",
    "C208_times",
    "C208_numbers",
    "C208_no_numbers"
   ],
   "note": ""
  },
  {
   "property": "C209",
   "status": "proved",
   "theorems": [
    "C209_idempotent",
    "C209_dropping_columns"
   ],
   "note": ""
  },
  {
   "property": "C210",
   "status": "partial",
   "theorems": [
    "C210_without_magnitude_refuted"
   ],
   "note": "False of the code: drop_uncertainties returns a plain DataFrame if there is no column magnitude, and the following drop_ids raises AttributeError. Theorem: for every such list of records with readable times."
  },
  {
   "property": "C211",
   "status": "proved",
   "theorems": [
    "C211_file_or_text",
    "C211_any_spelling",
    "C211_missing_file"
   ],
   "note": ""
  },
  {
   "property": "C212",
   "status": "partial",
   "theorems": [
    "C212_empty_path_refuted"
   ],
   "note": "False of the code: the string parser returns no records for an empty text, so that the result is an empty catalogue with the default columns. Theorem: for all options."
  },
  {
   "property": "C213",
   "status": "proved",
   "theorems": [
    "C213_round_trip"
   ],
   "note": ""
  },
  {
   "property": "C214",
   "status": "partial",
   "theorems": [
    "C214_texts_for_numbers_refuted"
   ],
   "note": "False of the code: __init__ converts a fixed list of columns. Theorem: in all columns of uncertainties, secondary magnitudes and depthphasecount every entry is the text of the document."
  },
  {
   "property": "C215",
   "status": "proved",
   "theorems": [
    "C215_download"
   ],
   "note": ""
  },
  {
   "property": "C216",
   "status": "proved",
   "theorems": [
    "C216_any_spelling",
    "C216_same_records"
   ],
   "note": "A processing instruction inside a text is passed to the handler as an interruption, so inside a text with inner white space it would lose that space (C99): excluded by the hypothesis on PI. Document type declarations are not modelled."
  },
  {
   "property": "C217",
   "status": "proved",
   "theorems": [
    "C217_line_breaks"
   ],
   "note": ""
  },
  {
   "property": "C218",
   "status": "proved",
   "theorems": [
    "C218_scaling",
    "C218_equal_weights",
    "C218_whole_weights",
    "C218_wrong_length",
    "C218_one_valued",
    "C218_distance_between_0_and_1"
   ],
   "note": "Weights as real numbers (exact arithmetic). The equality of a whole weight with repetition is for given synthetic distances: without them the number of simulated events is the length of the sample."
  },
  {
   "property": "C219",
   "status": "proved",
   "theorems": [
    "C219_only_dates",
    "C219_exactly"
   ],
   "note": "Characters below number 256, as everywhere in the date model (Python's \\d also accepts digits of other scripts)."
  },
  {
   "property": "C220",
   "status": "partial",
   "theorems": [
    "C220_instruction_in_a_text_refuted"
   ],
   "note": "False of the code: the text is passed to the handler in two pieces, and each is stripped. Theorem: two spellings of one document, one with an instruction, give \"quarry blast\" and \"quarryblast\"."
  },
  {
   "property": "C221",
   "status": "partial",
   "theorems": [
    "C221_every_document_is_answered_refuted"
   ],
   "note": "False of the code: a text after an origin outside any event raises IndexError. Theorem: for all parameters there is such a well-formed document."
  },
  {
   "property": "C222",
   "status": "proved",
   "theorems": [
    "C222_classic",
    "C222_plain"
   ],
   "note": "Grids with usual_width (0.0001 to 10). The logarithm of the platform is assumed accurate to 2^-51 (or 10^-30), met by a correctly rounded one (Example). The positive a-values are not covered."
  },
  {
   "property": "C223",
   "status": "proved",
   "theorems": [
    "C223_missing_magnitudes",
    "C223_records",
    "C223_maxc_then_b",
    "C223_document",
    "C223_document_maxc",
    "C223_download",
    "C223_round_trip"
   ],
   "note": "The composition of C184/C211/C216, C207-C208, C215, C213 with C176 and C180: from the text of a document to the number. Premise: the table could be made (C207_succeeds says when). With mc from maximum curvature the selection of events is stated here and the error of the b-value in C224. Grids with usual_width; sums in any order and an accurate logarithm of the platform are assumed (met by a concrete library, Example)."
  },
  {
   "property": "C224",
   "status": "proved",
   "theorems": [
    "C224_near_mc",
    "C224_maxc_then_b",
    "C224_records",
    "C224_document"
   ],
   "note": "Stated for any mc within 10^-14 of the grid (C224_near_mc), for a catalogue whose column magnitude holds grid decimals and missing values (C224_maxc_then_b), for records and for documents. The error bound for Classic assumes at most 10^9 * delta_m magnitudes; the bound grows with n / delta_m because one ulp of mc shifts every difference the same way. Without weights."
  },
  {
   "property": "C225",
   "status": "proved",
   "theorems": [
    "C225_weighted",
    "C225_catalogue"
   ],
   "note": "C176 with weights: np.average as sum(w*x)/sum(w), the sums in any order. mc exactly on the grid, no missing magnitudes. The exactness of the selection is part of the statement (used = indices at or above kc)."
  },
  {
   "property": "C226",
   "status": "proved",
   "theorems": [
    "C226_default_numbers",
    "C226_default_numbers_double",
    "C226_reasonable",
    "C226_every_point_estimated"
   ],
   "note": "The sizes are the np.linspace values truncated; n_m = 0 in an array (numpy division) is not modelled."
  },
  {
   "property": "C227",
   "status": "partial",
   "theorems": [
    "C227_large_min_num_refuted",
    "C227_few_events_refuted"
   ],
   "note": "False of the code: with fewer than 225 complete events the size 15 is chosen and its point is NaN (as are all sizes above a fifteenth of the events); with min_num above 15 the size 15 makes b_significant_1D raise ValueError. C226 states when the default works."
  },
  {
   "property": "C228",
   "status": "partial",
   "theorems": [
    "C228_list_refuted",
    "C228_same_without_marker"
   ],
   "note": "False of the code: n_ms[p < p_threshold] raises TypeError for a list as soon as one point is significant (the docstring asks for a list). Without a significant point the pictures agree (C228_same_without_marker)."
  },
  {
   "property": "C229",
   "status": "proved",
   "theorems": [
    "C229_markers",
    "C229_outside_the_band",
    "C229_points"
   ],
   "note": "Distribution function and quantile are any strictly increasing Phi and its inverse, as scipy's norm in exact arithmetic. A point below the band (significantly small MAC) is not marked although it is outside the shaded interval."
  },
  {
   "property": "C230",
   "status": "proved",
   "theorems": [
    "C230_no_window",
    "C230_refused",
    "C230_declustered"
   ],
   "note": "C230_no_window holds for every window function; C230_declustered for the windows of the package over exact real numbers. pd.Timedelta(days=t) is modelled as ValueError for NaN (pandas converts the nanoseconds with int()); its overflow for windows of 292 years and more is not modelled."
  },
  {
   "property": "C231",
   "status": "proved",
   "theorems": [
    "C231_no_markup_refused"
   ],
   "note": "About the model of expat (well-formedness rules for Latin-1 characters), as C183-C185; names may use the letters of Latin-1."
  },
  {
   "property": "C232",
   "status": "proved",
   "theorems": [
    "C232_mainshocks_stay"
   ],
   "note": "With the windows and the distance of the package, over exact real numbers. Without a new index the second run fails or mixes rows up: C48."
  },
  {
   "property": "C233",
   "status": "proved",
   "theorems": [
    "C233_time_shift"
   ],
   "note": ""
  },
  {
   "property": "C234",
   "status": "proved",
   "theorems": [
    "C234_moved_epicentres",
    "C234_longitude_shift"
   ],
   "note": ""
  }
 ]
}