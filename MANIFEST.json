{"claims": [
  {"property": "C01", "status": "proved", "theorems": ["C01_one_dataset"], "note": ""},
  {"property": "C02", "status": "proved", "theorems": ["C02_two_d_round_trip"], "note": ""},
  {"property": "C03", "status": "proved", "theorems": ["C03_ragged"], "note": ""},
  {"property": "C04", "status": "proved", "theorems": ["C04_errors_one_dataset", "C04_errors_rows"], "note": ""},
  {"property": "C05", "status": "proved", "theorems": ["C05_mean", "C05_mean_ignores_missing", "C05_mean_all_missing", "C05_mean_exact"], "note": ""},
  {"property": "C06", "status": "proved", "theorems": ["C06_normalised_times"], "note": ""},
  {"property": "C07", "status": "proved", "theorems": ["C07_median_time"], "note": ""},
  {"property": "C08", "status": "proved", "theorems": ["C08_max_time", "C08_default_lag_range", "C08_max_lag_largest"], "note": ""},
  {"property": "C09", "status": "proved", "theorems": ["C09_normalised_data", "C09_missing_stays_missing", "C09_sum_zero_exact"], "note": ""},
  {"property": "C10", "status": "proved", "theorems": ["C10_lag_resolution", "C10_single_point"], "note": ""},
  {"property": "C11", "status": "proved", "theorems": ["C11_returned_lags"], "note": ""},
  {"property": "C12", "status": "proved", "theorems": ["C12_increasing"], "note": ""},
  {"property": "C13", "status": "proved", "theorems": ["C13_zero_iff", "C13_default"], "note": ""},
  {"property": "C14", "status": "proved", "theorems": ["C14_default_exact", "C14_default_binary64", "C14_in_bounds_exact", "C14_in_bounds_binary64", "C14_unbounded_refuted"], "note": ""},
  {"property": "C15", "status": "proved", "theorems": ["C15_in_bounds", "C15_exact_condition", "C15_room"], "note": ""},
  {"property": "C16", "status": "proved", "theorems": ["C16_terminates", "C16_stuck", "C16_terminates_always"], "note": ""},
  {"property": "C17", "status": "proved", "theorems": ["C17_natural_count", "C17_natural_retained"], "note": ""},
  {"property": "C18", "status": "proved", "theorems": ["C18_nearest", "C18_integer_abs_refuted"], "note": ""},
  {"property": "C19", "status": "proved", "theorems": ["C19_monotone"], "note": ""},
  {"property": "C20", "status": "proved", "theorems": ["C20_offsets_natural", "C20_offsets_fast", "C20_checked_build", "C20_checked_empty"], "note": ""},
  {"property": "C21", "status": "proved", "theorems": ["C21_fractional", "C21_fractional_squared", "C21_gaussian", "C21_exact_exp", "C21_rounded_exp", "C21_gaussian_tiny_alpha_refuted", "C21_applied", "C21_weights_in_call"], "note": ""},
  {"property": "C22", "status": "proved", "theorems": ["C22_decreasing", "C22_decreasing_gaussian", "C22_strict_exact"], "note": ""},
  {"property": "C23", "status": "proved", "theorems": ["C23_zero_lag", "C23_zero_lag_exact", "C23_zero_lag_one", "C23_zero_lag_binary64", "C23_always_one_refuted"], "note": ""},
  {"property": "C24", "status": "proved", "theorems": ["C24_poison", "C24_poison_nonpositive"], "note": ""},
  {"property": "C25", "status": "proved", "theorems": ["C25_constant", "C25_constant_exact", "C25_one_point"], "note": ""},
  {"property": "C26", "status": "proved", "theorems": ["C26_grid_value", "C26_default_call"], "note": ""},
  {"property": "C27", "status": "proved", "theorems": ["C27_grid_value_negative", "C27_symmetric_refuted"], "note": ""},
  {"property": "C28", "status": "proved", "theorems": ["C28_grid_bound", "C28_any_bound", "C28_negative_lag_refuted", "C28_irregular_refuted"], "note": ""},
  {"property": "C29", "status": "proved", "theorems": ["C29_affine", "C29_any_values_refuted"], "note": ""},
  {"property": "C30", "status": "proved", "theorems": ["C30_shift", "C30_scale", "C30_integer_abs_refuted", "C30_binary64_shift_refuted"], "note": ""},
  {"property": "C31", "status": "proved", "theorems": ["C31_by_rows", "C31_alone"], "note": ""},
  {"property": "C32", "status": "proved", "theorems": ["C32_errors", "C32_errors_rows"], "note": ""},
  {"property": "C33", "status": "proved", "theorems": ["C33_shape"], "note": ""},
  {"property": "C34", "status": "proved", "theorems": ["C34_paths_agree"], "note": ""},
  {"property": "C35", "status": "proved", "theorems": ["C35_empty_range", "C35_empty_range_methods"], "note": ""},
  {"property": "C36", "status": "proved", "theorems": ["C36_never_a_result", "C36_selection_KeyError", "C36_weight_KeyError", "C36_readme"], "note": ""},
  {"property": "C37", "status": "proved", "theorems": ["C37_returned_correlator", "C37_again", "C37_as_fresh", "C37_room_lost_refuted"], "note": ""},
  {"property": "C38", "status": "proved", "theorems": ["C38_consistent", "C38_after_clear"], "note": ""},
  {"property": "C39", "status": "proved", "theorems": ["C39_fast_selection"], "note": ""},
  {"property": "C40", "status": "proved", "theorems": ["C40_fast_negative_selection", "C40_fast_negative_value"], "note": ""},
  {"property": "C41", "status": "proved", "theorems": ["C41_fast_zero_selection", "C41_fast_zero_value"], "note": ""},
  {"property": "C42", "status": "proved", "theorems": ["C42_skipped_lines", "C42_no_data"], "note": ""},
  {"property": "C43", "status": "proved", "theorems": ["C43_two_columns", "C43_three_columns", "C43_last_newline"], "note": ""},
  {"property": "C44", "status": "proved", "theorems": ["C44_no_error_column", "C44_error_column"], "note": ""},
  {"property": "C45", "status": "proved", "theorems": ["C45_numbers", "C45_rows", "C45_float_rows", "C45_column_array", "C45_errors_numbers", "C45_errors_rows", "C45_type_error", "C45_errors_type_error", "C45_other_calls", "C45_rows_refuted", "C45_file", "C45_flat", "C45_nested", "C45_errors_flat", "C45_errors_float_rows", "C45_errors_nested"], "note": ""},
  {"property": "C46", "status": "proved", "theorems": ["C46_accuracy"], "note": ""},
  {"property": "C47", "status": "proved", "theorems": ["C47_value"], "note": ""},
  {"property": "C48", "status": "proved", "theorems": ["C48_extra_columns", "C48_one_point_per_line_refuted"], "note": ""},
  {"property": "C49", "status": "proved", "theorems": ["C49_exact", "C49_nearest_double", "C49_doubles_read_back", "C49_overflow"], "note": ""},
  {"property": "C50", "status": "proved", "theorems": ["C50_every_file"], "note": ""},
  {"property": "C51", "status": "proved", "theorems": ["C51_numbers", "C51_type_error"], "note": ""},
  {"property": "C52", "status": "proved", "theorems": ["C52_filename", "C52_lists", "C52_no_data", "C52_empty_errors", "C52_any_filename", "C52_array_filename"], "note": ""},
  {"property": "C53", "status": "proved", "theorems": ["C53_fractional", "C53_fractional_squared", "C53_gaussian", "C53_rounded_exp"], "note": ""},
  {"property": "C54", "status": "proved", "theorems": ["C54_any_history", "C54_reuse", "C54_reuse_other", "C54_offsets_twice", "C54_weights_twice", "C54_after_exception"], "note": ""},
  {"property": "C55", "status": "proved", "theorems": ["C55_whole", "C55_fraction", "C55_none", "C55_undefined", "C55_large"], "note": ""},
  {"property": "C56", "status": "proved", "theorems": ["C56_by_hand"], "note": ""},
  {"property": "C57", "status": "proved", "theorems": ["C57_fast_grid_value", "C57_fast_half", "C57_fast_default_call", "C57_same_as_natural_refuted"], "note": ""},
  {"property": "C58", "status": "proved", "theorems": ["C58_fast_call", "C58_fast_default_exact"], "note": ""},
  {"property": "C59", "status": "proved", "theorems": ["C59_lag_count", "C59_settings_fit"], "note": ""},
  {"property": "C60", "status": "proved", "theorems": ["C60_construction_exact", "C60_duplicate_stamps", "C60_nonfinite_stamps", "C60_unsorted_never_returns", "C60_unsorted_overrun", "C60_reversed"], "note": ""},
  {"property": "C61", "status": "proved", "theorems": ["C61_infinite_value", "C61_huge_value"], "note": ""},
  {"property": "C62", "status": "proved", "theorems": ["C62_negated_values"], "note": ""},
  {"property": "C63", "status": "proved", "theorems": ["C63_accuracy"], "note": ""},
  {"property": "C64", "status": "proved", "theorems": ["C64_mean_accuracy", "C64_mean_finite"], "note": ""},
  {"property": "C65", "status": "proved", "theorems": ["C65_finite"], "note": ""},
  {"property": "C66", "status": "proved", "theorems": ["C66_exact_lags", "C66_exact_pairs", "C66_exact_median"], "note": ""},
  {"property": "C67", "status": "proved", "theorems": ["C67_distance_to_exact"], "note": ""},
  {"property": "C68", "status": "proved", "theorems": ["C68_even_sampling"], "note": ""},
  {"property": "C69", "status": "proved", "theorems": ["C69_scaled_times", "C69_scaled_median"], "note": ""},
  {"property": "C70", "status": "proved", "theorems": ["C70_no_dangling", "C70_lifetime", "C70_lifetime_plain", "C70_needs_keep_alive"], "note": ""},
  {"property": "C71", "status": "proved", "theorems": ["C71_isolated", "C71_data", "C71_calls", "C71_calls_plain", "C71_own_calls"], "note": ""},
  {"property": "C72", "status": "proved", "theorems": ["C72_histories", "C72_never_hangs"], "note": ""},
  {"property": "C73", "status": "proved", "theorems": ["C73_normalised_only", "C73_exact_shift"], "note": ""},
  {"property": "C74", "status": "proved", "theorems": ["C74_scaled_values", "C74_any_values_refuted"], "note": ""},
  {"property": "C75", "status": "proved", "theorems": ["C75_integer_times", "C75_any_times_refuted"], "note": ""},
  {"property": "C76", "status": "proved", "theorems": ["C76_same_lag", "C76_smaller_max"], "note": ""},
  {"property": "C77", "status": "proved", "theorems": ["C77_exact", "C77_small", "C77_histories", "C77_any_size_refuted"], "note": ""},
  {"property": "C78", "status": "proved", "theorems": ["C78_reversed", "C78_negative_lags_refuted"], "note": ""},
  {"property": "C79", "status": "proved", "theorems": ["C79_sum", "C79_positive"], "note": ""},
  {"property": "C80", "status": "proved", "theorems": ["C80_nan", "C80_zero", "C80_infinite", "C80_opposite"], "note": ""},
  {"property": "C81", "status": "proved", "theorems": ["C81_leaks", "C81_same_histories", "C81_never_raises"], "note": ""},
  {"property": "C82", "status": "proved", "theorems": ["C82_rows", "C82_separators", "C82_crlf", "C82_last_newline", "C82_cr_refuted"], "note": ""},
  {"property": "C83", "status": "proved", "theorems": ["C83_concatenated", "C83_no_data", "C83_mixed_refuted"], "note": ""},
  {"property": "C84", "status": "proved", "theorems": ["C84_multiplicity"], "note": ""},
  {"property": "C85", "status": "proved", "theorems": ["C85_wide", "C85_narrow"], "note": ""},
  {"property": "C86", "status": "proved", "theorems": ["C86_offsets", "C86_weights_matter"], "note": ""},
  {"property": "C87", "status": "proved", "theorems": ["C87_fewer", "C87_all", "C87_none", "C87_beyond"], "note": ""},
  {"property": "C88", "status": "proved", "theorems": ["C88_construct", "C88_calls", "C88_negative", "C88_truncated", "C88_many_datasets", "C88_many_points", "C88_any_size_refuted"], "note": ""},
  {"property": "C89", "status": "proved", "theorems": ["C89_repeating", "C89_periods", "C89_alternating"], "note": ""},
  {"property": "C90", "status": "proved", "theorems": ["C90_line"], "note": ""},
  {"property": "C91", "status": "proved", "theorems": ["C91_factor", "C91_zero_lag"], "note": ""},
  {"property": "C92", "status": "proved", "theorems": ["C92_one_value", "C92_SACF", "C92_autocorrelation", "C92_ambiguous", "C92_bad_call", "C92_order", "C92_position_or_name", "C92_default", "C92_not_a_name", "C92_selection_object", "C92_weight_object"], "note": ""},
  {"property": "C93", "status": "proved", "theorems": ["C93_spike"], "note": ""},
  {"property": "C94", "status": "proved", "theorems": ["C94_sum_and_difference"], "note": ""},
  {"property": "C95", "status": "proved", "theorems": ["C95_values_close"], "note": ""},
  {"property": "C96", "status": "proved", "theorems": ["C96_nothing_contracted", "C96_same_outcome", "C96_accuracy", "C96_squared_weight", "C96_builds", "C96_bits_depend_on_build"], "note": ""},
  {"property": "C97", "status": "proved", "theorems": ["C97_call", "C97_operation", "C97_left_behind", "C97_retry", "C97_no_trace", "C97_objects_lost", "C97_iterator", "C97_enough_memory", "C97_lengths_refuted", "C97_iterator_refuted"], "note": ""},
  {"property": "C98", "status": "proved", "theorems": ["C98_cmake_missing", "C98_version_windows", "C98_version_elsewhere", "C98_commands", "C98_stops", "C98_directory", "C98_compilers", "C98_windows", "C98_same_twice"], "note": ""},
  {"property": "C99", "status": "proved", "theorems": ["C99_isolated", "C99_alone_one", "C99_untouched", "C99_progress", "C99_shared_history", "C99_shared_consistent", "C99_same_calculation", "C99_shared_refuted"], "note": ""},
  {"property": "C100", "status": "proved", "theorems": ["C100_uncut", "C100_left_behind", "C100_no_loss", "C100_part_done", "C100_histories", "C100_as_fresh", "C100_mixture_refuted"], "note": ""},
  {"property": "C101", "status": "proved", "theorems": ["C101_blocks", "C101_empty_block", "C101_read_error", "C101_cut_exists", "C101_first_points", "C101_directory", "C101_whole_lines", "C101_truncated_refuted", "C101_reported_refuted"], "note": ""},
  {"property": "C102", "status": "proved", "theorems": ["C102_lists", "C102_enough", "C102_outcomes", "C102_file", "C102_points", "C102_reported_refuted"], "note": ""},
  {"property": "C103", "status": "proved", "theorems": ["C103_least", "C103_least_binary64", "C103_three_points"], "note": ""},
  {"property": "C104", "status": "proved", "theorems": ["C104_seventeen_digits", "C104_fifteen_digits", "C104_sixteen_refuted", "C104_sixteen_times_refuted"], "note": ""},
  {"property": "C105", "status": "proved", "theorems": ["C105_later_calls", "C105_earlier_correlators", "C105_assignment", "C105_none", "C105_other_type", "C105_deleted", "C105_cycle_refuted"], "note": ""},
  {"property": "C106", "status": "proved", "theorems": ["C106_same_pairs", "C106_close", "C106_unconditional_refuted"], "note": ""},
  {"property": "C107", "status": "proved", "theorems": ["C107_nearest", "C107_value", "C107_decimal_refuted"], "note": ""},
  {"property": "C108", "status": "proved", "theorems": ["C108_same_outcome", "C108_bounds", "C108_exact", "C108_copies"], "note": ""},
  {"property": "C109", "status": "proved", "theorems": ["C109_orderings", "C109_mean", "C109_grid"], "note": ""},
  {"property": "C110", "status": "proved", "theorems": ["C110_value", "C110_close", "C110_lonely", "C110_binary64"], "note": ""},
  {"property": "C111", "status": "proved", "theorems": ["C111_rule", "C111_partner", "C111_unique"], "note": ""},
  {"property": "C112", "status": "proved", "theorems": ["C112_pairs", "C112_value", "C112_gap", "C112_less_refuted", "C112_binary64"], "note": ""},
  {"property": "C113", "status": "proved", "theorems": ["C113_pairs", "C113_value", "C113_wrapped", "C113_half"], "note": ""},
  {"property": "C114", "status": "proved", "theorems": ["C114_mean", "C114_grid", "C114_circular"], "note": ""},
  {"property": "C115", "status": "proved", "theorems": ["C115_pairs", "C115_value", "C115_close_refuted"], "note": ""},
  {"property": "C116", "status": "proved", "theorems": ["C116_any", "C116_rest", "C116_grid", "C116_binary64"], "note": ""},
  {"property": "C117", "status": "proved", "theorems": ["C117_sinusoid", "C117_half_periods", "C117_binary64"], "note": ""},
  {"property": "C118", "status": "proved", "theorems": ["C118_pairs", "C118_value", "C118_sinusoid", "C118_rounded", "C118_pairs_binary64", "C118_binary64"], "note": ""},
  {"property": "C119", "status": "proved", "theorems": ["C119_lags", "C119_values", "C119_rounded_lags", "C119_rounded_values", "C119_plain", "C119_returns", "C119_sinusoid"], "note": ""},
  {"property": "C120", "status": "proved", "theorems": ["C120_exact", "C120_decimal"], "note": ""},
  {"property": "C121", "status": "proved", "theorems": ["C121_line", "C121_repeating"], "note": ""}
]}
