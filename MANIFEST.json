{
 "claims": [
  {
   "property": "C01",
   "status": "proved",
   "theorems": [
    "C01_ids_consecutive_and_bounded",
    "C01_search_terminates"
   ],
   "note": ""
  },
  {
   "property": "C02",
   "status": "proved",
   "theorems": [
    "C02_reported_pixels_are_bright",
    "C02_brightest_first",
    "C02_first_is_maximum"
   ],
   "note": ""
  },
  {
   "property": "C03",
   "status": "proved",
   "theorems": [
    "C03_no_bright_pixel_missed"
   ],
   "note": "for search radius r >= 0; the model shows that a negative radius clears shifted windows"
  },
  {
   "property": "C04",
   "status": "proved",
   "theorems": [
    "C04_separated_away_from_border",
    "C04_distinct_away_from_border",
    "C04_border_pixel_reported_repeatedly",
    "C04_distinct_positions_refuted"
   ],
   "note": "separation proved away from the top/left border; the unrestricted claim is refuted (negative slice bounds)"
  },
  {
   "property": "C05",
   "status": "proved",
   "theorems": [
    "C05_threshold_between_min_and_max",
    "C05_threshold_monotone",
    "C05_few_bright_pixels",
    "C05_threshold_is_not_negative"
   ],
   "note": ""
  },
  {
   "property": "C06",
   "status": "proved",
   "theorems": [
    "C06_no_led_twice",
    "C06_repeated_ids"
   ],
   "note": "for every distance arithmetic"
  },
  {
   "property": "C07",
   "status": "proved",
   "theorems": [
    "C07_fails_exactly_when_edge_led_unavailable",
    "C07_arrays_run_between_their_edge_leds",
    "C07_equal_labels_swallow_all_remaining_leds",
    "C07_ends_at_second_label_refuted"
   ],
   "note": ""
  },
  {
   "property": "C08",
   "status": "proved",
   "theorems": [
    "C08_only_ignored_leds_removed",
    "C08_ignore_list_never_fails"
   ],
   "note": ""
  },
  {
   "property": "C09",
   "status": "proved",
   "theorems": [
    "C09_next_led_is_greedy"
   ],
   "note": "exact real arithmetic"
  },
  {
   "property": "C10",
   "status": "proved",
   "theorems": [
    "C10_straight_arrays_recovered"
   ],
   "note": "exact real arithmetic"
  },
  {
   "property": "C11",
   "status": "proved",
   "theorems": [
    "C11_renumbering_keeps_positions",
    "C11_new_ids_have_one_position",
    "C11_positional_ids_needed_refuted"
   ],
   "note": ""
  },
  {
   "property": "C12",
   "status": "proved",
   "theorems": [
    "C12_index_files_round_trip",
    "C12_too_many_arrays_configured"
   ],
   "note": ""
  },
  {
   "property": "C13",
   "status": "proved",
   "theorems": [
    "C13_merge_concatenates_listed_arrays",
    "C13_no_configuration_no_change",
    "C13_merge_keeps_all_leds",
    "C13_empty_group_makes_step3_fail",
    "C13_nonempty_groups_load"
   ],
   "note": ""
  },
  {
   "property": "C14",
   "status": "proved",
   "theorems": [
    "C14_second_step2_is_refused",
    "C14_step1_allows_step2"
   ],
   "note": "any history of new processes, failed and killed runs"
  },
  {
   "property": "C15",
   "status": "proved",
   "theorems": [
    "C15_rerun_of_both_steps_repairs_everything",
    "C15_kill_in_step2_then_rerun",
    "C15_rerun_of_step2_alone_refuted",
    "C15_kill_after_flag_is_refused",
    "C15_step2_in_a_new_process",
    "C15_single_led_in_a_new_process_refuted"
   ],
   "note": "kill granularity: one line of a file"
  },
  {
   "property": "C16",
   "status": "proved",
   "theorems": [
    "C16_numbers_follow_the_camera_counter",
    "C16_first_above_9999_fails",
    "C16_bad_increment"
   ],
   "note": ""
  },
  {
   "property": "C17",
   "status": "proved",
   "theorems": [
    "C17_analysis_table_rows",
    "C17_requested_range_is_used_iff_first_ids_agree",
    "C17_requested_range_ignored_refuted"
   ],
   "note": "names must not contain ',' or '#'"
  },
  {
   "property": "C18",
   "status": "proved",
   "theorems": [
    "C18_experiment_time_differences",
    "C18_first_image_time",
    "C18_midnight_refuted",
    "C18_fractional_offset"
   ],
   "note": "whole-second EXIF times"
  },
  {
   "property": "C19",
   "status": "proved",
   "theorems": [
    "C19_lookups_are_inverse",
    "C19_repeated_name_refuted"
   ],
   "note": ""
  },
  {
   "property": "C20",
   "status": "proved",
   "theorems": [
    "C20_measures_the_square_of_the_led",
    "C20_square_size",
    "C20_fails_near_top_or_left_border",
    "C20_small_image_measures_elsewhere_refuted"
   ],
   "note": "images smaller than 2r measure a different area (refuted theorem)"
  },
  {
   "property": "C21",
   "status": "proved",
   "theorems": [
    "C21_one_record_per_selected_led",
    "C21_succeeds_if_every_selected_led_can_be_measured"
   ],
   "note": "num_skip_leds >= 0"
  },
  {
   "property": "C22",
   "status": "proved",
   "theorems": [
    "C22_restarts_complete_the_run",
    "C22_restart_is_possible"
   ],
   "note": "any distinct channels, crashes between images, runs without fits"
  },
  {
   "property": "C23",
   "status": "proved",
   "theorems": [
    "C23_restart_processes_images_without_first_channel_file",
    "C23_files_of_started_images_are_never_touched",
    "C23_serial_restart_is_a_restart_step",
    "C23_torn_file_is_kept_refuted",
    "C23_second_channel_is_never_completed_refuted",
    "C23_empty_file_counts_as_analysed_refuted",
    "C23_restart_of_a_fit_run_mixes_formats_refuted"
   ],
   "note": "the refuted theorems are the negative half of the statement"
  },
  {
   "property": "C24",
   "status": "proved",
   "theorems": [
    "C24_every_schedule_gives_the_serial_result"
   ],
   "note": "all images measurable, distinct names and ids"
  },
  {
   "property": "C25",
   "status": "proved",
   "theorems": [
    "C25_result_file_read_back",
    "C25_large_sums_are_rounded_refuted"
   ],
   "note": "files without fit results (fit files: C26)"
  },
  {
   "property": "C26",
   "status": "proved",
   "theorems": [
    "C26_fast_file_columns_match",
    "C26_fit_file_rows",
    "C26_fit_table_is_shifted",
    "C26_fit_mode_maximum_is_lost",
    "C26_fit_table_maximum_is_wrong",
    "C26_negative_centre_unreadable",
    "C26_other_widths_cannot_be_loaded",
    "C26_single_led_cannot_be_loaded"
   ],
   "note": "table built with at least two LEDs per image"
  },
  {
   "property": "C27",
   "status": "proved",
   "theorems": [
    "C27_loaded_equals_analysed_iff_divisible",
    "C27_wrapping_ids_need_overflow_9999",
    "C27_right_overflow_numbers",
    "C27_overflow_must_be_9999",
    "C27_stacking_needs_equal_numbers",
    "C27_missing_file_aborts",
    "C27_last_image_is_dropped_refuted",
    "C27_later_first_image_is_miscounted_refuted"
   ],
   "note": ""
  },
  {
   "property": "C28",
   "status": "proved",
   "theorems": [
    "C28_table_holds_the_records_sorted_by_led"
   ],
   "note": "argsort by contract: a permutation sorted by LED id"
  },
  {
   "property": "C29",
   "status": "proved",
   "theorems": [
    "C29_rows_carry_the_coordinates_of_their_led",
    "C29_led_recorded_twice_refuted",
    "C29_led_recorded_twice_can_fail"
   ],
   "note": "coordinate table with strictly ascending ids"
  },
  {
   "property": "C30",
   "status": "proved",
   "theorems": [
    "C30_table_is_never_refreshed",
    "C30_first_read_sees_current_results",
    "C30_analysis_uses_outdated_results_refuted"
   ],
   "note": ""
  },
  {
   "property": "C31",
   "status": "proved",
   "theorems": [
    "C31_stored_values_invert_the_matrix",
    "C31_values_are_stored_in_row_order",
    "C31_large_sums_are_not_preserved",
    "C31_overflow_refuted",
    "C31_wrong_number_of_channels_fails",
    "C31_cc_channels_option_always_fails",
    "C31_channel_gap_fails",
    "C31_columns_are_taken_by_channel_number",
    "C31_channel_outside_the_matrix_fails",
    "C31_right_iff_channels_in_order",
    "C31_reordered_channels_are_swapped_refuted"
   ],
   "note": "Matrix inverse and the int16 conversion are arguments with a contract; arithmetic is rational, floating point rounding before the truncation is not modelled."
  },
  {
   "property": "C32",
   "status": "proved",
   "theorems": [
    "C32_layers_partition_the_domain"
   ],
   "note": "exact real arithmetic; floating point borders are not modelled"
  },
  {
   "property": "C33",
   "status": "proved",
   "theorems": [
    "C33_distances_add_up",
    "C33_none_iff_outside_too_long"
   ],
   "note": "exact real arithmetic"
  },
  {
   "property": "C34",
   "status": "proved",
   "theorems": [
    "C34_distance_is_length_in_layer",
    "C34_share_of_overlap"
   ],
   "note": "exact real arithmetic; length_between is shown to determine the length (length_between_unique)"
  },
  {
   "property": "C35",
   "status": "proved",
   "theorems": [
    "C35_horizontal_line_of_sight",
    "C35_horizontal_outside_is_dropped",
    "C35_top_border_refuted",
    "C35_same_position_gives_nan"
   ],
   "note": ""
  },
  {
   "property": "C36",
   "status": "proved",
   "theorems": [
    "C36_rows_and_intensities_are_aligned",
    "C36_descending_merge_refuted",
    "C36_skipped_leds_break_alignment_refuted",
    "C36_single_led_array_fails",
    "C36_missing_index_file"
   ],
   "note": "Alignment proved for ascending index files and no skipped LEDs; the refuted theorems show that descending merges and skipped LEDs break it, and single-LED arrays or a missing index file fail."
  },
  {
   "property": "C37",
   "status": "proved",
   "theorems": [
    "C37_reference_is_the_mean",
    "C37_normalised_mean_is_one",
    "C37_warning_lists_the_outliers",
    "C37_relative_intensities",
    "C37_no_data_ends_the_analysis"
   ],
   "note": ""
  },
  {
   "property": "C38",
   "status": "proved",
   "theorems": [
    "C38_augmented_system_is_the_objective",
    "C38_optical_depth",
    "C38_coefficients_minimise_the_objective"
   ],
   "note": "exact real arithmetic; nnls by contract"
  },
  {
   "property": "C39",
   "status": "proved",
   "theorems": [
    "C39_no_smoke_no_extinction"
   ],
   "note": "exact real arithmetic; nnls by contract"
  },
  {
   "property": "C40",
   "status": "proved",
   "theorems": [
    "C40_linear_profiles_are_recovered",
    "C40_no_regularisation_recovers_everything",
    "C40_few_layers_are_underestimated"
   ],
   "note": "exact real arithmetic; nnls by contract"
  },
  {
   "property": "C41",
   "status": "proved",
   "theorems": [
    "C41_model_is_beer_lambert",
    "C41_bounds",
    "C41_antitone",
    "C41_strictly_antitone_in_a_crossed_layer",
    "C41_transmissions_multiply"
   ],
   "note": "exact real arithmetic"
  },
  {
   "property": "C42",
   "status": "proved",
   "theorems": [
    "C42_misfit_zero_iff_reproduced",
    "C42_misfit_is_not_the_rms",
    "C42_curvature_zero_iff_progression",
    "C42_without_preference_truth_is_optimal",
    "C42_unseen_layers_lower_the_cost",
    "C42_unseen_layers_are_at_the_upper_bound"
   ],
   "note": "exact real arithmetic; the claim about the minimiser is about exact minimisers, not about where TNC stops"
  },
  {
   "property": "C43",
   "status": "proved",
   "theorems": [
    "C43_parallel_equals_serial",
    "C43_other_ids_refuted",
    "C43_nonlinear_start_refuted"
   ],
   "note": "The minimiser of the witness meets the contract 'inside the bounds, not worse than the start'; it is not scipy's TNC."
  },
  {
   "property": "C44",
   "status": "proved",
   "theorems": [
    "C44_only_exact_names_work",
    "C44_announced_names_refuted"
   ],
   "note": "the solvers themselves are parameters; a parameter that is None makes them fail with TypeError"
  },
  {
   "property": "C45",
   "status": "proved",
   "theorems": [
    "C45_edge_leds_get_the_configured_coordinates"
   ],
   "note": "exact real arithmetic; linalg.solve as Cramer's rule"
  },
  {
   "property": "C46",
   "status": "proved",
   "theorems": [
    "C46_leds_are_interpolated_on_the_3d_line",
    "C46_between_the_edges",
    "C46_succeeds",
    "C46_edges_in_line_with_the_origin_fail",
    "C46_array_of_one_led_fails",
    "C46_led_without_search_area_fails"
   ],
   "note": "exact real arithmetic"
  },
  {
   "property": "C47",
   "status": "proved",
   "theorems": [
    "C47_projection",
    "C47_heights_are_kept"
   ],
   "note": "exact real arithmetic"
  },
  {
   "property": "C48",
   "status": "proved",
   "theorems": [
    "C48_widths_start_at_zero",
    "C48_heights_are_z",
    "C48_three_leds_refuted",
    "C48_widths_are_stretched",
    "C48_true_distance_iff_parallel_to_x",
    "C48_folding_refuted"
   ],
   "note": "exact real arithmetic; curve_fit is an arbitrary function"
  },
  {
   "property": "C49",
   "status": "proved",
   "theorems": [
    "C49_rows_in_order_and_rest_dropped",
    "C49_only_the_sequence_of_tokens_counts",
    "C49_prompt_is_read_back",
    "C49_edge_indices_are_read_back",
    "C49_variable_rows",
    "C49_line_structure_is_kept_refuted"
   ],
   "note": "values as in memory; C78 covers writing and re-reading config.ini"
  },
  {
   "property": "C50",
   "status": "proved",
   "theorems": [
    "C50_list_values",
    "C50_written_list_is_read_back",
    "C50_lower_case"
   ],
   "note": "interpolation of percent signs not modelled"
  },
  {
   "property": "C51",
   "status": "proved",
   "theorems": [
    "C51_only_absent_values_are_asked_once",
    "C51_present_values_are_kept",
    "C51_answers_are_saved",
    "C51_complete_configuration_is_left_alone",
    "C51_all_required_values_are_present",
    "C51_offset_is_image_time_minus_clock_time",
    "C51_reference_file_alone_refuted",
    "C51_time_img_id_is_never_used"
   ],
   "note": "EXIF reading, date parsing and str.format are parameters"
  },
  {
   "property": "C52",
   "status": "proved",
   "theorems": [
    "C52_ignore_list_all_or_nothing",
    "C52_single_blanks_are_honoured",
    "C52_extra_blank_disables_the_list"
   ],
   "note": ""
  },
  {
   "property": "C53",
   "status": "proved",
   "theorems": [
    "C53_channels",
    "C53_slow_step3",
    "C53_other_actions",
    "C53_order",
    "C53_configuration_file",
    "C53_fast_with_colour_runs_twice_refuted",
    "C53_restart_with_colour_starts_over_refuted"
   ],
   "note": "the list of actions if each of them succeeds"
  },
  {
   "property": "C54",
   "status": "proved",
   "theorems": [
    "C54_layer_contains_height",
    "C54_layer_outside",
    "C54_get_extco_at_height"
   ],
   "note": "rational arithmetic"
  },
  {
   "property": "C55",
   "status": "proved",
   "theorems": [
    "C55_window",
    "C55_window_is_never_centred",
    "C55_smoothing_delays_a_ramp"
   ],
   "note": "pandas rolling and shift modelled on rational series with missing values"
  },
  {
   "property": "C56",
   "status": "proved",
   "theorems": [
    "C56_shift_history",
    "C56_same_time_axis",
    "C56_one_shift_agrees",
    "C56_two_shifts_agree_refuted",
    "C56_led_values_are_never_shifted"
   ],
   "note": ""
  },
  {
   "property": "C57",
   "status": "proved",
   "theorems": [
    "C57_closest_time"
   ],
   "note": ""
  },
  {
   "property": "C58",
   "status": "proved",
   "theorems": [
    "C58_file_name_round_trip",
    "C58_any_directory_refuted"
   ],
   "note": ""
  },
  {
   "property": "C59",
   "status": "proved",
   "theorems": [
    "C59_nothing_is_lost",
    "C59_new_names_are_distinct",
    "C59_numbers_follow_the_dates",
    "C59_image_without_raw_partner_stops",
    "C59_new_name_in_use_refuted"
   ],
   "note": "a directory is a map from names to contents; sorting by date is a hypothesis (sorted order); raw extension must differ from jpg"
  },
  {
   "property": "C60",
   "status": "proved",
   "theorems": [
    "C60_pixel_law",
    "C60_wide_raw_values_refuted",
    "C60_channels_partition_the_sensor",
    "C60_channels_sum_to_the_image",
    "C60_other_channels_fail"
   ],
   "note": "rawpy is outside the model; the scaling is exact, not floating point"
  },
  {
   "property": "C61",
   "status": "proved",
   "theorems": [
    "C61_line",
    "C61_lines_are_edited_in_place",
    "C61_editing_is_idempotent",
    "C61_missing_parameter_is_not_added",
    "C61_only_the_parameter_refuted"
   ],
   "note": ""
  },
  {
   "property": "C62",
   "status": "proved",
   "theorems": [
    "C62_start_time_of_first_image",
    "C62_directory_without_slash_refuted",
    "C62_numeric_placeholder_fails"
   ],
   "note": "name patterns 'pre{}suf' and 'pre{:0Wd}suf'"
  },
  {
   "property": "C63",
   "status": "proved",
   "theorems": [
    "C63_unassigned_leds_are_at_minus_one",
    "C63_unassigned_leds_shift_the_widths_refuted"
   ],
   "note": "the witness uses a least squares plane"
  },
  {
   "property": "C64",
   "status": "proved",
   "theorems": [
    "C64_looked_for_is_never_written",
    "C64_where_it_looks",
    "C64_results_are_always_recomputed",
    "C64_looked_for_file_skips"
   ],
   "note": ""
  },
  {
   "property": "C65",
   "status": "proved",
   "theorems": [
    "C65_number_of_layers_is_never_asked",
    "C65_second_request_never_matters",
    "C65_channels_are_never_asked"
   ],
   "note": ""
  },
  {
   "property": "C66",
   "status": "proved",
   "theorems": [
    "C66_correction_does_not_reach_the_analysis",
    "C66_corrected_property_needs_a_former_run"
   ],
   "note": "the corrected column is a function of the uncorrected one (other channels fixed)"
  },
  {
   "property": "C67",
   "status": "proved",
   "theorems": [
    "C67_heights_label_the_times",
    "C67_heights_of_led_array_refuted"
   ],
   "note": ""
  },
  {
   "property": "C68",
   "status": "proved",
   "theorems": [
    "C68_default_radius_never_works",
    "C68_default_radius_refuted",
    "C68_explicit_radius",
    "C68_led_near_the_border_is_empty",
    "C68_led_near_the_left_border_has_empty_lines",
    "C68_position_of_led"
   ],
   "note": ""
  },
  {
   "property": "C69",
   "status": "proved",
   "theorems": [
    "C69_result_table_is_read_back",
    "C69_multi_line_header_refuted"
   ],
   "note": "the text of a number is a parameter with an inverse"
  },
  {
   "property": "C70",
   "status": "proved",
   "theorems": [
    "C70_reference_values_have_mean_one",
    "C70_dark_references_give_no_numbers",
    "C70_array_and_led_agree",
    "C70_zero_means_absolute"
   ],
   "note": "rational arithmetic"
  },
  {
   "property": "C71",
   "status": "proved",
   "theorems": [
    "C71_png_is_black",
    "C71_no_led_in_a_flat_image",
    "C71_no_led_in_a_png_image",
    "C71_jpeg_gray_value",
    "C71_gray_pixel_loses_one",
    "C71_extensions"
   ],
   "note": "matplotlib's value ranges (PNG 0..1, JPEG 0..255) are hypotheses; the dot product is exact"
  },
  {
   "property": "C72",
   "status": "proved",
   "theorems": [
    "C72_between_zero_and_amplitude",
    "C72_half_amplitude_on_the_ellipse",
    "C72_extents_are_swapped",
    "C72_darker_along_every_ray",
    "C72_point_symmetric",
    "C72_centre_is_brightest",
    "C72_centre_is_brightest_refuted"
   ],
   "note": "exact real arithmetic; the refuted theorem is the last clause"
  },
  {
   "property": "C73",
   "status": "proved",
   "theorems": [
    "C73_same_spot",
    "C73_best_fit_is_never_unique"
   ],
   "note": "exact real arithmetic"
  },
  {
   "property": "C74",
   "status": "proved",
   "theorems": [
    "C74_penalty_free_region",
    "C74_zero_cost_iff_reproduced",
    "C74_no_perfect_fit_with_a_dark_pixel",
    "C74_negative_extents_are_hardly_penalised",
    "C74_fit_stays_in_the_area"
   ],
   "note": "exact real arithmetic; non-zero extents (numpy yields inf or nan for zero); Nelder-Mead by contract: not worse than the start"
  },
  {
   "property": "C75",
   "status": "proved",
   "theorems": [
    "C75_area_must_be_square",
    "C75_led_at_the_lower_border_cannot_be_fitted",
    "C75_reported_centre_is_transposed",
    "C75_reported_centre_refuted"
   ],
   "note": "exact real arithmetic"
  },
  {
   "property": "C76",
   "status": "proved",
   "theorems": [
    "C76_created_file_is_read_back",
    "C76_plain_values_are_kept",
    "C76_every_option_is_found",
    "C76_new_object_has_no_options",
    "C76_time_reference_id_refuted"
   ],
   "note": "configparser's reader and writer are modelled from the Python 3.11 library; '%' interpolation is not modelled"
  },
  {
   "property": "C77",
   "status": "proved",
   "theorems": [
    "C77_saving_keeps_every_option",
    "C77_saving_again_changes_nothing",
    "C77_changing_one_option",
    "C77_answers_are_stored",
    "C77_comments_are_kept_refuted"
   ],
   "note": "the refuted theorem is the last sentence"
  },
  {
   "property": "C78",
   "status": "proved",
   "theorems": [
    "C78_typed_arrays_survive_saving",
    "C78_indented_lines_are_kept",
    "C78_constructor_lines_are_kept_refuted"
   ],
   "note": "the refuted theorem is the last clause"
  },
  {
   "property": "C79",
   "status": "proved",
   "theorems": [
    "C79_edited_file",
    "C79_only_the_number_of_cores_changes",
    "C79_other_options_are_kept_refuted"
   ],
   "note": "the refuted theorem is the last clause"
  },
  {
   "property": "C80",
   "status": "proved",
   "theorems": [
    "C80_averaged_image_list",
    "C80_every_image_once"
   ],
   "note": "times are rational numbers"
  },
  {
   "property": "C81",
   "status": "proved",
   "theorems": [
    "C81_averaged_rows",
    "C81_averages_are_never_stored",
    "C81_single_images_are_used",
    "C81_saving_fails_from_12_images"
   ],
   "note": "that a tuple as HDF path raises AttributeError is taken from the pandas sources"
  },
  {
   "property": "C82",
   "status": "proved",
   "theorems": [
    "C82_value_at_time",
    "C82_columns_in_order",
    "C82_file_order_is_irrelevant",
    "C82_two_files_for_one_array",
    "C82_missing_results",
    "C82_solver_directory_is_found"
   ],
   "note": "outer join of pandas.concat and pivot are modelled"
  },
  {
   "property": "C83",
   "status": "proved",
   "theorems": [
    "C83_views_agree"
   ],
   "note": "for files with one file per channel and array"
  },
  {
   "property": "C84",
   "status": "proved",
   "theorems": [
    "C84_labels_are_close",
    "C84_labels_are_different",
    "C84_equal_labels_refuted",
    "C84_heights_only_relabel"
   ],
   "note": "heights are rational numbers, round half even; the refuted theorem is the clause about coinciding labels"
  },
  {
   "property": "C85",
   "status": "proved",
   "theorems": [
    "C85_first_image_of_a_time",
    "C85_coefficients_belong_to_the_image",
    "C85_shifted_coefficients",
    "C85_shifted_images_refuted"
   ],
   "note": "the refuted theorem is the last sentence"
  },
  {
   "property": "C86",
   "status": "proved",
   "theorems": [
    "C86_when_parameters_can_be_read",
    "C86_two_images_in_one_second",
    "C86_values",
    "C86_missing_measurements",
    "C86_smoothing",
    "C86_channels"
   ],
   "note": "one column of the table is modelled at a time"
  },
  {
   "property": "C87",
   "status": "proved",
   "theorems": [
    "C87_which_rows_are_kept",
    "C87_an_array_can_disappear",
    "C87_heights_can_be_read"
   ],
   "note": ""
  },
  {
   "property": "C88",
   "status": "proved",
   "theorems": [
    "C88_all_channels_are_needed"
   ],
   "note": ""
  },
  {
   "property": "C89",
   "status": "proved",
   "theorems": [
    "C89_doubled_signs_are_read_back",
    "C89_stray_signs_fail",
    "C89_constructors",
    "C89_stored_values_can_be_read_refuted",
    "C89_self_reference",
    "C89_ten_references"
   ],
   "note": "BasicInterpolation of the Python standard library is modelled; the refuted theorem is the last sentence"
  },
  {
   "property": "C90",
   "status": "proved",
   "theorems": [
    "C90_demo_excludes_the_rest",
    "C90_demo_options_alone_do_nothing",
    "C90_demo_arguments",
    "C90_order",
    "C90_colour_correction_runs_twice",
    "C90_configuration_before_colours",
    "C90_missing_analysis_file_is_noticed_late"
   ],
   "note": "the command line is modelled after parsing; the called programs are abstract"
  },
  {
   "property": "C91",
   "status": "proved",
   "theorems": [
    "C91_number_of_cores",
    "C91_other_options_are_kept",
    "C91_demo_configuration",
    "C91_demo_images",
    "C91_one_core_refuted",
    "C91_sequence",
    "C91_directory"
   ],
   "note": "the refuted theorem is the sentence about one core"
  },
  {
   "property": "C92",
   "status": "proved",
   "theorems": [
    "C92_prompt",
    "C92_changes_need_consent",
    "C92_marker_means_images",
    "C92_marker_means_success_refuted",
    "C92_images_are_extracted",
    "C92_archive_without_directory",
    "C92_second_directory_fails"
   ],
   "note": "download not modelled; the refuted theorem is the half sentence about the configuration files"
  },
  {
   "property": "C93",
   "status": "proved",
   "theorems": [
    "C93_fit_error",
    "C93_coefficient_error",
    "C93_depth_error",
    "C93_noisy_profiles",
    "C93_each_coefficient",
    "C93_solutions_exist",
    "C93_solutions_are_unique",
    "C93_contract_can_be_met"
   ],
   "note": "exact real arithmetic; nnls by contract"
  },
  {
   "property": "C94",
   "status": "proved",
   "theorems": [
    "C94_smoke_is_recovered"
   ],
   "note": "exact real arithmetic for distances and solver; nnls by contract (C93_contract_can_be_met); stored sums are rounded as in the table model"
  },
  {
   "property": "C95",
   "status": "proved",
   "theorems": [
    "C95_led_without_distances_fails",
    "C95_depths_given_to_the_solver",
    "C95_led_out_of_view_fails",
    "C95_dark_led_fails",
    "C95_no_reference_fails"
   ],
   "note": "that scipy's nnls raises ValueError for nan or infinite entries is taken from its documentation"
  },
  {
   "property": "C96",
   "status": "proved",
   "theorems": [
    "C96_grammar",
    "C96_order",
    "C96_flags",
    "C96_rejected",
    "C96_config_takes_all_words",
    "C96_demo_commands",
    "C96_joined_letters_refuted",
    "C96_rgb_is_not_r_g_b"
   ],
   "note": "argparse itself (Python 3.8 - 3.12) is modelled from its documented rules; messages are not modelled"
  },
  {
   "property": "C97",
   "status": "proved",
   "theorems": [
    "C97_which_names_count",
    "C97_images_of_a_restart",
    "C97_copied_file_counts_refuted"
   ],
   "note": "the false claim is refuted by C97_copied_file_counts_refuted"
  },
  {
   "property": "C98",
   "status": "proved",
   "theorems": [
    "C98_loaded_arrays",
    "C98_old_index_file_refuted"
   ],
   "note": "the false claim is refuted by C98_old_index_file_refuted"
  },
  {
   "property": "C99",
   "status": "proved",
   "theorems": [
    "C99_minimiser_fits",
    "C99_linear_profile",
    "C99_without_preference",
    "C99_many_leds",
    "C99_clear_air_refuted"
   ],
   "note": "about exact minima, which the optimiser only approximates; the false claim is refuted by C99_clear_air_refuted"
  },
  {
   "property": "C100",
   "status": "proved",
   "theorems": [
    "C100_later_files_are_ignored",
    "C100_first_computation_settles",
    "C100_serial_appends",
    "C100_save_after_serial",
    "C100_parallel_replaces",
    "C100_failed_serial",
    "C100_distances_survive_a_failure",
    "C100_same_result_again_refuted"
   ],
   "note": "the false claim is refuted by C100_same_result_again_refuted; the program itself makes one computation per object"
  },
  {
   "property": "C101",
   "status": "proved",
   "theorems": [
    "C101_followed_arrays_are_found",
    "C101_nearly_straight_arrays_are_found",
    "C101_greater_detour_is_passed_over",
    "C101_led_beside_the_line_refuted"
   ],
   "note": "the false claim is refuted by C101_led_beside_the_line_refuted; distances are real numbers, not float64"
  },
  {
   "property": "C102",
   "status": "proved",
   "theorems": [
    "C102_step1_finds_the_spots",
    "C102_extraction",
    "C102_brightness_does_not_matter"
   ],
   "note": "composition of C01-C04, C101, C11, C14, C98 and C20; OpenCV's minMaxLoc enters by its contract, distances are real numbers, plots succeed, no LEDs are ignored"
  },
  {
   "property": "C103",
   "status": "proved",
   "theorems": [
    "C103_completes_iff",
    "C103_ends_at_the_first_table_with_missing_rows",
    "C103_same_rows_are_corrected",
    "C103_missing_rows_become_nan",
    "C103_row_order_refuted"
   ],
   "note": "the false claim is refuted by C103_row_order_refuted; strengthens C31, where the tables are assumed to list the same rows"
  },
  {
   "property": "C104",
   "status": "proved",
   "theorems": [
    "C104_from_the_photographs_to_the_smoke"
   ],
   "note": "composes C102, C28 and C94; the solver is constrained by the contract of C93 (a minimiser of the least squares problem over the non-negative vectors); conversion of the RAW or JPEG files to channel arrays is not part of it"
  },
  {
   "property": "C105",
   "status": "proved",
   "theorems": [
    "C105_names_are_read_back_iff",
    "C105_step3_works_on_the_listed_images",
    "C105_one_blank_stops_step3",
    "C105_restart_works_on_other_images_refuted"
   ],
   "note": "the false claim about the restart is refuted by C105_restart_works_on_other_images_refuted"
  },
  {
   "property": "C106",
   "status": "proved",
   "theorems": [
    "C106_widmann_relation",
    "C106_longer_waves_are_weakened_less",
    "C106_nanometres",
    "C106_real_iff_positive"
   ],
   "note": ""
  },
  {
   "property": "C107",
   "status": "proved",
   "theorems": [
    "C107_every_date_is_read",
    "C107_only_dates_are_read",
    "C107_one_blank_in_the_entry",
    "C107_numbers_follow_the_calendar",
    "C107_experiment_time_counts_seconds",
    "C107_numbers_stand_for_the_texts",
    "C107_stored_start_time_is_read_back",
    "C107_clock_offset",
    "C107_clock_over_midnight_refuted"
   ],
   "note": "the offset over midnight is refuted by C107_clock_over_midnight_refuted"
  },
  {
   "property": "C108",
   "status": "proved",
   "theorems": [
    "C108_labels_are_taken_in_pairs",
    "C108_step_2_works_with_the_numbers",
    "C108_when_no_array_is_left",
    "C108_search_areas_are_lost",
    "C108_step_2_cannot_recover",
    "C108_no_sequence_of_step_2_recovers",
    "C108_step_1_repairs",
    "C15_rerun_of_both_steps_repairs_everything"
   ],
   "note": ""
  },
  {
   "property": "C109",
   "status": "proved",
   "theorems": [
    "C109_when_groups_are_unreadable",
    "C109_unreadable_groups"
   ],
   "note": ""
  },
  {
   "property": "C110",
   "status": "proved",
   "theorems": [
    "C110_when_layers_are_told_apart",
    "C110_when_the_light_determines_the_smoke",
    "C110_one_led_in_every_layer",
    "C110_fewer_leds_than_layers",
    "C110_as_many_leds_as_layers_refuted"
   ],
   "note": "C110_as_many_leds_as_layers_refuted shows that counting LEDs is not enough"
  },
  {
   "property": "C111",
   "status": "proved",
   "theorems": [
    "C111_first_table_of_the_process_decides",
    "C111_stored_tables_stay",
    "C111_one_call",
    "C111_unreadable_coordinates",
    "C111_new_tables_get_the_coordinates_refuted",
    "C111_deleting_the_table_refuted"
   ],
   "note": "the two refuted theorems are the negative part of the statement"
  },
  {
   "property": "C112",
   "status": "proved",
   "theorems": [
    "C112_default_channels_fail",
    "C112_needed_directories",
    "C112_second_time_nothing_is_created",
    "C112_file_named_analysis"
   ],
   "note": ""
  },
  {
   "property": "C113",
   "status": "proved",
   "theorems": [
    "C113_coordinates_are_read_back",
    "C113_positions_are_read_back",
    "C113_new_table_after_writing",
    "C113_single_row_fails",
    "C113_position_of_the_id_refuted"
   ],
   "note": "the last theorem is the negative part of the statement"
  },
  {
   "property": "C114",
   "status": "proved",
   "theorems": [
    "C114_positions_reach_the_analysis",
    "C114_widths_and_heights_reach_the_tables"
   ],
   "note": ""
  },
  {
   "property": "C115",
   "status": "proved",
   "theorems": [
    "C115_file_types",
    "C115_capture_time",
    "C115_only_dates",
    "C115_unreadable_date_renames_nothing",
    "C115_photos_are_numbered_by_capture_time",
    "C115_padded_fraction_refuted"
   ],
   "note": "EXIF entries, the files found and the sort are arguments; the sort only has to order by date; the last sentence is C115_padded_fraction_refuted"
  },
  {
   "property": "C116",
   "status": "proved",
   "theorems": [
    "C116_no_renames_nothing",
    "C116_yes_renames_once",
    "C116_log_lists_the_photos",
    "C116_log_undoes_the_renames",
    "C116_unclear_second_answer_asks_again",
    "C116_stops_at_an_image_without_raw_file",
    "C116_log_after_an_error_refuted"
   ],
   "note": "the name of the log is an argument; the last sentence is C116_log_after_an_error_refuted"
  },
  {
   "property": "C117",
   "status": "proved",
   "theorems": [
    "C117_same_file_as_a_later_step_3",
    "C117_same_leds_as_step_3",
    "C117_unreadable_groups",
    "C117_other_leds_refuted"
   ],
   "note": "the last sentence is C117_other_leds_refuted; positions are arguments"
  },
  {
   "property": "C118",
   "status": "proved",
   "theorems": [
    "C118_no_entry_is_lost",
    "C118_when_logging_can_fail",
    "C118_one_core_never_fails"
   ],
   "note": "an entry is appended as a whole, the text of the entry is not modelled; the exception ends the run"
  },
  {
   "property": "C119",
   "status": "proved",
   "theorems": [
    "C119_penalty_fills_the_gaps",
    "C119_coefficient_error",
    "C119_noisy_profiles",
    "C119_linear_profiles_are_recovered",
    "C119_two_heights",
    "C119_two_leds",
    "C119_non_linear_solver",
    "C119_analysis_with_few_leds",
    "C119_from_the_photographs"
   ],
   "note": "real arithmetic; the contract of nnls as in C38 and C93; the error bound is that of C93 with 5 in place of 4; for the non-linear solver a minimiser within the bounds is assumed"
  },
  {
   "property": "C120",
   "status": "proved",
   "theorems": [
    "C120_profiles_are_smoothed",
    "C120_only_linear_profiles_are_exact",
    "C120_every_profile_without_regularisation",
    "C120_analysis_of_any_smoke",
    "C120_from_the_photographs"
   ],
   "note": "real arithmetic; the contract of nnls as in C38 and C93; the penalty is the roughness from three layers on, the squared norm for one or two layers"
  },
  {
   "property": "C121",
   "status": "proved",
   "theorems": [
    "C121_there_is_a_best_result",
    "C121_contract_can_be_met",
    "C121_error_of_any_profile",
    "C121_error_of_linear_profiles",
    "C121_dense_smoke_is_cut_off",
    "C121_analysis_of_any_smoke",
    "C121_analysis_with_few_leds",
    "C121_from_the_photographs",
    "C121_two_leds_from_the_photographs"
   ],
   "note": "real arithmetic; minimize is idealised as a global minimiser within the bounds, scipy's TNC promises a local one only; that the contract can be met is C121_contract_can_be_met"
  },
  {
   "property": "C122",
   "status": "proved",
   "theorems": [
    "C122_one_nan_hides_the_image",
    "C122_led_out_of_view_is_not_noticed",
    "C122_all_smoke_looks_the_same"
   ],
   "note": "what scipy's minimize returns for a cost of nan is left open (any function of the cost and the start value)"
  },
  {
   "property": "C123",
   "status": "proved",
   "theorems": [
    "C123_any_borders",
    "C123_borders_are_close",
    "C123_rounded_borders_ascend",
    "C123_layers_divide_the_domain",
    "C123_distances_are_close",
    "C123_horizontal_lines",
    "C123_camera_at_a_border_refuted"
   ],
   "note": "rounding of np.linspace only, by its relative error (no underflow); the distances themselves are computed exactly; the jump at a border is C123_camera_at_a_border_refuted"
  },
  {
   "property": "C124",
   "status": "proved",
   "theorems": [
    "C124_any_borders",
    "C124_distances_of_the_machine",
    "C124_horizontal_lines",
    "C124_same_position_gives_nan",
    "C124_double_precision",
    "C124_double_precision_horizontal",
    "C124_long_lines_of_sight_refuted"
   ],
   "note": "rounding by relative errors (no underflow or overflow); lost long lines are C124_long_lines_of_sight_refuted"
  },
  {
   "property": "C125",
   "status": "proved",
   "theorems": [
    "C125_analysis_with_rounded_distances"
   ],
   "note": "rounding by relative errors (no underflow or overflow) in borders and distances; intensities, logarithms and nnls exact (see C126); that a camera on a border must be excluded is C123_camera_at_a_border_refuted"
  },
  {
   "property": "C126",
   "status": "proved",
   "theorems": [
    "C126_depth_error",
    "C126_one_image",
    "C126_analysis_on_a_machine"
   ],
   "note": "rounding by relative errors (no underflow or overflow); nnls within a tolerance for the sum of squares"
  },
  {
   "property": "C127",
   "status": "proved",
   "theorems": [
    "C127_rows_are_matched_by_position",
    "C127_same_as_a_file_with_times",
    "C127_rows_beyond_the_images_are_lost",
    "C127_half_seconds_refuted"
   ],
   "note": "the limit at half seconds is C127_half_seconds_refuted"
  },
  {
   "property": "C128",
   "status": "proved",
   "theorems": [
    "C128_contract_can_be_met",
    "C128_one_image",
    "C128_analysis_on_a_machine"
   ],
   "note": "rounding by relative errors (no underflow or overflow); the minimiser is global up to tol, which scipy's TNC does not promise"
  },
  {
   "property": "C129",
   "status": "proved",
   "theorems": [
    "C129_one_lamp",
    "C129_any_property",
    "C129_relative_error",
    "C129_from_the_pixels",
    "C129_from_the_pixels_non_linear"
   ],
   "note": "fast mode, arrays that are not merged (merged ones: C131), no skipped LEDs; rounding, nnls and minimize as in C126 and C128"
  },
  {
   "property": "C130",
   "status": "proved",
   "theorems": [
    "C130_mean_with_rounding",
    "C130_empty_mean",
    "C130_from_left_to_right",
    "C130_in_halves",
    "C130_double_precision"
   ],
   "note": "rounding by relative errors (no underflow or overflow); the compensated sum of newer versions of pandas is covered by the contract accurate_mean of C126 and C128 only; that the order matters is the example C130_order_matters"
  },
  {
   "property": "C131",
   "status": "proved",
   "theorems": [
    "C131_extraction",
    "C131_merged",
    "C131_merged_non_linear",
    "C131_descending_refuted"
   ],
   "note": "fast mode for the analysis, no skipped LEDs; rounding, nnls and minimize as in C126 and C128; that descending groups mix up the LEDs is C36_descending_merge_refuted, what becomes of the smoke then C131_descending_refuted; that merging tells layers apart which the rows do not is the example C131_rows_alone"
  },
  {
   "property": "C132",
   "status": "proved",
   "theorems": [
    "C132_linear_fails",
    "C132_non_linear_fails",
    "C132_every_array_loses_one",
    "C132_one_led_left_refuted"
   ],
   "note": "arrays not merged or merged from ascending rows, as in C36; at least one LED of the experiment is recorded; the single LED left is settled by C132_one_led_left_refuted"
  },
  {
   "property": "C133",
   "status": "proved",
   "theorems": [
    "C133_brightness_does_not_matter",
    "C133_sum_and_mean",
    "C133_distances_in_other_coordinates",
    "C133_coordinate_system_does_not_matter",
    "C133_exposure_refuted"
   ],
   "note": "exact arithmetic; the five digits of the result files make sum and mean differ by rounding; the exposure of a single photograph is settled by C133_exposure_refuted"
  },
  {
   "property": "C134",
   "status": "proved",
   "theorems": [
    "C134_distances",
    "C134_one_image",
    "C134_unit_of_length",
    "C134_same_regularisation_refuted",
    "C134_cost",
    "C134_bounds_refuted"
   ],
   "note": "linear solver under the contract of nnls; the wrong expectations that the unit does not matter are refuted in C134_same_regularisation_refuted and C134_bounds_refuted"
  },
  {
   "property": "C135",
   "status": "proved",
   "theorems": [
    "C135_twice_the_smoke",
    "C135_not_more_than_measured",
    "C135_largest_coefficient",
    "C135_thick_smoke_refuted"
   ],
   "note": "linear solver under the contract of nnls; C135_thick_smoke_refuted shows that the range of relative intensities is needed"
  },
  {
   "property": "C136",
   "status": "proved",
   "theorems": [
    "C136_same_smoke_same_light",
    "C136_more_layers_fit_better",
    "C136_one_layer_refuted"
   ],
   "note": "exact arithmetic, linear solver under the contract of nnls; the expectation that one layer reports the mean is refuted in C136_one_layer_refuted"
  },
  {
   "property": "C137",
   "status": "proved",
   "theorems": [
    "C137_small_moves_do_not_matter",
    "C137_larger_moves_refuted"
   ],
   "note": "fast mode; that larger moves do not matter is refuted in C137_larger_moves_refuted"
  },
  {
   "property": "C138",
   "status": "proved",
   "theorems": [
    "C138_ground_limits_the_smoke",
    "C138_ground_is_subtracted_refuted"
   ],
   "note": "linear solver, one image; that light from elsewhere is subtracted is refuted in C138_ground_is_subtracted_refuted"
  },
  {
   "property": "C139",
   "status": "proved",
   "theorems": [
    "C139_no_more_smoke_than_there_is",
    "C139_saturated_pixels_refuted"
   ],
   "note": "linear solver, one image, sums of the pixels; that saturation does not matter is refuted in C139_saturated_pixels_refuted"
  },
  {
   "property": "C140",
   "status": "proved",
   "theorems": [
    "C140_difference_is_reported",
    "C140_less_smoke_is_none",
    "C140_steady_smoke_refuted"
   ],
   "note": "linear solver, one image, exact values; all reference photographs in the same smoke; that steady smoke is reported is refuted in C140_steady_smoke_refuted"
  }
 ]
}