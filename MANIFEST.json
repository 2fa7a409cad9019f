{
 "claims": [
  {
   "property": "C01",
   "status": "proved",
   "theorems": [
    "c01_keywords_exact"
   ],
   "note": "Exact IEEE-754 binary64."
  },
  {
   "property": "C02",
   "status": "proved",
   "theorems": [
    "c02_geometry_exact",
    "c02_nan_opening_accepted_refuted",
    "c02_nan_refuted",
    "c02_nan_resolution_refuted"
   ],
   "note": "Exact binary64; libtmpl extrema are assumed to obey minmax_law and min_law (met by the reference instance). The theorems c02_nan_opening_accepted_refuted, c02_nan_refuted, c02_nan_resolution_refuted give concrete inputs on which the code violates the unscoped property."
  },
  {
   "property": "C03",
   "status": "proved",
   "theorems": [
    "c03_errors_are_sticky"
   ],
   "note": "For every scalar type, hence in particular binary64."
  },
  {
   "property": "C04",
   "status": "proved",
   "theorems": [
    "c04_named_ranges",
    "c04_case_and_blanks",
    "c04_named_ranges_valid"
   ],
   "note": ""
  },
  {
   "property": "C05",
   "status": "proved",
   "theorems": [
    "c05_methods",
    "c05_fresnelN"
   ],
   "note": ""
  },
  {
   "property": "C06",
   "status": "proved",
   "theorems": [
    "c06_windows"
   ],
   "note": ""
  },
  {
   "property": "C07",
   "status": "proved",
   "theorems": [
    "c07_dispatch",
    "c07_transforms",
    "c07_profile_of_method",
    "c07_unimplemented_refused",
    "c07_named_methods_implemented"
   ],
   "note": ""
  },
  {
   "property": "C08",
   "status": "proved",
   "theorems": [
    "c08_selected_inside"
   ],
   "note": ""
  },
  {
   "property": "C09",
   "status": "proved",
   "theorems": [
    "c09_windows_fit",
    "c09_wide_window_selected_refuted"
   ],
   "note": "The theorem c09_wide_window_selected_refuted gives concrete inputs on which the code violates the unscoped property."
  },
  {
   "property": "C10",
   "status": "proved",
   "theorems": [
    "c10_selection_exact",
    "c10_last_dropped_refuted"
   ],
   "note": "The theorem c10_last_dropped_refuted gives concrete inputs on which the code violates the unscoped property."
  },
  {
   "property": "C11",
   "status": "proved",
   "theorems": [
    "c11_widths_plain",
    "c11_widths_bfac",
    "c11_widths_bfac_offset",
    "c11_velocity_index_refuted",
    "c11_parameter_index_refuted"
   ],
   "note": "The theorems c11_velocity_index_refuted, c11_parameter_index_refuted give concrete inputs on which the code violates the unscoped property."
  },
  {
   "property": "C12",
   "status": "proved",
   "theorems": [
    "c12_reprocessing_refused",
    "c12_reprocessing_defined",
    "c12_reconstruction_refused",
    "c12_second_run_refused",
    "c12_refusal_after_reversal_refuted"
   ],
   "note": "The theorem c12_refusal_after_reversal_refuted gives concrete inputs on which the code violates the unscoped property."
  },
  {
   "property": "C13",
   "status": "proved",
   "theorems": [
    "c13_range_check_exact",
    "c13_window_past_end_refuted"
   ],
   "note": "The theorem c13_window_past_end_refuted gives concrete inputs on which the code violates the unscoped property."
  },
  {
   "property": "C14",
   "status": "proved",
   "theorems": [
    "c14_fresnel_mode_safe",
    "c14_extra_sample_refuted"
   ],
   "note": "The theorem c14_extra_sample_refuted gives concrete inputs on which the code violates the unscoped property."
  },
  {
   "property": "C15",
   "status": "proved",
   "theorems": [
    "c15_newton_modes_safe"
   ],
   "note": ""
  },
  {
   "property": "C16",
   "status": "proved",
   "theorems": [
    "c16_fresnel_threads",
    "c16_newton_threads",
    "c16_threads_change_result_refuted",
    "c16_newton_threads_change_result_refuted"
   ],
   "note": "The theorems c16_threads_change_result_refuted, c16_newton_threads_change_result_refuted give concrete inputs on which the code violates the unscoped property."
  },
  {
   "property": "C17",
   "status": "proved",
   "theorems": [
    "c17_fft_mode_safe",
    "c17_fft_out_of_bounds_refuted"
   ],
   "note": "The theorem c17_fft_out_of_bounds_refuted gives concrete inputs on which the code violates the unscoped property."
  },
  {
   "property": "C18",
   "status": "proved",
   "theorems": [
    "c18_quadratic_filon_safe",
    "c18_single_point_refuted",
    "c18_reconstruction_refuted"
   ],
   "note": "The theorems c18_single_point_refuted, c18_reconstruction_refuted give concrete inputs on which the code violates the unscoped property."
  },
  {
   "property": "C19",
   "status": "proved",
   "theorems": [
    "c19_next_power_of_two",
    "c19_large_sizes_never_return"
   ],
   "note": ""
  },
  {
   "property": "C20",
   "status": "proved",
   "theorems": [
    "c20_reversal",
    "c20_profile_not_reversed_refuted"
   ],
   "note": "The theorem c20_profile_not_reversed_refuted gives concrete inputs on which the code violates the unscoped property."
  },
  {
   "property": "C21",
   "status": "proved",
   "theorems": [
    "c21_orientation_exact"
   ],
   "note": ""
  },
  {
   "property": "C22",
   "status": "proved",
   "theorems": [
    "c22_finish",
    "c22_positions_not_cut",
    "c22_positions_misaligned_refuted"
   ],
   "note": "The theorem c22_positions_misaligned_refuted gives concrete inputs on which the code violates the unscoped property."
  },
  {
   "property": "C23",
   "status": "proved",
   "theorems": [
    "c23_forward_keeps_inverse",
    "c23_forward_failure_loses_refuted",
    "c23_wave_number_sign_refuted"
   ],
   "note": "The theorems c23_forward_failure_loses_refuted, c23_wave_number_sign_refuted give concrete inputs on which the code violates the unscoped property."
  },
  {
   "property": "C24",
   "status": "proved",
   "theorems": [
    "c24_reconstruction_aligned"
   ],
   "note": ""
  },
  {
   "property": "C25",
   "status": "proved",
   "theorems": [
    "c25_reconstruction_linear"
   ],
   "note": ""
  },
  {
   "property": "C26",
   "status": "proved",
   "theorems": [
    "c26_fresnel_free_space",
    "c26_unnormalised_refuted"
   ],
   "note": "The theorem c26_unnormalised_refuted gives concrete inputs on which the code violates the unscoped property."
  },
  {
   "property": "C27",
   "status": "proved",
   "theorems": [
    "c27_riemann_free_space",
    "c27_filon_free_space",
    "c27_elliptical_free_space",
    "c27_perturbed_free_space",
    "c27_interpolated_free_space",
    "c27_legendre_free_space",
    "c27_filon02_refuted"
   ],
   "note": "The theorem c27_filon02_refuted gives concrete inputs on which the code violates the unscoped property."
  },
  {
   "property": "C28",
   "status": "proved",
   "theorems": [
    "c28_forward_kernel_conjugate",
    "c28_fresnel_forward",
    "c28_forward_ignored_refuted"
   ],
   "note": "The theorem c28_forward_ignored_refuted gives concrete inputs on which the code violates the unscoped property."
  },
  {
   "property": "C29",
   "status": "proved",
   "theorems": [
    "c29_quartic_nodes",
    "c29_quartic_exact"
   ],
   "note": ""
  },
  {
   "property": "C30",
   "status": "proved",
   "theorems": [
    "c30_eight_point_nodes",
    "c30_sixteen_point_nodes"
   ],
   "note": ""
  },
  {
   "property": "C31",
   "status": "proved",
   "theorems": [
    "c31_even_phase",
    "c31_odd_normalised_phase",
    "c31_odd_unnormalised_phase",
    "c31_odd_unnormalised_refuted",
    "c31_side_refuted"
   ],
   "note": "The theorems c31_odd_unnormalised_refuted, c31_side_refuted give concrete inputs on which the code violates the unscoped property."
  },
  {
   "property": "C32",
   "status": "proved",
   "theorems": [
    "c32_fresnel_symmetric",
    "c32_fresnel_symmetric_double"
   ],
   "note": ""
  },
  {
   "property": "C33",
   "status": "proved",
   "theorems": [
    "c33_half_windows",
    "c33_full_window",
    "c33_resize",
    "c33_empty_window_double_free_refuted"
   ],
   "note": "The theorem c33_empty_window_double_free_refuted gives concrete inputs on which the code violates the unscoped property."
  },
  {
   "property": "C34",
   "status": "proved",
   "theorems": [
    "c34_rows_and_columns"
   ],
   "note": ""
  },
  {
   "property": "C35",
   "status": "proved",
   "theorems": [
    "c35_which_files_are_safe",
    "c35_lines_are_rows",
    "c35_short_row_refuted"
   ],
   "note": "The theorem c35_short_row_refuted gives concrete inputs on which the code violates the unscoped property."
  },
  {
   "property": "C36",
   "status": "proved",
   "theorems": [
    "c36_wrong_columns",
    "c36_unopened"
   ],
   "note": ""
  },
  {
   "property": "C37",
   "status": "proved",
   "theorems": [
    "c37_angles",
    "c37_factor"
   ],
   "note": ""
  },
  {
   "property": "C38",
   "status": "proved",
   "theorems": [
    "c38_header",
    "c38_no_header",
    "c38_arrays_filled_refuted"
   ],
   "note": "The theorem c38_arrays_filled_refuted gives concrete inputs on which the code violates the unscoped property."
  },
  {
   "property": "C39",
   "status": "proved",
   "theorems": [
    "c39_tables",
    "c39_cassini",
    "c39_uranus",
    "c39_double_free_refuted",
    "c39_leak_refuted"
   ],
   "note": "The theorems c39_double_free_refuted, c39_leak_refuted give concrete inputs on which the code violates the unscoped property."
  },
  {
   "property": "C40",
   "status": "proved",
   "theorems": [
    "c40_unusable_files_reported",
    "c40_uranus_refuted"
   ],
   "note": "The theorem c40_uranus_refuted gives concrete inputs on which the code violates the unscoped property."
  },
  {
   "property": "C41",
   "status": "proved",
   "theorems": [
    "c41_chords_rejected",
    "c41_uranus_chords_rejected",
    "c41_error_exactly_for_chords",
    "c41_directions",
    "c41_search_bounds_refuted"
   ],
   "note": "The theorem c41_search_bounds_refuted gives concrete inputs on which the code violates the unscoped property."
  },
  {
   "property": "C42",
   "status": "proved",
   "theorems": [
    "c42_aligned",
    "c42_uranus_aligned",
    "c42_lengths"
   ],
   "note": ""
  },
  {
   "property": "C43",
   "status": "proved",
   "theorems": [
    "c43_legacy_power",
    "c43_formula"
   ],
   "note": ""
  },
  {
   "property": "C44",
   "status": "proved",
   "theorems": [
    "c44_creation",
    "c44_accepted",
    "c44_refused",
    "c44_profile_exact"
   ],
   "note": ""
  },
  {
   "property": "C45",
   "status": "proved",
   "theorems": [
    "c45_allocation_failure"
   ],
   "note": ""
  },
  {
   "property": "C46",
   "status": "proved",
   "theorems": [
    "c46_csv_tables",
    "c46_csv_data",
    "c46_tau_handle_refuted",
    "c46_tau_null"
   ],
   "note": "The theorem c46_tau_handle_refuted gives concrete inputs on which the code violates the unscoped property."
  },
  {
   "property": "C47",
   "status": "proved",
   "theorems": [
    "c47_date_to_rev",
    "c47_rev_of_each_event",
    "c47_shared_day_refuted"
   ],
   "note": "The theorem c47_shared_day_refuted gives concrete inputs on which the code violates the unscoped property."
  },
  {
   "property": "C48",
   "status": "proved",
   "theorems": [
    "c48_history_print",
    "c48_full_table_refuted",
    "c48_geo_history"
   ],
   "note": "The theorem c48_full_table_refuted gives concrete inputs on which the code violates the unscoped property."
  },
  {
   "property": "C49",
   "status": "proved",
   "theorems": [
    "c49_right_edge",
    "c49_left_edge",
    "c49_decreasing_refuted",
    "c49_edge_at_end_refuted",
    "c49_left_outside_refuted"
   ],
   "note": "The theorems c49_decreasing_refuted, c49_edge_at_end_refuted, c49_left_outside_refuted give concrete inputs on which the code violates the unscoped property."
  },
  {
   "property": "C50",
   "status": "proved",
   "theorems": [
    "c50_left_type",
    "c50_right_type",
    "c50_sine_refuted",
    "c50_sine_as_left_edge"
   ],
   "note": "The theorem c50_sine_refuted gives concrete inputs on which the code violates the unscoped property."
  },
  {
   "property": "C51",
   "status": "proved",
   "theorems": [
    "c51_interpolated_modes_safe"
   ],
   "note": ""
  },
  {
   "property": "C52",
   "status": "proved",
   "theorems": [
    "c52_legendre_modes_safe"
   ],
   "note": ""
  },
  {
   "property": "C53",
   "status": "proved",
   "theorems": [
    "c53_fresnel_sum",
    "c53_kernel_data",
    "c53_node_data",
    "c53_elliptical_data",
    "c53_perturbed_data",
    "c53_riemann_sum",
    "c53_elliptical_sum",
    "c53_perturbed_sum",
    "c53_filon_sums",
    "c53_filon12_sum",
    "c53_newton4_sum",
    "c53_newton8_sum",
    "c53_newton16_sum",
    "c53_legendre_sums"
   ],
   "note": ""
  },
  {
   "property": "C54",
   "status": "proved",
   "theorems": [
    "c54_reconstruction_succeeds"
   ],
   "note": ""
  },
  {
   "property": "C55",
   "status": "proved",
   "theorems": [
    "c55_conversion",
    "c55_cases",
    "c55_error_iff",
    "c55_list_crashes_refuted"
   ],
   "note": "The theorem c55_list_crashes_refuted gives concrete inputs on which the code violates the unscoped property."
  },
  {
   "property": "C56",
   "status": "proved",
   "theorems": [
    "c56_range",
    "c56_perturb",
    "c56_big_integer_refuted"
   ],
   "note": "The theorem c56_big_integer_refuted gives concrete inputs on which the code violates the unscoped property."
  },
  {
   "property": "C57",
   "status": "proved",
   "theorems": [
    "c57_constructed",
    "c57_call",
    "c57_refused",
    "c57_data",
    "c57_well_posed",
    "c57_no_dlp_refuted",
    "c57_no_history_refuted",
    "c57_positions_refuted"
   ],
   "note": "The theorems c57_no_dlp_refuted, c57_no_history_refuted, c57_positions_refuted give concrete inputs on which the code violates the unscoped property."
  },
  {
   "property": "C58",
   "status": "proved",
   "theorems": [
    "c58_cassini",
    "c58_uranus",
    "c58_merged",
    "c58_merged_unwritten_refuted",
    "c58_cassini_unusable_raises",
    "c58_cassini_chord_raises",
    "c58_uranus_chord_raises",
    "c58_merged_unusable_raises",
    "c58_uranus_unusable_refuted",
    "c58_to_reconstruction",
    "c58_attributes"
   ],
   "note": "The theorems c58_merged_unwritten_refuted, c58_uranus_unusable_refuted give concrete inputs on which the code violates the unscoped property."
  },
  {
   "property": "C59",
   "status": "proved",
   "theorems": [
    "c59_cassini",
    "c59_uranus",
    "c59_merged",
    "c59_leak_refuted",
    "c59_second_init_refuted"
   ],
   "note": "The theorems c59_leak_refuted, c59_second_init_refuted give concrete inputs on which the code violates the unscoped property."
  },
  {
   "property": "C60",
   "status": "proved",
   "theorems": [
    "c60_fft_convolution",
    "c60_invariant_kernel",
    "c60_not_normalised_refuted"
   ],
   "note": "The theorem c60_not_normalised_refuted gives concrete inputs on which the code violates the unscoped property."
  },
  {
   "property": "C61",
   "status": "proved",
   "theorems": [
    "c61_free_space"
   ],
   "note": ""
  },
  {
   "property": "C62",
   "status": "proved",
   "theorems": [
    "c62_elevation",
    "c62_opening",
    "c62_unique",
    "c62_opposite_pole",
    "c62_missing_ephemeris_refuted"
   ],
   "note": "The theorem c62_missing_ephemeris_refuted gives concrete inputs on which the code violates the unscoped property."
  },
  {
   "property": "C63",
   "status": "proved",
   "theorems": [
    "c63_reconstruction",
    "c63_destroy",
    "c63_lifetime",
    "c63_three_leaks",
    "c63_failed_runs_leak_refuted",
    "c63_python_rejected",
    "c63_python_failed",
    "c63_python_run",
    "c63_python_leaks_refuted",
    "c63_python_same"
   ],
   "note": "The theorems c63_failed_runs_leak_refuted, c63_python_leaks_refuted give concrete inputs on which the code violates the unscoped property."
  },
  {
   "property": "C64",
   "status": "proved",
   "theorems": [
    "c64_round_trip",
    "c64_profile",
    "c64_depth",
    "c64_dlp_depth",
    "c64_sky_frequency",
    "c64_uplink_geo_refuted",
    "c64_uplink_dlp_refuted",
    "c64_uplink_tau_refuted"
   ],
   "note": "The theorems c64_uplink_geo_refuted, c64_uplink_dlp_refuted, c64_uplink_tau_refuted give concrete inputs on which the code violates the unscoped property."
  },
  {
   "property": "C65",
   "status": "proved",
   "theorems": [
    "c65_layout",
    "c65_exists",
    "c65_tells",
    "c65_too_wide_refuted",
    "c65_uneven_refuted",
    "c65_midnight_refuted",
    "c65_time_refuted"
   ],
   "note": "The theorems c65_too_wide_refuted, c65_uneven_refuted, c65_midnight_refuted, c65_time_refuted give concrete inputs on which the code violates the unscoped property."
  },
  {
   "property": "C66",
   "status": "proved",
   "theorems": [
    "c66_times",
    "c66_history",
    "c66_intercepts_restore",
    "c66_intercepts_independent",
    "c66_intercepts",
    "c66_exception_refuted",
    "c66_geometry_forgets",
    "c66_geometry",
    "c66_atmosphere_contains_ionosphere",
    "c66_atmosphere_refuted"
   ],
   "note": "The theorems c66_exception_refuted, c66_atmosphere_refuted give concrete inputs on which the code violates the unscoped property."
  },
  {
   "property": "C67",
   "status": "proved",
   "theorems": [
    "c67_date",
    "c67_to_time",
    "c67_zero",
    "c67_same_day",
    "c67_round_trip",
    "c67_steps",
    "c67_midnight_refuted",
    "c67_twice_refuted",
    "c67_new_year_refuted",
    "c67_century_refuted",
    "c67_negative_refuted",
    "c67_default_kernels_refuted"
   ],
   "note": "The theorems c67_midnight_refuted, c67_twice_refuted, c67_new_year_refuted, c67_century_refuted, c67_negative_refuted, c67_default_kernels_refuted give concrete inputs on which the code violates the unscoped property."
  },
  {
   "property": "C68",
   "status": "proved",
   "theorems": [
    "c68_one_way",
    "c68_chord",
    "c68_index",
    "c68_parts",
    "c68_blocked_ingress",
    "c68_blocked_egress",
    "c68_late_refuted",
    "c68_even_refuted",
    "c68_end_refuted",
    "c68_far_refuted",
    "c68_midnight_refuted"
   ],
   "note": "The theorems c68_late_refuted, c68_even_refuted, c68_end_refuted, c68_far_refuted, c68_midnight_refuted give concrete inputs on which the code violates the unscoped property."
  },
  {
   "property": "C69",
   "status": "proved",
   "theorems": [
    "c69_edge",
    "c69_edge_fixed",
    "c69_edge_tie",
    "c69_regions",
    "c69_ordered",
    "c69_rising",
    "c69_falling",
    "c69_chord",
    "c69_few"
   ],
   "note": ""
  },
  {
   "property": "C70",
   "status": "proved",
   "theorems": [
    "c70_azimuth",
    "c70_opening",
    "c70_elevation",
    "c70_pole",
    "c70_state",
    "c70_impact",
    "c70_fresnel",
    "c70_fresnel_effective",
    "c70_beta",
    "c70_effective",
    "c70_degrees_refuted",
    "c70_axis_refuted",
    "c70_removed_refuted",
    "c70_frame_refuted"
   ],
   "note": "The theorems c70_degrees_refuted, c70_axis_refuted, c70_removed_refuted, c70_frame_refuted give concrete inputs on which the code violates the unscoped property."
  },
  {
   "property": "C71",
   "status": "proved",
   "theorems": [
    "c71_radii",
    "c71_within",
    "c71_signal",
    "c71_direction",
    "c71_drift_refuted",
    "c71_ends_refuted",
    "c71_short_refuted"
   ],
   "note": "The theorems c71_drift_refuted, c71_ends_refuted, c71_short_refuted give concrete inputs on which the code violates the unscoped property."
  },
  {
   "property": "C72",
   "status": "proved",
   "theorems": [
    "c72_profile",
    "c72_trim",
    "c72_range",
    "c72_direction",
    "c72_threshold",
    "c72_chord",
    "c72_heads",
    "c72_depth_refuted"
   ],
   "note": "The theorem c72_depth_refuted gives concrete inputs on which the code violates the unscoped property."
  },
  {
   "property": "C73",
   "status": "proved",
   "theorems": [
    "c73_signal",
    "c73_decimated",
    "c73_rate",
    "c73_header",
    "c73_sky",
    "c73_edge_refuted",
    "c73_bits_refuted",
    "c73_track_refuted",
    "c73_sky_refuted"
   ],
   "note": "The theorems c73_edge_refuted, c73_bits_refuted, c73_track_refuted, c73_sky_refuted give concrete inputs on which the code violates the unscoped property."
  },
  {
   "property": "C74",
   "status": "proved",
   "theorems": [
    "c74_frequency",
    "c74_light_time",
    "c74_clock",
    "c74_two_way",
    "c74_band_refuted"
   ],
   "note": "The theorem c74_band_refuted gives concrete inputs on which the code violates the unscoped property."
  },
  {
   "property": "C75",
   "status": "proved",
   "theorems": [
    "c75_power",
    "c75_tone",
    "c75_drift",
    "c75_drift_refuted"
   ],
   "note": "The theorem c75_drift_refuted gives concrete inputs on which the code violates the unscoped property."
  },
  {
   "property": "C76",
   "status": "proved",
   "theorems": [
    "c76_peak",
    "c76_tone",
    "c76_bin",
    "c76_windows",
    "c76_total",
    "c76_beyond_refuted"
   ],
   "note": "The theorem c76_beyond_refuted gives concrete inputs on which the code violates the unscoped property."
  },
  {
   "property": "C77",
   "status": "proved",
   "theorems": [
    "c77_clip",
    "c77_neighbours",
    "c77_mask",
    "c77_total"
   ],
   "note": ""
  },
  {
   "property": "C78",
   "status": "proved",
   "theorems": [
    "c78_mask",
    "c78_raises",
    "c78_range",
    "c78_asks",
    "c78_again_refuted"
   ],
   "note": "The theorem c78_again_refuted gives concrete inputs on which the code violates the unscoped property."
  },
  {
   "property": "C79",
   "status": "proved",
   "theorems": [
    "c79_typed",
    "c79_close",
    "c79_close_refuted",
    "c79_refused"
   ],
   "note": "The theorem c79_close_refuted gives concrete inputs on which the code violates the unscoped property."
  },
  {
   "property": "C80",
   "status": "proved",
   "theorems": [
    "c80_times",
    "c80_values",
    "c80_raises",
    "c80_late_refuted"
   ],
   "note": "The theorem c80_late_refuted gives concrete inputs on which the code violates the unscoped property."
  },
  {
   "property": "C81",
   "status": "proved",
   "theorems": [
    "c81_order",
    "c81_exact",
    "c81_cubic_refuted"
   ],
   "note": "The theorem c81_cubic_refuted gives concrete inputs on which the code violates the unscoped property."
  },
  {
   "property": "C82",
   "status": "proved",
   "theorems": [
    "c82_disconts",
    "c82_pair",
    "c82_step_refuted"
   ],
   "note": "The theorem c82_step_refuted gives concrete inputs on which the code violates the unscoped property."
  }
 ]
}