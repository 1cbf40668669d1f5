{
"C108_deviations_partial": [
"classic",
"constructive_indefinite_description",
"functional_extensionality_dep",
"sig_forall_dec",
"sig_not_dec"
],
"C108_getters": [
"classic",
"constructive_indefinite_description",
"functional_extensionality_dep",
"sig_forall_dec",
"sig_not_dec"
],
"C108_attitude_units_refuted": [
"classic",
"constructive_indefinite_description",
"functional_extensionality_dep",
"sig_forall_dec",
"sig_not_dec"
],
"C109_levels_REFUTED": [
"classic",
"functional_extensionality_dep",
"sig_forall_dec",
"sig_not_dec"
],
"C109_axis_up_partial": [
"classic",
"functional_extensionality_dep",
"sig_forall_dec",
"sig_not_dec"
],
"C70_levelling_partial": [
"classic",
"constructive_indefinite_description",
"functional_extensionality_dep",
"sig_forall_dec",
"sig_not_dec"
],
"C70_configured_errors_partial": [
"classic",
"constructive_indefinite_description",
"functional_extensionality_dep",
"sig_forall_dec",
"sig_not_dec"
],
"C71_installation_angle_refuted": [
"classic",
"constructive_indefinite_description",
"functional_extensionality_dep",
"sig_forall_dec",
"sig_not_dec"
],
"C72_accuracy_refuted": [
"classic",
"constructive_indefinite_description",
"functional_extensionality_dep",
"sig_forall_dec",
"sig_not_dec"
],
"C73_velocity_refuted": [
"classic",
"constructive_indefinite_description",
"functional_extensionality_dep",
"sig_forall_dec",
"sig_not_dec"
],
"C73_any_velocity_refuted": [
"functional_extensionality_dep",
"sig_forall_dec",
"sig_not_dec"
],
"C12_status_forward": [
"classic",
"constructive_indefinite_description",
"functional_extensionality_dep",
"sig_forall_dec",
"sig_not_dec"
],
"C12_never_error": [
"classic",
"constructive_indefinite_description",
"functional_extensionality_dep",
"sig_forall_dec",
"sig_not_dec"
],
"C12_no_undefined_behaviour": [
"classic",
"constructive_indefinite_description",
"functional_extensionality_dep",
"sig_forall_dec",
"sig_not_dec"
],
"C13_reason_partial": [
"classic",
"constructive_indefinite_description",
"functional_extensionality_dep",
"sig_forall_dec",
"sig_not_dec"
],
"C13_reached_partial": [
"classic",
"constructive_indefinite_description",
"functional_extensionality_dep",
"sig_forall_dec",
"sig_not_dec"
],
"C13_heading_after_levelling_refuted": [
"classic",
"constructive_indefinite_description",
"functional_extensionality_dep",
"sig_forall_dec",
"sig_not_dec"
],
"C14_null_sample": [],
"C14_null_fix": [],
"C15_fixes_keep_status": [
"classic",
"constructive_indefinite_description",
"functional_extensionality_dep",
"sig_forall_dec",
"sig_not_dec"
],
"C15_nothing_before_first_sample": [
"classic",
"constructive_indefinite_description",
"functional_extensionality_dep",
"sig_forall_dec",
"sig_not_dec"
],
"C16_no_side_effects": [
"classic",
"constructive_indefinite_description",
"functional_extensionality_dep",
"sig_forall_dec",
"sig_not_dec"
],
"C16_others_unchanged": [
"classic",
"constructive_indefinite_description",
"functional_extensionality_dep",
"sig_forall_dec",
"sig_not_dec"
],
"C16_gated": [
"classic",
"functional_extensionality_dep",
"sig_forall_dec",
"sig_not_dec"
],
"C16_navigation": [
"classic",
"functional_extensionality_dep",
"sig_forall_dec",
"sig_not_dec"
],
"C17_attitude_accuracy_refuted": [
"classic",
"functional_extensionality_dep",
"sig_forall_dec",
"sig_not_dec"
],
"C17_zero_refuted": [
"classic",
"constructive_indefinite_description",
"functional_extensionality_dep",
"sig_forall_dec",
"sig_not_dec"
],
"C18_zero_state_refuted": [
"classic",
"constructive_indefinite_description",
"functional_extensionality_dep",
"sig_forall_dec",
"sig_not_dec"
],
"C18_null_options_refuted": [],
"C18_old_status_refuted": [
"classic",
"constructive_indefinite_description",
"functional_extensionality_dep",
"sig_forall_dec",
"sig_not_dec"
],
"C18_outcome_partial": [
"classic",
"constructive_indefinite_description",
"functional_extensionality_dep",
"sig_forall_dec",
"sig_not_dec"
],
"C18_fresh_partial": [
"classic",
"constructive_indefinite_description",
"functional_extensionality_dep",
"sig_forall_dec",
"sig_not_dec"
],
"C68_two_devices": [
"classic",
"constructive_indefinite_description",
"functional_extensionality_dep",
"sig_forall_dec",
"sig_not_dec"
],
"C69_given_state_kept": [
"classic",
"constructive_indefinite_description",
"functional_extensionality_dep",
"sig_forall_dec",
"sig_not_dec"
],
"C69_finite": [
"classic",
"constructive_indefinite_description",
"functional_extensionality_dep",
"sig_forall_dec",
"sig_not_dec"
],
"C74_gnss_off_refuted": [
"classic",
"constructive_indefinite_description",
"functional_extensionality_dep",
"sig_forall_dec",
"sig_not_dec"
],
"C74_no_effect_refuted": [
"classic",
"constructive_indefinite_description",
"functional_extensionality_dep",
"sig_forall_dec",
"sig_not_dec"
],
"C39_outage_windows": [],
"C39_disabled_never_outage": [],
"C39_construction_terminates_refuted": [],
"C39_zero_step_hangs": [],
"C39_one_window_at_a_time": [],
"C40_merge": [],
"C40_end_is_reported": [],
"C41_all_delivered_refuted": [],
"C41_tail_is_lost": [],
"C41_imu_only_partial": [],
"C42_every_result_written_refuted": [],
"C42_race_free_refuted": [],
"C42_file_is_prefix_partial": [],
"C42_missing_are_queued_partial": [],
"C42_no_empty_pop_partial": [],
"C42_no_deadlock_partial": [],
"C42_stop_returns_partial": [],
"C52_start_time_refuted": [],
"C52_move_to_time_partial": [],
"C53_mean_interval_refuted": [],
"C53_statistics_partial": [],
"C54_progress": [],
"C54_progress_empty_refuted": [],
"C79_rewind_delivers_again": [],
"C79_statistics_refuted": [],
"C140_drift": [
"classic",
"functional_extensionality_dep",
"sig_forall_dec",
"sig_not_dec"
],
"C140_linear": [
"classic",
"functional_extensionality_dep",
"sig_forall_dec",
"sig_not_dec"
],
"C43_round_trip_refuted": [],
"C43_completed_file_partial": [],
"C43_threshold_lost_refuted": [],
"C43_columns_saved": [],
"C44_parameter_units": [
"functional_extensionality_dep",
"sig_forall_dec",
"sig_not_dec"
],
"C44_option_angles": [
"functional_extensionality_dep",
"sig_forall_dec",
"sig_not_dec"
],
"C44_print_is_file": [
"functional_extensionality_dep",
"sig_forall_dec",
"sig_not_dec"
],
"C60_settings_reach_filter_refuted": [
"functional_extensionality_dep",
"sig_forall_dec",
"sig_not_dec"
],
"C60_initial_accuracy_is_zero": [
"functional_extensionality_dep",
"sig_forall_dec",
"sig_not_dec"
],
"C60_passed_on_partial": [
"functional_extensionality_dep",
"sig_forall_dec",
"sig_not_dec"
],
"C138_sideways": [
"classic",
"constructive_indefinite_description",
"functional_extensionality_dep",
"sig_forall_dec",
"sig_not_dec"
],
"C138_epoch": [
"classic",
"constructive_indefinite_description",
"functional_extensionality_dep",
"sig_forall_dec",
"sig_not_dec"
],
"C139_still_partial": [
"classic",
"constructive_indefinite_description",
"functional_extensionality_dep",
"sig_forall_dec",
"sig_not_dec"
],
"C139_overwritten_refuted": [
"classic",
"constructive_indefinite_description",
"functional_extensionality_dep",
"sig_forall_dec",
"sig_not_dec"
],
"C93_orthogonal_partial": [
"functional_extensionality_dep",
"sig_forall_dec"
],
"C93_forward_partial": [
"functional_extensionality_dep",
"sig_forall_dec",
"sig_not_dec"
],
"C93_straight_partial": [
"functional_extensionality_dep",
"sig_forall_dec",
"sig_not_dec"
],
"C93_direction_REFUTED": [
"functional_extensionality_dep",
"sig_forall_dec"
],
"C93_rotation_REFUTED": [
"functional_extensionality_dep",
"sig_forall_dec"
],
"C93_roll_REFUTED": [
"functional_extensionality_dep",
"sig_forall_dec"
],
"C94_scale_partial": [
"functional_extensionality_dep",
"sig_forall_dec",
"sig_not_dec"
],
"C94_no_odometer_REFUTED": [
"functional_extensionality_dep",
"sig_forall_dec",
"sig_not_dec"
],
"C110_given": [
"classic",
"constructive_indefinite_description",
"functional_extensionality_dep",
"sig_forall_dec",
"sig_not_dec"
],
"C110_navigating_partial": [
"classic",
"constructive_indefinite_description",
"functional_extensionality_dep",
"sig_forall_dec",
"sig_not_dec"
],
"C110_alignment_REFUTED": [
"classic",
"constructive_indefinite_description",
"functional_extensionality_dep",
"sig_forall_dec",
"sig_not_dec"
],
"C110_transparent": [
"classic",
"constructive_indefinite_description",
"functional_extensionality_dep",
"sig_forall_dec",
"sig_not_dec"
],
"C111_reported": [
"classic",
"constructive_indefinite_description",
"functional_extensionality_dep",
"sig_forall_dec",
"sig_not_dec"
],
"C111_each_sample": [
"classic",
"constructive_indefinite_description",
"functional_extensionality_dep",
"sig_forall_dec",
"sig_not_dec"
],
"C112_place_partial": [
"classic",
"constructive_indefinite_description",
"functional_extensionality_dep",
"sig_forall_dec",
"sig_not_dec"
],
"C112_time_REFUTED": [
"classic",
"constructive_indefinite_description",
"functional_extensionality_dep",
"sig_forall_dec",
"sig_not_dec"
],
"C113_innovation": [
"classic",
"constructive_indefinite_description",
"functional_extensionality_dep",
"sig_forall_dec",
"sig_not_dec"
],
"C113_none": [
"classic",
"constructive_indefinite_description",
"functional_extensionality_dep",
"sig_forall_dec",
"sig_not_dec"
],
"C113_only_fixes": [
"classic",
"constructive_indefinite_description",
"functional_extensionality_dep",
"sig_forall_dec",
"sig_not_dec"
],
"C114_attitude_REFUTED": [
"classic",
"constructive_indefinite_description",
"functional_extensionality_dep",
"sig_forall_dec",
"sig_not_dec"
],
"C114_filter_partial": [
"classic",
"constructive_indefinite_description",
"functional_extensionality_dep",
"sig_forall_dec",
"sig_not_dec"
],
"C114_start_partial": [
"classic",
"constructive_indefinite_description",
"functional_extensionality_dep",
"sig_forall_dec",
"sig_not_dec"
],
"C114_flags_partial": [
"classic",
"constructive_indefinite_description",
"functional_extensionality_dep",
"sig_forall_dec",
"sig_not_dec"
],
"C114_place_near": [
"classic",
"functional_extensionality_dep",
"sig_forall_dec",
"sig_not_dec"
],
"C114_place_REFUTED": [
"classic",
"functional_extensionality_dep",
"sig_forall_dec",
"sig_not_dec"
],
"C165_unbiased": [
"classic",
"constructive_indefinite_description",
"functional_extensionality_dep",
"sig_forall_dec"
],
"C165_conservative": [
"classic",
"constructive_indefinite_description",
"functional_extensionality_dep",
"sig_forall_dec"
],
"C165_exact": [
"classic",
"constructive_indefinite_description",
"functional_extensionality_dep",
"sig_forall_dec"
],
"C166_better": [
"classic",
"constructive_indefinite_description",
"functional_extensionality_dep",
"sig_forall_dec"
],
"C168_rows": [
"functional_extensionality_dep",
"sig_forall_dec",
"sig_not_dec"
],
"C168_cells_partial": [
"functional_extensionality_dep",
"sig_forall_dec",
"sig_not_dec"
],
"C168_exchanged_REFUTED": [
"functional_extensionality_dep",
"sig_forall_dec",
"sig_not_dec"
],
"C168_latitude_REFUTED": [
"classic",
"functional_extensionality_dep",
"sig_forall_dec",
"sig_not_dec"
],
"C168_week_REFUTED": [
"functional_extensionality_dep",
"sig_forall_dec",
"sig_not_dec"
],
"C168_not_asked": [
"functional_extensionality_dep",
"sig_forall_dec",
"sig_not_dec"
],
"C168_written": [
"functional_extensionality_dep",
"sig_forall_dec",
"sig_not_dec"
],
"C141_heading": [
"functional_extensionality_dep",
"sig_forall_dec"
],
"C142_errors_partial": [
"functional_extensionality_dep",
"sig_forall_dec",
"sig_not_dec"
],
"C142_zero_partial": [
"functional_extensionality_dep",
"sig_forall_dec",
"sig_not_dec"
],
"C142_rows": [
"functional_extensionality_dep",
"sig_forall_dec"
],
"C142_rms": [
"functional_extensionality_dep",
"sig_forall_dec",
"sig_not_dec"
],
"C142_antimeridian_refuted": [
"functional_extensionality_dep",
"sig_forall_dec",
"sig_not_dec"
],
"C143_share_partial": [
"classic",
"functional_extensionality_dep",
"sig_forall_dec",
"sig_not_dec"
],
"C143_fails": [
"classic",
"functional_extensionality_dep",
"sig_forall_dec",
"sig_not_dec"
],
"C143_blind_refuted": [
"functional_extensionality_dep",
"sig_forall_dec",
"sig_not_dec"
],
"C143_refuted": [
"functional_extensionality_dep",
"sig_forall_dec",
"sig_not_dec"
],
"C144_perfect_partial": [
"functional_extensionality_dep",
"sig_forall_dec",
"sig_not_dec"
],
"C144_nothing": [
"functional_extensionality_dep",
"sig_forall_dec",
"sig_not_dec"
],
"C144_refuted": [
"functional_extensionality_dep",
"sig_forall_dec",
"sig_not_dec"
],
"C84_gnss_flag_partial": [
"classic",
"constructive_indefinite_description",
"functional_extensionality_dep",
"sig_forall_dec",
"sig_not_dec"
],
"C84_gnss_flag_before": [
"classic",
"constructive_indefinite_description",
"functional_extensionality_dep",
"sig_forall_dec",
"sig_not_dec"
],
"C84_not_cleared": [
"classic",
"constructive_indefinite_description",
"functional_extensionality_dep",
"sig_forall_dec",
"sig_not_dec"
],
"C84_odometer_flag": [
"classic",
"constructive_indefinite_description",
"functional_extensionality_dep",
"sig_forall_dec",
"sig_not_dec"
],
"C84_imu_flag": [
"classic",
"constructive_indefinite_description",
"functional_extensionality_dep",
"sig_forall_dec",
"sig_not_dec"
],
"C84_zero_velocity_flag": [
"classic",
"constructive_indefinite_description",
"functional_extensionality_dep",
"sig_forall_dec",
"sig_not_dec"
],
"C84_mode_at_fix": [
"classic",
"constructive_indefinite_description",
"functional_extensionality_dep",
"sig_forall_dec",
"sig_not_dec"
],
"C102_exact": [
"classic",
"functional_extensionality_dep",
"sig_forall_dec",
"sig_not_dec"
],
"C102_no_drift": [
"classic",
"functional_extensionality_dep",
"sig_forall_dec",
"sig_not_dec"
],
"C102_senseless_plan": [
"classic",
"functional_extensionality_dep",
"sig_forall_dec",
"sig_not_dec"
],
"C102_positive_step_ends_refuted": [
"classic",
"functional_extensionality_dep",
"sig_forall_dec",
"sig_not_dec"
],
"C102_small_step_hangs": [
"classic",
"functional_extensionality_dep",
"sig_forall_dec",
"sig_not_dec"
],
"C103_gap_exact": [
"classic",
"functional_extensionality_dep",
"sig_forall_dec",
"sig_not_dec"
],
"C103_max_and_mean": [
"classic",
"functional_extensionality_dep",
"sig_forall_dec",
"sig_not_dec"
],
"C103_gnss_delay_exact": [
"classic",
"functional_extensionality_dep",
"sig_forall_dec",
"sig_not_dec"
],
"C104_given_angle_returned": [
"classic",
"functional_extensionality_dep",
"sig_forall_dec",
"sig_not_dec"
],
"C104_velocity_precision": [
"classic",
"functional_extensionality_dep",
"sig_forall_dec",
"sig_not_dec"
],
"C104_attitude_precision": [
"classic",
"functional_extensionality_dep",
"sig_forall_dec",
"sig_not_dec"
],
"C104_height_precision": [
"classic",
"functional_extensionality_dep",
"sig_forall_dec",
"sig_not_dec"
],
"C104_order_kept": [
"classic",
"functional_extensionality_dep",
"sig_forall_dec",
"sig_not_dec"
],
"C104_float_unchanged": [
"classic",
"functional_extensionality_dep",
"sig_forall_dec",
"sig_not_dec"
],
"C19_symmetric": [
"classic",
"constructive_indefinite_description",
"functional_extensionality_dep",
"sig_forall_dec",
"sig_not_dec"
],
"C22_positive_semidefinite_refuted": [
"classic",
"constructive_indefinite_description",
"functional_extensionality_dep",
"sig_forall_dec",
"sig_not_dec"
],
"C22_negative_variance_refuted": [
"classic",
"constructive_indefinite_description",
"functional_extensionality_dep",
"sig_forall_dec",
"sig_not_dec"
],
"C22_bounded_loss_partial": [
"classic",
"constructive_indefinite_description",
"functional_extensionality_dep",
"sig_forall_dec",
"sig_not_dec"
],
"C23_number_of_parts": [
"classic",
"constructive_indefinite_description",
"functional_extensionality_dep",
"sig_forall_dec",
"sig_not_dec"
],
"C23_biases": [
"classic",
"constructive_indefinite_description",
"functional_extensionality_dep",
"sig_forall_dec",
"sig_not_dec"
],
"C23_parts": [
"classic",
"constructive_indefinite_description",
"functional_extensionality_dep",
"sig_forall_dec",
"sig_not_dec"
],
"C24_all_measurements_count_refuted": [
"classic",
"constructive_indefinite_description",
"functional_extensionality_dep",
"sig_forall_dec",
"sig_not_dec"
],
"C24_zero_velocity_ignored_refuted": [
"classic",
"constructive_indefinite_description",
"functional_extensionality_dep",
"sig_forall_dec"
],
"C25_rejected": [
"classic",
"constructive_indefinite_description",
"functional_extensionality_dep",
"sig_forall_dec",
"sig_not_dec"
],
"C25_flags": [
"classic",
"constructive_indefinite_description",
"functional_extensionality_dep",
"sig_forall_dec",
"sig_not_dec"
],
"C26_schedule": [
"classic",
"constructive_indefinite_description",
"functional_extensionality_dep",
"sig_forall_dec",
"sig_not_dec"
],
"C48_after_fix_partial": [
"classic",
"constructive_indefinite_description",
"functional_extensionality_dep",
"sig_forall_dec",
"sig_not_dec"
],
"C48_needs_reference_refuted": [
"classic",
"constructive_indefinite_description",
"functional_extensionality_dep",
"sig_forall_dec",
"sig_not_dec"
],
"C62_first_fix": [
"classic",
"constructive_indefinite_description",
"functional_extensionality_dep",
"sig_forall_dec",
"sig_not_dec"
],
"C62_fix_above": [
"classic",
"constructive_indefinite_description",
"functional_extensionality_dep",
"sig_forall_dec",
"sig_not_dec"
],
"C63_innovation": [
"classic",
"constructive_indefinite_description",
"functional_extensionality_dep",
"sig_forall_dec",
"sig_not_dec"
],
"C64_remainder_kept_refuted": [
"classic",
"constructive_indefinite_description",
"functional_extensionality_dep",
"sig_forall_dec",
"sig_not_dec"
],
"C64_spread_over_thousand": [
"classic",
"constructive_indefinite_description",
"functional_extensionality_dep",
"sig_forall_dec",
"sig_not_dec"
],
"C65_level_corrections": [
"classic",
"functional_extensionality_dep",
"sig_forall_dec",
"sig_not_dec"
],
"C66_constraints_at_rest": [
"classic",
"constructive_indefinite_description",
"functional_extensionality_dep",
"sig_forall_dec",
"sig_not_dec"
],
"C67_earth_rate_is_no_bias_refuted": [
"classic",
"constructive_indefinite_description",
"functional_extensionality_dep",
"sig_forall_dec"
],
"C67_rate_at_rest": [
"functional_extensionality_dep",
"sig_forall_dec",
"sig_not_dec"
],
"C146_last_digit_partial": [
"functional_extensionality_dep",
"sig_forall_dec",
"sig_not_dec"
],
"C146_newline_partial": [
"functional_extensionality_dep",
"sig_forall_dec",
"sig_not_dec"
],
"C146_newline_REFUTED": [
"functional_extensionality_dep",
"sig_forall_dec",
"sig_not_dec"
],
"C147_own_files_REFUTED": [
"functional_extensionality_dep",
"sig_forall_dec",
"sig_not_dec"
],
"C147_no_result_REFUTED": [
"functional_extensionality_dep",
"sig_forall_dec",
"sig_not_dec"
],
"C148_negated_partial": [
"classic",
"constructive_indefinite_description",
"functional_extensionality_dep",
"sig_forall_dec",
"sig_not_dec"
],
"C148_labelled_REFUTED": [
"classic",
"functional_extensionality_dep",
"sig_forall_dec",
"sig_not_dec"
],
"C152_ends_partial": [],
"C152_missing_file_REFUTED": [],
"C152_heading_REFUTED": [],
"C152_repeats_REFUTED": [],
"C152_grows_REFUTED": [
"functional_extensionality_dep",
"sig_forall_dec",
"sig_not_dec"
],
"C125_position_partial": [],
"C125_failure": [],
"C125_data_refuted": [],
"C126_imu": [],
"C126_wheel": [],
"C126_result": [],
"C126_fix_refuted": [],
"C127_written_partial": [],
"C127_zupta_refuted": [],
"C127_missing_refuted": [],
"C127_load_refuted": [],
"C128_row_partial": [
"functional_extensionality_dep",
"sig_forall_dec",
"sig_not_dec"
],
"C128_east_refuted": [
"functional_extensionality_dep",
"sig_forall_dec",
"sig_not_dec"
],
"C128_base_meridian_refuted": [
"functional_extensionality_dep",
"sig_forall_dec",
"sig_not_dec"
],
"C134_least": [
"classic",
"constructive_indefinite_description",
"functional_extensionality_dep",
"sig_forall_dec"
],
"C134_information": [
"classic",
"constructive_indefinite_description",
"functional_extensionality_dep",
"sig_forall_dec"
],
"C134_order": [
"classic",
"constructive_indefinite_description",
"functional_extensionality_dep",
"sig_forall_dec"
],
"C135_least": [
"classic",
"constructive_indefinite_description",
"functional_extensionality_dep",
"sig_forall_dec",
"sig_not_dec"
],
"C135_order": [
"classic",
"constructive_indefinite_description",
"functional_extensionality_dep",
"sig_forall_dec",
"sig_not_dec"
],
"C135_body": [
"functional_extensionality_dep",
"sig_forall_dec",
"sig_not_dec"
],
"C135_straight": [
"classic",
"constructive_indefinite_description",
"functional_extensionality_dep",
"sig_forall_dec",
"sig_not_dec"
],
"C135_aligned": [
"classic",
"constructive_indefinite_description",
"functional_extensionality_dep",
"sig_forall_dec",
"sig_not_dec"
],
"C86_statistic_partial": [
"classic",
"constructive_indefinite_description",
"functional_extensionality_dep",
"sig_forall_dec"
],
"C86_not_normalised": [
"classic",
"constructive_indefinite_description",
"functional_extensionality_dep",
"sig_forall_dec"
],
"C86_never_rejects": [
"classic",
"constructive_indefinite_description",
"functional_extensionality_dep",
"sig_forall_dec"
],
"C86_counter": [
"classic",
"constructive_indefinite_description",
"functional_extensionality_dep",
"sig_forall_dec"
],
"C86_fix_never_rejected": [
"classic",
"constructive_indefinite_description",
"functional_extensionality_dep",
"sig_forall_dec",
"sig_not_dec"
],
"C36_position_matrix_start": [
"functional_extensionality_dep",
"sig_forall_dec",
"sig_not_dec"
],
"C36_rotation": [
"classic",
"functional_extensionality_dep",
"sig_forall_dec",
"sig_not_dec"
],
"C36_euler": [
"classic",
"functional_extensionality_dep",
"sig_forall_dec",
"sig_not_dec"
],
"C36_position_matrix": [
"classic",
"functional_extensionality_dep",
"sig_forall_dec",
"sig_not_dec"
],
"C37_flag": [
"functional_extensionality_dep",
"sig_forall_dec",
"sig_not_dec"
],
"C37_one_sample_clears": [
"functional_extensionality_dep",
"sig_forall_dec",
"sig_not_dec"
],
"C37_spread": [
"functional_extensionality_dep",
"sig_forall_dec",
"sig_not_dec"
],
"C37_defined_partial": [
"functional_extensionality_dep",
"sig_forall_dec",
"sig_not_dec"
],
"C37_overflow_refuted": [
"functional_extensionality_dep",
"sig_forall_dec",
"sig_not_dec"
],
"C38_in_range": [
"functional_extensionality_dep",
"sig_forall_dec",
"sig_not_dec"
],
"C38_first_window": [
"functional_extensionality_dep",
"sig_forall_dec",
"sig_not_dec"
],
"C38_weighted": [
"functional_extensionality_dep",
"sig_forall_dec",
"sig_not_dec"
],
"C38_variance": [
"functional_extensionality_dep",
"sig_forall_dec",
"sig_not_dec"
],
"C38_constant": [
"functional_extensionality_dep",
"sig_forall_dec",
"sig_not_dec"
],
"C45_unit_and_bounded": [
"functional_extensionality_dep",
"sig_forall_dec",
"sig_not_dec"
],
"C45_matrix": [
"functional_extensionality_dep",
"sig_forall_dec",
"sig_not_dec"
],
"C45_set_quaternion_refuted": [
"classic",
"functional_extensionality_dep",
"sig_forall_dec",
"sig_not_dec"
],
"C45_magnetometer_refuted": [
"classic",
"functional_extensionality_dep",
"sig_forall_dec",
"sig_not_dec"
],
"C47_rests_partial": [
"classic",
"functional_extensionality_dep",
"sig_forall_dec",
"sig_not_dec"
],
"C47_first_epoch_partial": [
"classic",
"functional_extensionality_dep",
"sig_forall_dec",
"sig_not_dec"
],
"C47_exact_refuted": [
"classic",
"functional_extensionality_dep",
"sig_forall_dec",
"sig_not_dec"
],
"C75_place": [
"classic",
"functional_extensionality_dep",
"sig_forall_dec",
"sig_not_dec"
],
"C75_velocity": [
"classic",
"functional_extensionality_dep",
"sig_forall_dec",
"sig_not_dec"
],
"C75_attitude": [
"classic",
"functional_extensionality_dep",
"sig_forall_dec",
"sig_not_dec"
],
"C75_every_state": [
"classic",
"functional_extensionality_dep",
"sig_forall_dec",
"sig_not_dec"
],
"C75_place_in_step": [
"classic",
"functional_extensionality_dep",
"sig_forall_dec",
"sig_not_dec"
],
"C75_velocity_in_step": [
"classic",
"functional_extensionality_dep",
"sig_forall_dec",
"sig_not_dec"
],
"C75_attitude_in_step": [
"classic",
"functional_extensionality_dep",
"sig_forall_dec",
"sig_not_dec"
],
"C75_slip_matters": [
"classic",
"functional_extensionality_dep",
"sig_forall_dec",
"sig_not_dec"
],
"C76_fix": [
"classic",
"functional_extensionality_dep",
"sig_forall_dec",
"sig_not_dec"
],
"C76_after_a_sample": [
"classic",
"functional_extensionality_dep",
"sig_forall_dec",
"sig_not_dec"
],
"C76_fix_after_correction": [
"classic",
"functional_extensionality_dep",
"sig_forall_dec",
"sig_not_dec"
],
"C76_fix_in_step": [
"classic",
"functional_extensionality_dep",
"sig_forall_dec",
"sig_not_dec"
],
"C76_rest_is_small": [
"functional_extensionality_dep",
"sig_forall_dec",
"sig_not_dec"
],
"C76_design_is_the_matrix": [
"classic",
"constructive_indefinite_description",
"functional_extensionality_dep",
"sig_forall_dec"
],
"C77_wheel": [
"classic",
"functional_extensionality_dep",
"sig_forall_dec",
"sig_not_dec"
],
"C77_zero_velocity": [
"classic",
"functional_extensionality_dep",
"sig_forall_dec",
"sig_not_dec"
],
"C78_denominators": [
"classic",
"constructive_indefinite_description",
"functional_extensionality_dep",
"sig_forall_dec",
"sig_not_dec"
],
"C78_error_model": [
"classic",
"constructive_indefinite_description",
"functional_extensionality_dep",
"sig_forall_dec",
"sig_not_dec"
],
"C78_transition_matrix": [
"classic",
"constructive_indefinite_description",
"functional_extensionality_dep",
"sig_forall_dec",
"sig_not_dec"
],
"C145_slip_rate": [
"classic",
"functional_extensionality_dep",
"sig_forall_dec",
"sig_not_dec"
],
"C145_one_correction": [
"classic",
"functional_extensionality_dep",
"sig_forall_dec",
"sig_not_dec"
],
"C145_slip_is_tilt": [
"functional_extensionality_dep",
"sig_forall_dec"
],
"C20_predict": [
"classic",
"constructive_indefinite_description",
"functional_extensionality_dep",
"sig_forall_dec"
],
"C20_predict_symmetric": [
"classic",
"constructive_indefinite_description",
"functional_extensionality_dep",
"sig_forall_dec"
],
"C20_update": [
"classic",
"constructive_indefinite_description",
"functional_extensionality_dep",
"sig_forall_dec"
],
"C20_update_symmetric": [
"classic",
"constructive_indefinite_description",
"functional_extensionality_dep",
"sig_forall_dec"
],
"C20_update_defined": [
"classic",
"constructive_indefinite_description",
"functional_extensionality_dep",
"sig_forall_dec"
],
"C21_optimal": [
"classic",
"constructive_indefinite_description",
"functional_extensionality_dep",
"sig_forall_dec"
],
"C21_shrinks": [
"classic",
"constructive_indefinite_description",
"functional_extensionality_dep",
"sig_forall_dec"
],
"C21_gain": [
"classic",
"constructive_indefinite_description",
"functional_extensionality_dep",
"sig_forall_dec"
],
"C28_closed_branch": [
"functional_extensionality_dep",
"sig_forall_dec",
"sig_not_dec"
],
"C28_series_norm": [
"functional_extensionality_dep",
"sig_forall_dec",
"sig_not_dec"
],
"C28_series_close": [
"functional_extensionality_dep",
"sig_forall_dec",
"sig_not_dec"
],
"C29_rotation": [
"functional_extensionality_dep",
"sig_forall_dec"
],
"C29_composition": [
"functional_extensionality_dep",
"sig_forall_dec"
],
"C29_rotates_vectors": [
"functional_extensionality_dep",
"sig_forall_dec"
],
"C30_direct_conversion": [
"functional_extensionality_dep",
"sig_forall_dec",
"sig_not_dec"
],
"C30_via_quaternion": [
"functional_extensionality_dep",
"sig_forall_dec",
"sig_not_dec"
],
"C31_roundtrip_partial": [
"classic",
"functional_extensionality_dep",
"sig_forall_dec",
"sig_not_dec"
],
"C31_pitch_partial": [
"classic",
"functional_extensionality_dep",
"sig_forall_dec",
"sig_not_dec"
],
"C31_always_numbers_refuted": [
"classic",
"functional_extensionality_dep",
"sig_forall_dec",
"sig_not_dec"
],
"C31_vertical_down_refuted": [
"classic",
"functional_extensionality_dep",
"sig_forall_dec",
"sig_not_dec"
],
"C31_vertical_up": [
"classic",
"functional_extensionality_dep",
"sig_forall_dec",
"sig_not_dec"
],
"C32_roundtrip_partial": [
"classic",
"functional_extensionality_dep",
"sig_forall_dec",
"sig_not_dec"
],
"C32_quaternion": [
"functional_extensionality_dep",
"sig_forall_dec",
"sig_not_dec"
],
"C32_position_matrix": [
"functional_extensionality_dep",
"sig_forall_dec",
"sig_not_dec"
],
"C32_antimeridian_refuted": [
"classic",
"functional_extensionality_dep",
"sig_forall_dec",
"sig_not_dec"
],
"C33_on_ellipsoid": [
"functional_extensionality_dep",
"sig_forall_dec",
"sig_not_dec"
],
"C33_wgs84": [
"functional_extensionality_dep",
"sig_forall_dec"
],
"C33_height": [
"functional_extensionality_dep",
"sig_forall_dec",
"sig_not_dec"
],
"C34_radii": [
"functional_extensionality_dep",
"sig_forall_dec",
"sig_not_dec"
],
"C34_gravity_positive": [
"functional_extensionality_dep",
"sig_forall_dec",
"sig_not_dec"
],
"C34_gravity_latitude": [
"functional_extensionality_dep",
"sig_forall_dec",
"sig_not_dec"
],
"C34_gravity_height": [
"functional_extensionality_dep",
"sig_forall_dec",
"sig_not_dec"
],
"C35_zero_for_equal_points": [
"functional_extensionality_dep",
"sig_forall_dec",
"sig_not_dec"
],
"C35_no_height_north": [
"functional_extensionality_dep",
"sig_forall_dec",
"sig_not_dec"
],
"C35_signs_partial": [
"functional_extensionality_dep",
"sig_forall_dec",
"sig_not_dec"
],
"C35_direction_refuted": [
"classic",
"functional_extensionality_dep",
"sig_forall_dec",
"sig_not_dec"
],
"C35_no_height_variant_refuted": [
"functional_extensionality_dep",
"sig_forall_dec",
"sig_not_dec"
],
"C61_same_rotation": [
"functional_extensionality_dep",
"sig_forall_dec",
"sig_not_dec"
],
"C61_zero_vector_refuted": [
"functional_extensionality_dep",
"sig_forall_dec",
"sig_not_dec"
],
"C27_layout_refuted": [],
"C27_layout_exact_partial": [],
"C27_inside": [],
"C46_velocity_twos_complement": [],
"C46_checksum_refuted": [],
"C87_place_partial": [
"classic",
"functional_extensionality_dep",
"sig_forall_dec",
"sig_not_dec"
],
"C87_geodetic_partial": [
"classic",
"functional_extensionality_dep",
"sig_forall_dec",
"sig_not_dec"
],
"C87_velocity_partial": [
"classic",
"functional_extensionality_dep",
"sig_forall_dec",
"sig_not_dec"
],
"C87_attitude_partial": [
"classic",
"functional_extensionality_dep",
"sig_forall_dec",
"sig_not_dec"
],
"C87_meaning": [
"functional_extensionality_dep",
"sig_forall_dec"
],
"C88_coning": [
"classic",
"functional_extensionality_dep",
"sig_forall_dec",
"sig_not_dec"
],
"C88_sculling": [
"classic",
"functional_extensionality_dep",
"sig_forall_dec",
"sig_not_dec"
],
"C85_no_effect_partial": [
"classic",
"constructive_indefinite_description",
"functional_extensionality_dep",
"sig_forall_dec",
"sig_not_dec"
],
"C85_scale_reported": [
"classic",
"constructive_indefinite_description",
"functional_extensionality_dep",
"sig_forall_dec",
"sig_not_dec"
],
"C120_uses_of_a_fix_partial": [
"classic",
"constructive_indefinite_description",
"functional_extensionality_dep",
"sig_forall_dec",
"sig_not_dec"
],
"C120_used_twice_refuted": [],
"C120_used_partial": [],
"C121_outages_ignored_refuted": [
"classic",
"constructive_indefinite_description",
"functional_extensionality_dep",
"sig_forall_dec",
"sig_not_dec"
],
"C121_fix_in_outage_refuted": [
"classic",
"constructive_indefinite_description",
"functional_extensionality_dep",
"sig_forall_dec",
"sig_not_dec"
],
"C122_first_record_refuted": [
"classic",
"constructive_indefinite_description",
"functional_extensionality_dep",
"sig_forall_dec",
"sig_not_dec"
],
"C123_lines": [
"classic",
"constructive_indefinite_description",
"functional_extensionality_dep",
"sig_forall_dec",
"sig_not_dec"
],
"C123_result_variable": [
"classic",
"constructive_indefinite_description",
"functional_extensionality_dep",
"sig_forall_dec",
"sig_not_dec"
],
"C123_given_state": [
"classic",
"constructive_indefinite_description",
"functional_extensionality_dep",
"sig_forall_dec",
"sig_not_dec"
],
"C124_programs_agree": [
"classic",
"constructive_indefinite_description",
"functional_extensionality_dep",
"sig_forall_dec",
"sig_not_dec"
],
"C80_ends": [
"classic",
"constructive_indefinite_description",
"functional_extensionality_dep",
"sig_forall_dec",
"sig_not_dec"
],
"C80_samples_taken": [
"classic",
"constructive_indefinite_description",
"functional_extensionality_dep",
"sig_forall_dec",
"sig_not_dec"
],
"C80_one_line_per_sample": [
"classic",
"constructive_indefinite_description",
"functional_extensionality_dep",
"sig_forall_dec",
"sig_not_dec"
],
"C80_line_is_the_answer": [
"classic",
"constructive_indefinite_description",
"functional_extensionality_dep",
"sig_forall_dec",
"sig_not_dec"
],
"C81_fixes_in_windows_ignored": [
"classic",
"constructive_indefinite_description",
"functional_extensionality_dep",
"sig_forall_dec",
"sig_not_dec"
],
"C81_windows": [],
"C81_disabled": [],
"C81_line_repeated": [
"classic",
"constructive_indefinite_description",
"functional_extensionality_dep",
"sig_forall_dec",
"sig_not_dec"
],
"C82_memory_refuted": [
"classic",
"constructive_indefinite_description",
"functional_extensionality_dep",
"sig_forall_dec",
"sig_not_dec"
],
"C82_memory_before_navigation_refuted": [
"classic",
"constructive_indefinite_description",
"functional_extensionality_dep",
"sig_forall_dec",
"sig_not_dec"
],
"C82_given_state_partial": [
"classic",
"constructive_indefinite_description",
"functional_extensionality_dep",
"sig_forall_dec",
"sig_not_dec"
],
"C83_time_of_last_sample": [
"classic",
"constructive_indefinite_description",
"functional_extensionality_dep",
"sig_forall_dec",
"sig_not_dec"
],
"C83_times_never_go_back": [
"classic",
"constructive_indefinite_description",
"functional_extensionality_dep",
"sig_forall_dec",
"sig_not_dec"
],
"C115_gga_files_partial": [
"classic",
"constructive_indefinite_description",
"functional_extensionality_dep",
"sig_forall_dec",
"sig_not_dec"
],
"C115_unknown_format_refuted": [
"classic",
"constructive_indefinite_description",
"functional_extensionality_dep",
"sig_forall_dec",
"sig_not_dec"
],
"C115_text_files_partial": [
"classic",
"constructive_indefinite_description",
"functional_extensionality_dep",
"sig_forall_dec",
"sig_not_dec"
],
"C115_binary_files_partial": [
"classic",
"constructive_indefinite_description",
"functional_extensionality_dep",
"sig_forall_dec",
"sig_not_dec"
],
"C115_order_of_time": [],
"C115_nothing_in_between_left_out": [],
"C115_given_state": [
"classic",
"constructive_indefinite_description",
"functional_extensionality_dep",
"sig_forall_dec",
"sig_not_dec"
],
"C115_final_line_end_refuted": [
"classic",
"constructive_indefinite_description",
"functional_extensionality_dep",
"sig_forall_dec",
"sig_not_dec"
],
"C116_ten_columns_refuted": [
"classic",
"constructive_indefinite_description",
"functional_extensionality_dep",
"sig_forall_dec",
"sig_not_dec"
],
"C116_unknown_columns_refuted": [
"classic",
"constructive_indefinite_description",
"functional_extensionality_dep",
"sig_forall_dec",
"sig_not_dec"
],
"C116_imd_files_refuted": [
"classic",
"constructive_indefinite_description",
"functional_extensionality_dep",
"sig_forall_dec",
"sig_not_dec"
],
"C117_rates_refuted": [
"functional_extensionality_dep",
"sig_forall_dec"
],
"C117_program_refuted": [
"classic",
"constructive_indefinite_description",
"functional_extensionality_dep",
"sig_forall_dec",
"sig_not_dec"
],
"C118_stop_time_refuted": [
"classic",
"constructive_indefinite_description",
"functional_extensionality_dep",
"sig_forall_dec",
"sig_not_dec"
],
"C118_stop_time_ignored": [
"classic",
"constructive_indefinite_description",
"functional_extensionality_dep",
"sig_forall_dec",
"sig_not_dec"
],
"C119_delay_refuted": [],
"C96_place_partial": [
"classic",
"functional_extensionality_dep",
"sig_forall_dec",
"sig_not_dec"
],
"C96_attitude_partial": [
"classic",
"functional_extensionality_dep",
"sig_forall_dec",
"sig_not_dec"
],
"C96_velocity_REFUTED": [
"classic",
"functional_extensionality_dep",
"sig_forall_dec",
"sig_not_dec"
],
"C153_earth": [
"functional_extensionality_dep",
"sig_forall_dec",
"sig_not_dec"
],
"C153_place": [
"classic",
"functional_extensionality_dep",
"sig_forall_dec",
"sig_not_dec"
],
"C153_attitude": [
"classic",
"functional_extensionality_dep",
"sig_forall_dec",
"sig_not_dec"
],
"C153_quaternion": [
"functional_extensionality_dep",
"sig_forall_dec",
"sig_not_dec"
],
"C153_quaternion_rest": [
"functional_extensionality_dep",
"sig_forall_dec"
],
"C153_compensation": [
"functional_extensionality_dep",
"sig_forall_dec"
],
"C154_scaled_partial": [
"classic",
"functional_extensionality_dep",
"sig_forall_dec",
"sig_not_dec"
],
"C154_shrinks_refuted": [
"classic",
"functional_extensionality_dep",
"sig_forall_dec",
"sig_not_dec"
],
"C156_first_sample_partial": [
"classic",
"functional_extensionality_dep",
"sig_forall_dec",
"sig_not_dec"
],
"C156_second_sample_refuted": [
"classic",
"functional_extensionality_dep",
"sig_forall_dec",
"sig_not_dec"
],
"C154_no_rotation_refuted": [
"classic",
"functional_extensionality_dep",
"sig_forall_dec",
"sig_not_dec"
],
"C155_same_object_refuted": [
"classic",
"functional_extensionality_dep",
"sig_forall_dec",
"sig_not_dec"
],
"C155_other_objects_partial": [
"classic",
"functional_extensionality_dep",
"sig_forall_dec",
"sig_not_dec"
],
"C157_accuracy": [
"classic",
"functional_extensionality_dep",
"sig_forall_dec",
"sig_not_dec"
],
"C157_roundtrip": [
"classic",
"functional_extensionality_dep",
"sig_forall_dec",
"sig_not_dec"
],
"C157_antimeridian_refuted": [
"classic",
"functional_extensionality_dep",
"sig_forall_dec",
"sig_not_dec"
],
"C157_poles_refuted": [
"classic",
"functional_extensionality_dep",
"sig_forall_dec",
"sig_not_dec"
],
"C158_moved": [
"classic",
"functional_extensionality_dep",
"sig_forall_dec",
"sig_not_dec"
],
"C159_duplicate_partial": [
"classic",
"functional_extensionality_dep",
"sig_forall_dec",
"sig_not_dec"
],
"C159_time_partial": [
"classic",
"functional_extensionality_dep",
"sig_forall_dec",
"sig_not_dec"
],
"C159_backwards_refuted": [
"classic",
"functional_extensionality_dep",
"sig_forall_dec",
"sig_not_dec"
],
"C164_parameters": [
"functional_extensionality_dep",
"sig_forall_dec",
"sig_not_dec"
],
"C164_same_file": [
"functional_extensionality_dep",
"sig_forall_dec",
"sig_not_dec"
],
"C164_distance": [
"functional_extensionality_dep",
"sig_forall_dec",
"sig_not_dec"
],
"C164_space": [
"functional_extensionality_dep",
"sig_forall_dec",
"sig_not_dec"
],
"C164_metric": [
"functional_extensionality_dep",
"sig_forall_dec",
"sig_not_dec"
],
"C163_file": [],
"C163_str": [],
"C163_long_time_refuted": [],
"C163_state_partial": [
"functional_extensionality_dep",
"sig_forall_dec",
"sig_not_dec"
],
"C163_start": [
"functional_extensionality_dep",
"sig_forall_dec",
"sig_not_dec"
],
"C163_biases_refuted": [
"functional_extensionality_dep",
"sig_forall_dec",
"sig_not_dec"
],
"C55_one_sample_per_record_refuted": [],
"C55_records_in_order_partial": [],
"C55_broken_record_refuted": [],
"C56_one_sample_per_line_refuted": [],
"C56_reading_ends_refuted": [],
"C56_lines_partial": [],
"C57_terminated_file_refuted": [],
"C57_bad_line_drops_rest_refuted": [],
"C57_ten_lines_refuted": [],
"C57_truncated_line_refuted": [],
"C57_word_in_line_refuted": [],
"C57_all_fixes_partial": [],
"C58_quality_reaches_filter_refuted": [],
"C58_invalid_fix_is_used": [],
"C58_rest_is_passed_partial": [],
"C59_axes_involution": [],
"C59_axes_rotation": [],
"C59_whole_sample": [],
"C59_axes_meaning": [],
"C95_rest_partial": [
"functional_extensionality_dep",
"sig_forall_dec",
"sig_not_dec"
],
"C95_north_REFUTED": [
"classic",
"functional_extensionality_dep",
"sig_forall_dec",
"sig_not_dec"
],
"C95_origin_REFUTED": [
"functional_extensionality_dep",
"sig_forall_dec",
"sig_not_dec"
],
"C01_table_crc_is_crc32": [],
"C01_table_is_generated": [],
"C02_residue": [],
"C03_burst_detected": [],
"C03_burst_changes_checksum": [],
"C04_frame_layout": [],
"C05_header_round_trip": [],
"C05_names": [],
"C06_file_round_trip": [],
"C07_terminates_refuted": [],
"C07_every_damaged_record_hangs": [],
"C07_terminates_partial": [],
"C08_memory_safe_refuted": [],
"C08_every_header_only_file_reads_outside": [],
"C08_safe_on_complete_recordings_partial": [],
"C09_only_intact_frames_delivered": [],
"C09_corrupted_range_not_intact": [],
"C09_written_frames_are_intact": [],
"C10_columns_aligned": [],
"C11_error_code_refuted": [],
"C11_checksum_failure_reported_as_no_header": [],
"C11_no_start_mark": [],
"C49_truncated_recording_refuted": [],
"C50_reload_accumulates_refuted": [],
"C50_missing_file_reports_ok_refuted": [],
"C51_integers_up_to_2_24_exact": [],
"C51_integers_exact_refuted": [],
"C129_all_published": [],
"C129_always_prefix": [],
"C130_pace_refuted": [],
"C130_speed_ignored_refuted": [],
"C131_path_partial": [],
"C131_cleared_refuted": [],
"C131_whole_seconds": [],
"C133_fixes_refuted": [],
"C133_undefined_refuted": [],
"C133_samples_in_order_partial": [],
"C133_samples_complete_partial": [],
"C132_units_partial": [
"functional_extensionality_dep",
"sig_forall_dec",
"sig_not_dec"
],
"C132_increments": [
"functional_extensionality_dep",
"sig_forall_dec",
"sig_not_dec"
],
"C132_rates_for_increments_refuted": [
"functional_extensionality_dep",
"sig_forall_dec",
"sig_not_dec"
],
"C97_base_partial": [
"functional_extensionality_dep",
"sig_forall_dec"
],
"C97_scale_REFUTED": [
"functional_extensionality_dep",
"sig_forall_dec"
],
"C97_odometer_REFUTED": [
"functional_extensionality_dep",
"sig_forall_dec"
],
"C98_feedback_REFUTED": [],
"C98_column_partial": [],
"C99_true_effect_partial": [
"functional_extensionality_dep",
"sig_forall_dec"
],
"C99_gyroscopes_REFUTED": [
"functional_extensionality_dep",
"sig_forall_dec",
"sig_not_dec"
],
"C99_accelerometers_REFUTED": [
"functional_extensionality_dep",
"sig_forall_dec",
"sig_not_dec"
],
"C99_arm_and_odometer_partial": [
"functional_extensionality_dep",
"sig_forall_dec",
"sig_not_dec"
],
"C99_base_partial": [
"functional_extensionality_dep",
"sig_forall_dec",
"sig_not_dec"
],
"C100_innovation_partial": [
"functional_extensionality_dep",
"sig_forall_dec",
"sig_not_dec"
],
"C100_design_REFUTED": [
"functional_extensionality_dep",
"sig_forall_dec",
"sig_not_dec"
],
"C101_options_partial": [],
"C101_odometer_REFUTED": [],
"C162_fixes": [
"classic",
"constructive_indefinite_description",
"functional_extensionality_dep",
"sig_forall_dec",
"sig_not_dec"
],
"C162_each_fix": [
"classic",
"constructive_indefinite_description",
"functional_extensionality_dep",
"sig_forall_dec",
"sig_not_dec"
],
"C162_antenna": [
"classic",
"constructive_indefinite_description",
"functional_extensionality_dep",
"sig_forall_dec",
"sig_not_dec"
],
"C162_wheel": [
"classic",
"constructive_indefinite_description",
"functional_extensionality_dep",
"sig_forall_dec",
"sig_not_dec"
],
"C162_sideways": [
"classic",
"constructive_indefinite_description",
"functional_extensionality_dep",
"sig_forall_dec",
"sig_not_dec"
],
"C162_still": [
"classic",
"constructive_indefinite_description",
"functional_extensionality_dep",
"sig_forall_dec"
],
"C162_height": [
"classic",
"constructive_indefinite_description",
"functional_extensionality_dep",
"sig_forall_dec",
"sig_not_dec"
],
"C160_accelerometers": [
"classic",
"constructive_indefinite_description",
"functional_extensionality_dep",
"sig_forall_dec",
"sig_not_dec"
],
"C160_gyroscopes": [
"classic",
"constructive_indefinite_description",
"functional_extensionality_dep",
"sig_forall_dec",
"sig_not_dec"
],
"C161_scale_partial": [
"classic",
"constructive_indefinite_description",
"functional_extensionality_dep",
"sig_forall_dec",
"sig_not_dec"
],
"C161_arm_REFUTED": [
"classic",
"constructive_indefinite_description",
"functional_extensionality_dep",
"sig_forall_dec",
"sig_not_dec"
],
"C161_odometer_REFUTED": [
"classic",
"constructive_indefinite_description",
"functional_extensionality_dep",
"sig_forall_dec",
"sig_not_dec"
],
"C161_waiting_REFUTED": [
"classic",
"constructive_indefinite_description",
"functional_extensionality_dep",
"sig_forall_dec",
"sig_not_dec"
],
"C105_static_bias_refuted": [
"classic",
"constructive_indefinite_description",
"functional_extensionality_dep",
"sig_forall_dec",
"sig_not_dec"
],
"C106_start_partial": [
"classic",
"constructive_indefinite_description",
"functional_extensionality_dep",
"sig_forall_dec",
"sig_not_dec"
],
"C106_lever_refuted": [
"functional_extensionality_dep",
"sig_forall_dec",
"sig_not_dec"
],
"C136_lists": [],
"C136_registered": [],
"C136_overrun_refuted": [],
"C137_monotone": [],
"C137_complete_partial": [],
"C137_undefined_refuted": [],
"C137_no_header_refuted": [],
"C89_text": [],
"C89_binary": [],
"C89_other_REFUTED": [],
"C90_binary_partial": [],
"C90_text_REFUTED": [],
"C91_csv_partial": [],
"C91_time_REFUTED": [],
"C92_order_partial": [],
"C92_month_REFUTED": [],
"C92_buffer_REFUTED": [],
"C167_sensors": [],
"C167_bias": [],
"C167_library_REFUTED": [],
"C167_python_REFUTED": [],
"C167_compare_partial": [],
"C167_one_result_REFUTED": [],
"C107_wheel_gain": [
"classic",
"constructive_indefinite_description",
"functional_extensionality_dep",
"sig_forall_dec",
"sig_not_dec"
],
"C107_explained": [
"classic",
"constructive_indefinite_description",
"functional_extensionality_dep",
"sig_forall_dec",
"sig_not_dec"
],
"C107_no_overshoot": [
"classic",
"constructive_indefinite_description",
"functional_extensionality_dep",
"sig_forall_dec",
"sig_not_dec"
],
"C149_none": [
"classic",
"constructive_indefinite_description",
"functional_extensionality_dep",
"sig_forall_dec",
"sig_not_dec"
],
"C150_correction_REFUTED": [
"classic",
"constructive_indefinite_description",
"functional_extensionality_dep",
"sig_forall_dec",
"sig_not_dec"
],
"C150_constraint_REFUTED": [
"classic",
"constructive_indefinite_description",
"functional_extensionality_dep",
"sig_forall_dec",
"sig_not_dec"
],
"C151_inertial": [
"classic",
"constructive_indefinite_description",
"functional_extensionality_dep",
"sig_forall_dec",
"sig_not_dec"
]
}