{
 "claims": [
  {
   "property": "C01",
   "status": "proved",
   "theorems": [
    "C01_table_crc_is_crc32",
    "C01_table_is_generated"
   ],
   "note": "Table variant, bitwise variant and GF(2) polynomial remainder agree on all byte strings; the table literal is the generated one."
  },
  {
   "property": "C02",
   "status": "proved",
   "theorems": [
    "C02_residue"
   ],
   "note": ""
  },
  {
   "property": "C03",
   "status": "proved",
   "theorems": [
    "C03_burst_detected",
    "C03_burst_changes_checksum"
   ],
   "note": ""
  },
  {
   "property": "C04",
   "status": "proved",
   "theorems": [
    "C04_frame_layout"
   ],
   "note": "For all messages below 4 GiB (the length field is 32 bit)."
  },
  {
   "property": "C05",
   "status": "proved",
   "theorems": [
    "C05_header_round_trip",
    "C05_names"
   ],
   "note": ""
  },
  {
   "property": "C06",
   "status": "proved",
   "theorems": [
    "C06_file_round_trip"
   ],
   "note": "At least one record: with none the loader reads outside the buffer (C08)."
  },
  {
   "property": "C07",
   "status": "partial",
   "theorems": [
    "C07_terminates_refuted",
    "C07_every_damaged_record_hangs",
    "C07_terminates_partial"
   ],
   "note": "REFUTED in full: LoadFile never returns on any recording with a damaged record. Proved: it returns whenever no start mark is followed by a frame that fails its checksum."
  },
  {
   "property": "C08",
   "status": "partial",
   "theorems": [
    "C08_memory_safe_refuted",
    "C08_every_header_only_file_reads_outside",
    "C08_safe_on_complete_recordings_partial"
   ],
   "note": "REFUTED in full: header-only files are read past their end. Proved for complete recordings with at least one record."
  },
  {
   "property": "C09",
   "status": "proved",
   "theorems": [
    "C09_only_intact_frames_delivered",
    "C09_corrupted_range_not_intact",
    "C09_written_frames_are_intact"
   ],
   "note": "Delivered data stems from disjoint intact frames in file order; a range hit by a burst of at most 32 bits is not intact."
  },
  {
   "property": "C10",
   "status": "proved",
   "theorems": [
    "C10_columns_aligned"
   ],
   "note": "Files below 4 GiB."
  },
  {
   "property": "C11",
   "status": "partial",
   "theorems": [
    "C11_error_code_refuted",
    "C11_checksum_failure_reported_as_no_header",
    "C11_no_start_mark"
   ],
   "note": "REFUTED in full: the error code is overwritten by NO_HEADER. Proved: what is reported for a missing start mark and for a checksum failure (the reason is only in the error strings)."
  },
  {
   "property": "C12",
   "status": "proved",
   "theorems": [
    "C12_status_forward",
    "C12_never_error",
    "C12_no_undefined_behaviour"
   ],
   "note": "Up to 2^31-1 samples (then the sample counter overflows, which is undefined behaviour)."
  },
  {
   "property": "C13",
   "status": "partial",
   "theorems": [
    "C13_reason_partial",
    "C13_reached_partial",
    "C13_heading_after_levelling_refuted"
   ],
   "note": "REFUTED: a displacement (even a purely vertical one) before levelling also counts as heading. Proved: NAVIGATION is entered only with a given state or after both events, and it is entered two samples after them."
  },
  {
   "property": "C14",
   "status": "proved",
   "theorems": [
    "C14_null_sample",
    "C14_null_fix"
   ],
   "note": ""
  },
  {
   "property": "C15",
   "status": "proved",
   "theorems": [
    "C15_fixes_keep_status",
    "C15_nothing_before_first_sample"
   ],
   "note": ""
  },
  {
   "property": "C16",
   "status": "proved",
   "theorems": [
    "C16_no_side_effects",
    "C16_others_unchanged",
    "C16_gated",
    "C16_navigation"
   ],
   "note": "Angles in degrees; NaN and infinity are visible as such."
  },
  {
   "property": "C17",
   "status": "partial",
   "theorems": [
    "C17_attitude_accuracy_refuted",
    "C17_zero_refuted"
   ],
   "note": "REFUTED: rgioe_get_pos answers with the standard deviation of the attitude; it can be zero while the position accuracy is not."
  },
  {
   "property": "C18",
   "status": "partial",
   "theorems": [
    "C18_null_options_refuted",
    "C18_old_status_refuted",
    "C18_zero_state_refuted",
    "C18_outcome_partial",
    "C18_fresh_partial"
   ],
   "note": "REFUTED: a NULL option pointer is dereferenced before it is tested; after FAULT_CONFIG the old status stays. Proved: outcome for other arguments, and equal answers afterwards whatever happened before (but for one uninitialised vector of the alignment)."
  },
  {
   "property": "C19",
   "status": "proved",
   "theorems": [
    "C19_symmetric"
   ],
   "note": "Exact real arithmetic, all call sequences."
  },
  {
   "property": "C20",
   "status": "proved",
   "theorems": [
    "C20_predict",
    "C20_predict_symmetric",
    "C20_update",
    "C20_update_symmetric",
    "C20_update_defined"
   ],
   "note": "Over the reals, for every dimension; an update is undefined exactly when the innovation covariance is singular, excluded for positive definite noise."
  },
  {
   "property": "C21",
   "status": "proved",
   "theorems": [
    "C21_optimal",
    "C21_shrinks",
    "C21_gain"
   ],
   "note": "Joseph form with an arbitrary gain against the filter gain; [corrected] is the covariance of the error of a linear estimate with that gain."
  },
  {
   "property": "C22",
   "status": "partial",
   "theorems": [
    "C22_positive_semidefinite_refuted",
    "C22_negative_variance_refuted",
    "C22_bounded_loss_partial"
   ],
   "note": "REFUTED: the process noise (Phi Q + Q Phi^T) dt / 2 is not positive semidefinite; a fix with a variance below dt^3 vrw^2 / 4 leads to a negative velocity variance. Proved: the loss per epoch is bounded."
  },
  {
   "property": "C23",
   "status": "proved",
   "theorems": [
    "C23_biases",
    "C23_parts",
    "C23_number_of_parts"
   ],
   "note": ""
  },
  {
   "property": "C24",
   "status": "partial",
   "theorems": [
    "C24_all_measurements_count_refuted",
    "C24_zero_velocity_ignored_refuted"
   ],
   "note": "REFUTED: a second fix before the next sample erases the correction of the first; with ZUPT-A switched on the zero-velocity part is ignored."
  },
  {
   "property": "C25",
   "status": "proved",
   "theorems": [
    "C25_rejected",
    "C25_flags"
   ],
   "note": ""
  },
  {
   "property": "C26",
   "status": "proved",
   "theorems": [
    "C26_schedule"
   ],
   "note": ""
  },
  {
   "property": "C27",
   "status": "partial",
   "theorems": [
    "C27_layout_refuted",
    "C27_layout_exact_partial",
    "C27_inside"
   ],
   "note": "REFUTED in full: switching a block off between two switched-on ones makes blocks overlap. Proved: exactly which of the selections are consistent."
  },
  {
   "property": "C28",
   "status": "proved",
   "theorems": [
    "C28_closed_branch",
    "C28_series_norm",
    "C28_series_close"
   ],
   "note": "Exact real arithmetic (no rounding). Closed branch exactly unit; series branch within explicit bounds."
  },
  {
   "property": "C29",
   "status": "proved",
   "theorems": [
    "C29_rotation",
    "C29_composition",
    "C29_rotates_vectors"
   ],
   "note": "Exact real arithmetic."
  },
  {
   "property": "C30",
   "status": "proved",
   "theorems": [
    "C30_direct_conversion",
    "C30_via_quaternion"
   ],
   "note": "Exact real arithmetic."
  },
  {
   "property": "C31",
   "status": "partial",
   "theorems": [
    "C31_roundtrip_partial",
    "C31_pitch_partial",
    "C31_always_numbers_refuted",
    "C31_vertical_down_refuted",
    "C31_vertical_up"
   ],
   "note": "Round trip proved for |pitch| < pi/2. REFUTED: at vertical attitudes the conversion back yields 0/0 (nose down) or a fixed heading."
  },
  {
   "property": "C32",
   "status": "partial",
   "theorems": [
    "C32_roundtrip_partial",
    "C32_quaternion",
    "C32_position_matrix",
    "C32_antimeridian_refuted"
   ],
   "note": "Proved for |lat| < pi/2 and |lon| < pi. REFUTED at the antimeridian (lon = pi comes back as another number)."
  },
  {
   "property": "C33",
   "status": "proved",
   "theorems": [
    "C33_on_ellipsoid",
    "C33_height",
    "C33_wgs84"
   ],
   "note": "Exact real arithmetic, WGS84 constants as in the source."
  },
  {
   "property": "C34",
   "status": "proved",
   "theorems": [
    "C34_radii",
    "C34_gravity_positive",
    "C34_gravity_latitude",
    "C34_gravity_height"
   ],
   "note": "Exact real arithmetic, WGS84 constants as in the source."
  },
  {
   "property": "C35",
   "status": "partial",
   "theorems": [
    "C35_zero_for_equal_points",
    "C35_signs_partial",
    "C35_direction_refuted",
    "C35_no_height_variant_refuted",
    "C35_no_height_north"
   ],
   "note": "Zero for equal points and the sign law of the three components proved. REFUTED: north and east are counted from the second to the first point while the third component is positive upwards, so it is a displacement in neither direction; the variant without heights is not zero for equal points."
  },
  {
   "property": "C36",
   "status": "proved",
   "theorems": [
    "C36_rotation",
    "C36_euler",
    "C36_position_matrix",
    "C36_position_matrix_start"
   ],
   "note": "Exact real arithmetic; for histories without NaN or infinity, started from a given navigation state."
  },
  {
   "property": "C37",
   "status": "partial",
   "theorems": [
    "C37_flag",
    "C37_one_sample_clears",
    "C37_spread",
    "C37_defined_partial",
    "C37_overflow_refuted"
   ],
   "note": "Proved for up to 2^31-1 samples. REFUTED beyond: the sample counter overflows."
  },
  {
   "property": "C38",
   "status": "proved",
   "theorems": [
    "C38_in_range",
    "C38_first_window",
    "C38_weighted",
    "C38_variance",
    "C38_constant"
   ],
   "note": "Exact real arithmetic, up to 2^31-1 samples."
  },
  {
   "property": "C39",
   "status": "partial",
   "theorems": [
    "C39_outage_windows",
    "C39_disabled_never_outage",
    "C39_construction_terminates_refuted",
    "C39_zero_step_hangs",
    "C39_one_window_at_a_time"
   ],
   "note": "REFUTED in part: construction never ends for length = step = 0. Proved: windows exact for step > 0, disabled plans never report an outage."
  },
  {
   "property": "C40",
   "status": "proved",
   "theorems": [
    "C40_merge",
    "C40_end_is_reported"
   ],
   "note": "For streams in time order with times below INT_MAX seconds."
  },
  {
   "property": "C41",
   "status": "partial",
   "theorems": [
    "C41_all_delivered_refuted",
    "C41_tail_is_lost",
    "C41_imu_only_partial"
   ],
   "note": "REFUTED: with GNSS enabled no IMU sample later than the last fix is delivered. Proved: complete without GNSS."
  },
  {
   "property": "C42",
   "status": "partial",
   "theorems": [
    "C42_every_result_written_refuted",
    "C42_race_free_refuted",
    "C42_file_is_prefix_partial",
    "C42_missing_are_queued_partial",
    "C42_no_empty_pop_partial",
    "C42_no_deadlock_partial",
    "C42_stop_returns_partial"
   ],
   "note": "REFUTED: results still queued at stop() can be lost, and the queue is inspected without the lock (data race). Proved under every schedule: prefix, order, no deadlock, stop returns, only queued results are missing."
  },
  {
   "property": "C43",
   "status": "partial",
   "theorems": [
    "C43_round_trip_refuted",
    "C43_completed_file_partial",
    "C43_threshold_lost_refuted",
    "C43_columns_saved"
   ],
   "note": "REFUTED: no saved configuration can be loaded again. Proved: what comes back when the missing keys are added by hand."
  },
  {
   "property": "C44",
   "status": "proved",
   "theorems": [
    "C44_parameter_units",
    "C44_option_angles",
    "C44_print_is_file"
   ],
   "note": "Exact arithmetic; pi exact."
  },
  {
   "property": "C45",
   "status": "partial",
   "theorems": [
    "C45_unit_and_bounded",
    "C45_matrix",
    "C45_set_quaternion_refuted",
    "C45_magnetometer_refuted"
   ],
   "note": "Proved for the update used by the library. REFUTED: SetAtti(quaternion) leaves the read-out at the old attitude; the magnetometer update does not normalise."
  },
  {
   "property": "C46",
   "status": "partial",
   "theorems": [
    "C46_velocity_twos_complement",
    "C46_checksum_refuted"
   ],
   "note": "Velocity decoding proved. Checksum REFUTED: it accepts exactly the all-zero frame."
  },
  {
   "property": "C47",
   "status": "partial",
   "theorems": [
    "C47_rests_partial",
    "C47_first_epoch_partial",
    "C47_exact_refuted"
   ],
   "note": "REFUTED exactly: a velocity of the order (omega_e dt)^2 g dt / 4 appears. Proved: it is bounded by that, and a sample within that bound of the true one rests exactly for ever."
  },
  {
   "property": "C48",
   "status": "partial",
   "theorems": [
    "C48_after_fix_partial",
    "C48_needs_reference_refuted"
   ],
   "note": "REFUTED: without any fix the sixth height is used with the reference -2147483648 m. Proved: the behaviour after a fix."
  },
  {
   "property": "C49",
   "status": "partial",
   "theorems": [
    "C49_truncated_recording_refuted"
   ],
   "note": "REFUTED: every cut strictly inside a record (more than 4 bytes before its end) makes the loader read outside the buffer."
  },
  {
   "property": "C50",
   "status": "partial",
   "theorems": [
    "C50_reload_accumulates_refuted",
    "C50_missing_file_reports_ok_refuted"
   ],
   "note": "REFUTED: data accumulates over loads; a missing file leaves code OK and the old data."
  },
  {
   "property": "C51",
   "status": "partial",
   "theorems": [
    "C51_integers_up_to_2_24_exact",
    "C51_integers_exact_refuted"
   ],
   "note": "REFUTED in full (2^24+1 in a u32 item). Proved up to magnitude 2^24."
  },
  {
   "property": "C52",
   "status": "partial",
   "theorems": [
    "C52_start_time_refuted",
    "C52_move_to_time_partial"
   ],
   "note": "REFUTED: the first sample at or after the start time is consumed too. Proved: exactly which samples are consumed."
  },
  {
   "property": "C53",
   "status": "partial",
   "theorems": [
    "C53_mean_interval_refuted",
    "C53_statistics_partial"
   ],
   "note": "REFUTED for the mean (divides by one too many). Proved: counter, largest interval, and what the mean is."
  },
  {
   "property": "C54",
   "status": "partial",
   "theorems": [
    "C54_progress",
    "C54_progress_empty_refuted"
   ],
   "note": "Proved for non-empty IMU streams; REFUTED for empty ones (division by zero)."
  },
  {
   "property": "C55",
   "status": "partial",
   "theorems": [
    "C55_one_sample_per_record_refuted",
    "C55_records_in_order_partial",
    "C55_broken_record_refuted"
   ],
   "note": "REFUTED: every file yields one extra sample of indeterminate values. Proved: all complete records are delivered in order, reading ends."
  },
  {
   "property": "C56",
   "status": "partial",
   "theorems": [
    "C56_one_sample_per_line_refuted",
    "C56_reading_ends_refuted",
    "C56_lines_partial"
   ],
   "note": "REFUTED: extra sample behind a final line end; endless reading on a token that is not a number. Proved: files without a final line end."
  },
  {
   "property": "C57",
   "status": "partial",
   "theorems": [
    "C57_terminated_file_refuted",
    "C57_bad_line_drops_rest_refuted",
    "C57_ten_lines_refuted",
    "C57_truncated_line_refuted",
    "C57_word_in_line_refuted",
    "C57_all_fixes_partial"
   ],
   "note": "REFUTED: undefined behaviour at a final line end; a line without fix hides the rest; GNSS_10_LINES uses a null pointer. Proved: files of usable lines without a final line end."
  },
  {
   "property": "C58",
   "status": "partial",
   "theorems": [
    "C58_quality_reaches_filter_refuted",
    "C58_invalid_fix_is_used",
    "C58_rest_is_passed_partial"
   ],
   "note": "REFUTED: the mode is replaced by SPP. Proved: the rest of the fix is passed on."
  },
  {
   "property": "C59",
   "status": "proved",
   "theorems": [
    "C59_axes_involution",
    "C59_axes_rotation",
    "C59_whole_sample",
    "C59_axes_meaning"
   ],
   "note": ""
  },
  {
   "property": "C60",
   "status": "partial",
   "theorems": [
    "C60_settings_reach_filter_refuted",
    "C60_initial_accuracy_is_zero",
    "C60_passed_on_partial"
   ],
   "note": "REFUTED: static-detection, barometer and antenna settings and the initial accuracies are not passed on. Proved: the rest is."
  },
  {
   "property": "C61",
   "status": "partial",
   "theorems": [
    "C61_same_rotation",
    "C61_zero_vector_refuted"
   ],
   "note": "REFUTED at the zero vector (0/0). Proved for every other rotation vector."
  },
  {
   "property": "C62",
   "status": "proved",
   "theorems": [
    "C62_first_fix",
    "C62_fix_above"
   ],
   "note": "Exact real arithmetic."
  },
  {
   "property": "C63",
   "status": "proved",
   "theorems": [
    "C63_innovation"
   ],
   "note": "Exact real arithmetic."
  },
  {
   "property": "C64",
   "status": "partial",
   "theorems": [
    "C64_remainder_kept_refuted",
    "C64_spread_over_thousand"
   ],
   "note": "REFUTED: the remainder is dropped. Proved: what happens at a start without fix (window of 1000 samples)."
  },
  {
   "property": "C65",
   "status": "proved",
   "theorems": [
    "C65_level_corrections"
   ],
   "note": "Exact real arithmetic."
  },
  {
   "property": "C66",
   "status": "proved",
   "theorems": [
    "C66_constraints_at_rest"
   ],
   "note": "Exact real arithmetic; while all numbers stay finite."
  },
  {
   "property": "C67",
   "status": "partial",
   "theorems": [
    "C67_earth_rate_is_no_bias_refuted",
    "C67_rate_at_rest"
   ],
   "note": "REFUTED: the measured rate is compared with zero, so at rest the earth rate is taken for a gyroscope bias. Proved: the innovation at rest is the earth rate."
  },
  {
   "property": "C68",
   "status": "proved",
   "theorems": [
    "C68_two_devices"
   ],
   "note": "The shared gravity variable is overwritten by the calls of the other device; every call recomputes it before use."
  },
  {
   "property": "C69",
   "status": "proved",
   "theorems": [
    "C69_given_state_kept",
    "C69_finite"
   ],
   "note": "Exact real arithmetic; the samples are those for which the discrete mechanisation rests exactly (see C47); while all numbers stay finite, which is proved with the constraints switched off."
  },
  {
   "property": "C70",
   "status": "partial",
   "theorems": [
    "C70_levelling_partial",
    "C70_configured_errors_partial"
   ],
   "note": "REFUTED: the roll is asin(sin r cos p), right only if roll or pitch is zero; an inverted unit gets the opposite pitch. Proved: the pitch of an upright unit."
  },
  {
   "property": "C71",
   "status": "partial",
   "theorems": [
    "C71_installation_angle_refuted"
   ],
   "note": "REFUTED: every fix from the second on turns the heading by the installation angle, also when the unit does not move."
  },
  {
   "property": "C72",
   "status": "partial",
   "theorems": [
    "C72_accuracy_refuted"
   ],
   "note": "REFUTED: the accuracy is 0.3 divided by the accuracy of the fix."
  },
  {
   "property": "C73",
   "status": "partial",
   "theorems": [
    "C73_velocity_refuted",
    "C73_any_velocity_refuted"
   ],
   "note": "REFUTED: three halves of the displacement whatever time it took, vertical part upwards, minus half of an uninitialised vector."
  },
  {
   "property": "C74",
   "status": "partial",
   "theorems": [
    "C74_gnss_off_refuted",
    "C74_no_effect_refuted"
   ],
   "note": "REFUTED: the option is never read."
  },
  {
   "property": "C75",
   "status": "proved",
   "theorems": [
    "C75_place",
    "C75_velocity",
    "C75_attitude",
    "C75_every_state",
    "C75_place_in_step",
    "C75_velocity_in_step",
    "C75_attitude_in_step",
    "C75_slip_matters"
   ],
   "note": "Exact first-order movement for every state the library reaches; the part proportional to the slip is explicit, zero for a quaternion made from the place (C75_place_in_step), and cannot be dropped (C75_slip_matters). Rotations and places in exact arithmetic."
  },
  {
   "property": "C76",
   "status": "proved",
   "theorems": [
    "C76_fix",
    "C76_after_a_sample",
    "C76_fix_after_correction",
    "C76_fix_in_step",
    "C76_rest_is_small",
    "C76_design_is_the_matrix"
   ],
   "note": "As C75; the remainder (lever arm times distance divided by earth radius and cosine of the latitude) is explicit and bounded. C76_fix_after_correction covers a second observation of the same epoch, where the matrix of the local axes is the old one."
  },
  {
   "property": "C77",
   "status": "proved",
   "theorems": [
    "C77_wheel",
    "C77_zero_velocity"
   ],
   "note": "For every state the library reaches. The remainders are explicit; the angle increment of the last sample is not corrected by the code, so the bias part is stated for the corrected increment."
  },
  {
   "property": "C78",
   "status": "proved",
   "theorems": [
    "C78_error_model",
    "C78_transition_matrix",
    "C78_denominators"
   ],
   "note": "Exact real arithmetic."
  },
  {
   "property": "C79",
   "status": "partial",
   "theorems": [
    "C79_rewind_delivers_again",
    "C79_statistics_refuted"
   ],
   "note": "REFUTED for the statistics: Reset rewinds the files and not the counters. Proved: the same samples in the same order."
  },
  {
   "property": "C80",
   "status": "proved",
   "theorems": [
    "C80_ends",
    "C80_samples_taken",
    "C80_one_line_per_sample",
    "C80_line_is_the_answer"
   ],
   "note": "Streams ordered in time with fewer than 2^31 samples. File formats: C55-C57; what the writer thread does with the results: C42."
  },
  {
   "property": "C81",
   "status": "proved",
   "theorems": [
    "C81_fixes_in_windows_ignored",
    "C81_windows",
    "C81_disabled",
    "C81_line_repeated"
   ],
   "note": ""
  },
  {
   "property": "C82",
   "status": "partial",
   "theorems": [
    "C82_memory_refuted",
    "C82_memory_before_navigation_refuted",
    "C82_given_state_partial"
   ],
   "note": "REFUTED: the structure is not initialised and place and velocity are not written before NAVIGATION. Proved: with a given state all results from the first IMU sample on depend on the input only."
  },
  {
   "property": "C83",
   "status": "proved",
   "theorems": [
    "C83_time_of_last_sample",
    "C83_times_never_go_back"
   ],
   "note": ""
  },
  {
   "property": "C84",
   "status": "partial",
   "theorems": [
    "C84_gnss_flag_partial",
    "C84_gnss_flag_before",
    "C84_not_cleared",
    "C84_odometer_flag",
    "C84_imu_flag",
    "C84_zero_velocity_flag",
    "C84_mode_at_fix"
   ],
   "note": "REFUTED: the GNSS flag stays until the next rejected fix, the odometer flag for ever; the IMU flag is that of the given state; every eighth result repeats the zero-velocity flag. Proved: exactly what each flag says. The non-holonomic flag is C26."
  },
  {
   "property": "C85",
   "status": "partial",
   "theorems": [
    "C85_no_effect_partial",
    "C85_scale_reported"
   ],
   "note": "REFUTED: no call takes a wheel speed; switching the odometer on has the sole effect of switching the non-holonomic constraint off, accuracy and scale factor change no answer but the reported factor, which is the one of the options."
  },
  {
   "property": "C86",
   "status": "partial",
   "theorems": [
    "C86_statistic_partial",
    "C86_not_normalised",
    "C86_never_rejects",
    "C86_counter",
    "C86_fix_never_rejected"
   ],
   "note": "REFUTED: the statistic is weighted with the covariance itself (inverted twice) and no measurement is ever rejected. Proved: the value of the statistic; one gain for all innovations, for fixes too."
  },
  {
   "property": "C87",
   "status": "partial",
   "theorems": [
    "C87_place_partial",
    "C87_geodetic_partial",
    "C87_velocity_partial",
    "C87_attitude_partial",
    "C87_meaning"
   ],
   "note": "Proved: one step is consistent with the equations to first order in the interval, in earth-fixed axes and in latitude, longitude, height. Missing: a bound of the error accumulated over a trajectory, and rounding."
  },
  {
   "property": "C88",
   "status": "proved",
   "theorems": [
    "C88_coning",
    "C88_sculling"
   ],
   "note": "Over the reals."
  },
  {
   "property": "C89",
   "status": "partial",
   "theorems": [
    "C89_text",
    "C89_binary",
    "C89_other_REFUTED"
   ],
   "note": "REFUTED for format numbers other than 0 and 1: nothing is written and nothing reported. Proved for both formats."
  },
  {
   "property": "C90",
   "status": "partial",
   "theorems": [
    "C90_binary_partial",
    "C90_text_REFUTED"
   ],
   "note": "REFUTED: NavAscii and NavDoubleMatrix have the same value, so with the text format (the default) the queueing writer writes binary numbers. Proved for the binary format."
  },
  {
   "property": "C91",
   "status": "partial",
   "theorems": [
    "C91_csv_partial",
    "C91_time_REFUTED"
   ],
   "note": "REFUTED: six significant digits are written, so times of week from 100000 s on lose their fraction: recordings at different rates give the same file. Proved: header, rows, and every cell to six significant digits."
  },
  {
   "property": "C92",
   "status": "partial",
   "theorems": [
    "C92_order_partial",
    "C92_month_REFUTED",
    "C92_buffer_REFUTED"
   ],
   "note": "REFUTED: the month is that before (00 in January); program names of more than 107 characters overrun the buffer. Proved: the order, and the rest of the date."
  },
  {
   "property": "C93",
   "status": "partial",
   "theorems": [
    "C93_orthogonal_partial",
    "C93_forward_partial",
    "C93_straight_partial",
    "C93_direction_REFUTED",
    "C93_rotation_REFUTED",
    "C93_roll_REFUTED"
   ],
   "note": "REFUTED: it can be a reflection, the turn about the direction of travel is arbitrary, and it leads from body to vehicle frame where the documentation says the opposite. Proved: orthogonal, and the direction of travel goes to the forward axis."
  },
  {
   "property": "C94",
   "status": "partial",
   "theorems": [
    "C94_scale_partial",
    "C94_no_odometer_REFUTED"
   ],
   "note": "REFUTED without wheel speeds: the sum of the velocities times 1e30. Proved with wheel speeds."
  },
  {
   "property": "C95",
   "status": "partial",
   "theorems": [
    "C95_rest_partial",
    "C95_north_REFUTED",
    "C95_origin_REFUTED"
   ],
   "note": "REFUTED: degrees are passed for radians, so north is 56 to 61 times too large; the origin is a static variable of the process, shared by all devices. Proved: time, velocity, attitude and height."
  },
  {
   "property": "C96",
   "status": "partial",
   "theorems": [
    "C96_place_partial",
    "C96_attitude_partial",
    "C96_velocity_REFUTED"
   ],
   "note": "REFUTED for the velocity: it is that of the unit, wrong whenever the unit turns about an axis that does not pass through the point. Proved: attitude exactly (away from the vertical), place to first order in the lever arm."
  },
  {
   "property": "C97",
   "status": "partial",
   "theorems": [
    "C97_base_partial",
    "C97_scale_REFUTED",
    "C97_odometer_REFUTED"
   ],
   "note": "REFUTED for the optional states: scale factors start with the fourth power, the odometer with 1e-18 whatever is given. Proved for place, velocity, attitude and biases, and no correlations."
  },
  {
   "property": "C98",
   "status": "partial",
   "theorems": [
    "C98_feedback_REFUTED",
    "C98_column_partial"
   ],
   "note": "REFUTED: the estimate is passed as a row and read as a column, outside its memory, with every selection that has an optional state. Proved: exactly the selection without optional states is safe."
  },
  {
   "property": "C99",
   "status": "partial",
   "theorems": [
    "C99_true_effect_partial",
    "C99_gyroscopes_REFUTED",
    "C99_accelerometers_REFUTED",
    "C99_arm_and_odometer_partial",
    "C99_base_partial"
   ],
   "note": "REFUTED: gyroscope scale factors act on the estimated biases and not on the attitude, accelerometer scale factors on the attitude and not on the velocity. Proved: what the error does to the increments."
  },
  {
   "property": "C100",
   "status": "partial",
   "theorems": [
    "C100_innovation_partial",
    "C100_design_REFUTED"
   ],
   "note": "REFUTED: horizontal rows are more than six million times too small (radians for metres), the vertical row has the wrong sign. Proved: what the innovation depends on."
  },
  {
   "property": "C101",
   "status": "partial",
   "theorems": [
    "C101_options_partial",
    "C101_odometer_REFUTED"
   ],
   "note": "REFUTED: EST_ODO_SCALE switches the accelerometer scale factors on; no option switches the odometer scale factor on. Proved: the other three."
  },
  {
   "property": "C102",
   "status": "partial",
   "theorems": [
    "C102_exact",
    "C102_no_drift",
    "C102_senseless_plan",
    "C102_positive_step_ends_refuted",
    "C102_small_step_hangs"
   ],
   "note": "REFUTED for termination: a positive step below the resolution of the start time (step <= start * 2^-54) never moves the start, so the constructor loops for ever. Proved: for starts, lengths and steps of zero or at least 1/1024 s and times up to 2^20 s every sum is exact and the answer is right for every time."
  },
  {
   "property": "C103",
   "status": "proved",
   "theorems": [
    "C103_gap_exact",
    "C103_max_and_mean",
    "C103_gnss_delay_exact"
   ],
   "note": "Rounding of each double operation is modelled. The mean is within 4 (n+1) 2^-53 times the largest gap."
  },
  {
   "property": "C104",
   "status": "proved",
   "theorems": [
    "C104_given_angle_returned",
    "C104_velocity_precision",
    "C104_attitude_precision",
    "C104_height_precision",
    "C104_order_kept",
    "C104_float_unchanged"
   ],
   "note": "Only the conversions at the interface are rounded in this model; the navigation in between is not part of it."
  },
  {
   "property": "C105",
   "status": "partial",
   "theorems": [
    "C105_static_bias_refuted"
   ],
   "note": "REFUTED: the fix that ends the alignment overwrites the bias found by levelling with the configured initial bias; the reported bias never depends on the measured rates."
  },
  {
   "property": "C106",
   "status": "partial",
   "theorems": [
    "C106_start_partial",
    "C106_lever_refuted"
   ],
   "note": "Proved for a level unit, in exact arithmetic. REFUTED in one respect: the lever arm is turned before the installation angle is applied, that is not by the reported heading."
  },
  {
   "property": "C107",
   "status": "proved",
   "theorems": [
    "C107_wheel_gain",
    "C107_explained",
    "C107_no_overshoot"
   ],
   "note": "Exact real arithmetic."
  },
  {
   "property": "C108",
   "status": "partial",
   "theorems": [
    "C108_deviations_partial",
    "C108_getters",
    "C108_attitude_units_refuted"
   ],
   "note": "REFUTED for the attitude: it is reported in degrees and its accuracy in radians. Proved for place and velocity: the roots of the variances, defined whenever the covariance is positive semidefinite."
  },
  {
   "property": "C109",
   "status": "partial",
   "theorems": [
    "C109_levels_REFUTED",
    "C109_axis_up_partial"
   ],
   "note": "REFUTED for the library's own axes (third axis down, as everywhere else in the library): the pitch grows at every sample, past any angle up to 7/5 rad. Proved: with the third axis up the pitch becomes smaller at every sample, until it is below any positive angle, and does not fall below -0.15 rad."
  },
  {
   "property": "C110",
   "status": "partial",
   "theorems": [
    "C110_given",
    "C110_navigating_partial",
    "C110_alignment_REFUTED",
    "C110_transparent"
   ],
   "note": "REFUTED for a device that aligns itself: up to and with the call that starts navigation no sample and no fix is recorded. Proved for a device started with a given state, and for every navigating device; proved that the recorder changes no answer and stops no call."
  },
  {
   "property": "C111",
   "status": "proved",
   "theorems": [
    "C111_reported",
    "C111_each_sample"
   ],
   "note": "In exact arithmetic; the fields of the recording are single-precision."
  },
  {
   "property": "C112",
   "status": "partial",
   "theorems": [
    "C112_place_partial",
    "C112_time_REFUTED"
   ],
   "note": "REFUTED for the time: the entry has the time of the last sample, and for any other times of the fixes the recording (and all the rest) is the same; fixes before the first sample are not recorded; of the mode only eight bits are. Proved: from the first sample on each fix is recorded in order, used or not, with its displacement from the given place."
  },
  {
   "property": "C113",
   "status": "proved",
   "theorems": [
    "C113_innovation",
    "C113_none",
    "C113_only_fixes"
   ],
   "note": "In exact arithmetic, without output projection and with a zero lever arm (C63 has the lever arm)."
  },
  {
   "property": "C114",
   "status": "partial",
   "theorems": [
    "C114_attitude_REFUTED",
    "C114_filter_partial",
    "C114_start_partial",
    "C114_flags_partial",
    "C114_place_near",
    "C114_place_REFUTED"
   ],
   "note": "REFUTED: the attitude is recorded in radians and reported in degrees; the place is recorded in radians as a float, and beyond two radians of longitude all places within 2^-23 rad (0.76 m on the equator) of a float are recorded alike. Proved: the error of the recorded place is at most 2^-23 rad."
  },
  {
   "property": "C115",
   "status": "partial",
   "theorems": [
    "C115_text_files_partial",
    "C115_binary_files_partial",
    "C115_order_of_time",
    "C115_nothing_in_between_left_out",
    "C115_given_state",
    "C115_final_line_end_refuted",
    "C115_gga_files_partial",
    "C115_unknown_format_refuted"
   ],
   "note": "REFUTED for files with a final line end (C115_final_line_end_refuted: a sample that is in neither file, with a time that was never set, is handed to the library) and for binary files (one extra record). Proved: text files without final line end, binary files up to the extra record, order and completeness of the events, and that from a given state every line from the first sample on is the library's answer. Missing: GGA and ten-line GNSS files (C57), files that cannot be opened."
  },
  {
   "property": "C116",
   "status": "partial",
   "theorems": [
    "C116_imd_files_refuted",
    "C116_ten_columns_refuted",
    "C116_unknown_columns_refuted"
   ],
   "note": "REFUTED: C116_imd_files_refuted. The reader reads the bytes into the smart pointer instead of the sample it points to: undefined behaviour for every file that is not empty."
  },
  {
   "property": "C117",
   "status": "partial",
   "theorems": [
    "C117_rates_refuted",
    "C117_program_refuted"
   ],
   "note": "REFUTED: C117_rates_refuted, C117_program_refuted. Text lines are handed over unconverted (they have to be increments in rad and m/s), the rate is not used. That increments are handed over unchanged is C115."
  },
  {
   "property": "C118",
   "status": "partial",
   "theorems": [
    "C118_stop_time_refuted",
    "C118_stop_time_ignored"
   ],
   "note": "REFUTED: C118_stop_time_refuted (every event behind the stop time gets its result line as well), C118_stop_time_ignored (the run does not depend on the stop time)."
  },
  {
   "property": "C119",
   "status": "partial",
   "theorems": [
    "C119_delay_refuted"
   ],
   "note": "REFUTED: C119_delay_refuted. No reader fills in the epoch, so the recorded delay is the time stamp itself (seconds of the week)."
  },
  {
   "property": "C120",
   "status": "partial",
   "theorems": [
    "C120_uses_of_a_fix_partial",
    "C120_used_twice_refuted",
    "C120_used_partial"
   ],
   "note": "REFUTED: C120_used_twice_refuted: at exactly the configured rate a fix in the middle fifth of a sampling interval is handed over twice (the filter then counts it as two independent measurements). Proved: the exact number of hand-overs (C120_uses_of_a_fix_partial), and at least one if the samples around the fix are less than 1.2 intervals apart (C120_used_partial)."
  },
  {
   "property": "C121",
   "status": "partial",
   "theorems": [
    "C121_outages_ignored_refuted",
    "C121_fix_in_outage_refuted"
   ],
   "note": "REFUTED: the break behind the test leaves the switch only, the fix is handed over below it. C121_outages_ignored_refuted: the run is the same for every plan; C121_fix_in_outage_refuted: a fix in an enabled window reaches the filter, which the first program holds back."
  },
  {
   "property": "C122",
   "status": "partial",
   "theorems": [
    "C122_first_record_refuted"
   ],
   "note": "REFUTED: C122_first_record_refuted: undefined (null pointer) exactly if the first record delivered is a fix; proved: in all other cases it ends."
  },
  {
   "property": "C123",
   "status": "proved",
   "theorems": [
    "C123_lines",
    "C123_result_variable",
    "C123_given_state"
   ],
   "note": "C123_given_state: from a given state there is a line for every record and no line depends on memory the library found either (in moving alignment the library's own start does, C73)."
  },
  {
   "property": "C124",
   "status": "proved",
   "theorems": [
    "C124_programs_agree"
   ],
   "note": "without the condition the programs differ (C120)"
  },
  {
   "property": "C125",
   "status": "partial",
   "theorems": [
    "C125_position_partial",
    "C125_failure",
    "C125_data_refuted"
   ],
   "note": "REFUTED: C125_data_refuted: only time and type are stored, the measurement never is (assignment through the base class). Proved: position, return value, time and type."
  },
  {
   "property": "C126",
   "status": "partial",
   "theorems": [
    "C126_imu",
    "C126_wheel",
    "C126_result",
    "C126_fix_refuted"
   ],
   "note": "REFUTED for fixes: C126_fix_refuted: printing any fix throws an exception (nine replacement fields, eight arguments). Proved for samples, wheel measurements and results."
  },
  {
   "property": "C127",
   "status": "partial",
   "theorems": [
    "C127_written_partial",
    "C127_zupta_refuted",
    "C127_missing_refuted",
    "C127_load_refuted"
   ],
   "note": "REFUTED: the ZUPTA switch gets the value of the ZUPT switch (C127_zupta_refuted), exactly seven keys are missing (C127_missing_refuted), the file can never be loaded (C127_load_refuted). Proved: all other keys have the values SaveTo writes."
  },
  {
   "property": "C128",
   "status": "partial",
   "theorems": [
    "C128_row_partial",
    "C128_east_refuted",
    "C128_base_meridian_refuted"
   ],
   "note": "REFUTED for the distance east: it is the equatorial radius times latitude minus longitude (C128_east_refuted), not zero on the base meridian. Proved: the other twenty."
  },
  {
   "property": "C129",
   "status": "proved",
   "theorems": [
    "C129_all_published",
    "C129_always_prefix"
   ],
   "note": ""
  },
  {
   "property": "C130",
   "status": "partial",
   "theorems": [
    "C130_pace_refuted",
    "C130_speed_ignored_refuted"
   ],
   "note": "REFUTED: C130_pace_refuted: one record for every event of the 1 ms timer; C130_speed_ignored_refuted: independent of clock, mode and speed (the comparison is commented out)."
  },
  {
   "property": "C131",
   "status": "partial",
   "theorems": [
    "C131_path_partial",
    "C131_cleared_refuted",
    "C131_whole_seconds"
   ],
   "note": "REFUTED: C131_cleared_refuted: with the 10001st pose the path is emptied, its length is the number of poses modulo 10001; several poses for a second from 100 Hz on (C131_whole_seconds). Proved: complete up to 10000 poses."
  },
  {
   "property": "C132",
   "status": "partial",
   "theorems": [
    "C132_units_partial",
    "C132_increments",
    "C132_rates_for_increments_refuted"
   ],
   "note": "REFUTED: C132_rates_for_increments_refuted: the conversion to increments is never called; rates are handed over, 125 times too large, and accelerations in units of gravity. Proved: axes and scale of the message, and that the conversion that is not called is right."
  },
  {
   "property": "C133",
   "status": "partial",
   "theorems": [
    "C133_fixes_refuted",
    "C133_undefined_refuted",
    "C133_samples_in_order_partial",
    "C133_samples_complete_partial"
   ],
   "note": "REFUTED: C133_fixes_refuted: after the alignment no fix is ever handed over (the test for an empty queue is inverted); C133_undefined_refuted: undefined exactly if the loop runs before a fix has arrived. Proved: samples in order (their time moved by one second, that of fixes not), complete if never more than ten wait."
  },
  {
   "property": "C134",
   "status": "proved",
   "theorems": [
    "C134_least",
    "C134_information",
    "C134_order"
   ],
   "note": ""
  },
  {
   "property": "C135",
   "status": "proved",
   "theorems": [
    "C135_least",
    "C135_order",
    "C135_straight",
    "C135_aligned",
    "C135_body"
   ],
   "note": "The reader the tool calls is commented out in the code; the records are given. The reference to a temporary in line 48 is taken as the value."
  },
  {
   "property": "C136",
   "status": "partial",
   "theorems": [
    "C136_lists",
    "C136_registered",
    "C136_overrun_refuted"
   ],
   "note": "REFUTED: with 133 records of unknown identifiers the summary is written behind the end of its 4096 byte array (C136_overrun_refuted); the size of the header shown is four bytes too small (C136_registered). Proved: what the lines of every delivered summary say (C136_lists), and that it is delivered with exactly the recorded sets for every recording of registered sets (C136_registered)."
  },
  {
   "property": "C137",
   "status": "partial",
   "theorems": [
    "C137_monotone",
    "C137_complete_partial",
    "C137_undefined_refuted",
    "C137_no_header_refuted"
   ],
   "note": "REFUTED: before a file was opened (or after a missing or empty one) the progress is a division by zero (C137_undefined_refuted); a file without header counts as not begun (C137_no_header_refuted). Proved: it never decreases, and at the end it is at least 100 and exactly 100 for files of more than 500 bytes (C137_monotone, C137_complete_partial)."
  },
  {
   "property": "C138",
   "status": "proved",
   "theorems": [
    "C138_sideways",
    "C138_epoch"
   ],
   "note": "On the state after feedback and mechanisation of an epoch (C138_epoch), whose covariance must be positive semidefinite: C22 shows that the prediction does not always keep it so. The remaining velocity is meant to first order in the estimate (C78)."
  },
  {
   "property": "C139",
   "status": "partial",
   "theorems": [
    "C139_still_partial",
    "C139_overwritten_refuted"
   ],
   "note": "REFUTED: when the constraint on sideways motion is due in the same epoch (every 32nd sample) it overwrites the correction of the zero velocity update: a vehicle said to be at rest keeps any speed ahead (C139_overwritten_refuted); the same happens with the heading rate constraint (C24). Proved for the other epochs (C139_still_partial)."
  },
  {
   "property": "C140",
   "status": "proved",
   "theorems": [
    "C140_drift",
    "C140_linear"
   ],
   "note": "Exact arithmetic; the turns are those the code forms from the samples (rotation vector with coning correction, rotation of the local axes), so the statement is about the composition, not about the accuracy of the sensors or of the coning formula."
  },
  {
   "property": "C141",
   "status": "proved",
   "theorems": [
    "C141_heading"
   ],
   "note": "Exact arithmetic; scipy's interp1d is modelled as documented."
  },
  {
   "property": "C142",
   "status": "partial",
   "theorems": [
    "C142_errors_partial",
    "C142_zero_partial",
    "C142_rows",
    "C142_rms",
    "C142_antimeridian_refuted"
   ],
   "note": "REFUTED: a reference on the meridian of 180 degrees and a solution at the same place given as -180 degrees have an error of the circumference of the earth, and between two reference rows on either side of it the reference is interpolated through the meridian of Greenwich (C142_antimeridian_refuted). Proved for longitudes without that jump, where zero error means equal coordinates. The first two errors are east and north: the error file (not modelled) has them under the names lat and lon, the printed table has them as x and y beside velocities that are north and east."
  },
  {
   "property": "C143",
   "status": "partial",
   "theorems": [
    "C143_share_partial",
    "C143_fails",
    "C143_blind_refuted",
    "C143_refuted"
   ],
   "note": "REFUTED: when more than 68.26 % of the errors are in the first of the 100 (or more) bins, the interpolation raises, both sigmas are reported as 0, and the check succeeds whatever the errors (C143_blind_refuted): errors of 10, 10, 10 and 1000 m pass the limit of 8 cm (C143_refuted). Proved in all other cases (C143_share_partial, C143_fails)."
  },
  {
   "property": "C144",
   "status": "partial",
   "theorems": [
    "C144_perfect_partial",
    "C144_nothing",
    "C144_refuted"
   ],
   "note": "REFUTED: for limits below 9.5 mm: errors that are all equal are given a histogram one metre wide, and the second sigma is 9.544 mm above the error (C144_refuted). Proved for limits of at least a centimetre, as in the scripts."
  },
  {
   "property": "C145",
   "status": "proved",
   "theorems": [
    "C145_slip_rate",
    "C145_one_correction",
    "C145_slip_is_tilt"
   ],
   "note": "The growth of the slip by the mechanisation between corrections is not bounded; its effect is in C75 for any size."
  },
  {
   "property": "C146",
   "status": "partial",
   "theorems": [
    "C146_last_digit_partial",
    "C146_newline_partial",
    "C146_newline_REFUTED"
   ],
   "note": "REFUTED for files that end with a newline and hold a multiple of ten results: the last result is read twice and a line too many is written (C146_newline_REFUTED). Proved exactly for files that end with the last digit (C146_last_digit_partial); with a newline the output is that of the file with its last result repeated (C146_newline_partial). Lines are real numbers, printing with four decimals is left out."
  },
  {
   "property": "C147",
   "status": "partial",
   "theorems": [
    "C147_own_files_REFUTED",
    "C147_no_result_REFUTED"
   ],
   "note": "REFUTED: the library writes nineteen columns, the generator reads eleven numbers per turn and goes on in the same line; the second line of its output has as time the decimals of the velocity to the east of the sixth result (C147_own_files_REFUTED), which is no result's time (C147_no_result_REFUTED)."
  },
  {
   "property": "C148",
   "status": "partial",
   "theorems": [
    "C148_negated_partial",
    "C148_labelled_REFUTED"
   ],
   "note": "REFUTED for the installation angles (3, 2, 4 degrees) the generator names: it negates them, the filter does not, so a vehicle that moves straight ahead seems to differ by more than 0.8 % of its speed (C148_labelled_REFUTED). Proved for the negated angles (C148_negated_partial), a wheel at the unit and without the non-holonomic constraint."
  },
  {
   "property": "C149",
   "status": "proved",
   "theorems": [
    "C149_none"
   ],
   "note": "Relates the model of the whole class with optional states to the one as shipped, about which the other filter theorems are."
  },
  {
   "property": "C150",
   "status": "partial",
   "theorems": [
    "C150_correction_REFUTED",
    "C150_constraint_REFUTED"
   ],
   "note": "REFUTED: with any optional state every history with an accepted fix or a speed and, anywhere later, a sample is undefined (the feedback reads outside the estimate, C98): C150_correction_REFUTED; with the non-holonomic constraint alone every history of two samples: C150_constraint_REFUTED. What is left is C151."
  },
  {
   "property": "C151",
   "status": "proved",
   "theorems": [
    "C151_inertial"
   ],
   "note": ""
  },
  {
   "property": "C152",
   "status": "partial",
   "theorems": [
    "C152_ends_partial",
    "C152_missing_file_REFUTED",
    "C152_heading_REFUTED",
    "C152_repeats_REFUTED",
    "C152_grows_REFUTED"
   ],
   "note": "REFUTED: it ends exactly on files that can be opened and whose words can all be read (C152_ends_partial). On a missing file it reports this and then loops for ever (C152_missing_file_REFUTED), as it does on a file with a heading (C152_heading_REFUTED); after a word that is no number each turn repeats one result made of two lines and a zero, and every tenth turn writes a line, so the output grows without bound (C152_repeats_REFUTED, C152_grows_REFUTED)."
  },
  {
   "property": "C153",
   "status": "proved",
   "theorems": [
    "C153_earth",
    "C153_place",
    "C153_attitude",
    "C153_quaternion",
    "C153_quaternion_rest",
    "C153_compensation"
   ],
   "note": ""
  },
  {
   "property": "C154",
   "status": "partial",
   "theorems": [
    "C154_scaled_partial",
    "C154_shrinks_refuted",
    "C154_no_rotation_refuted"
   ],
   "note": "REFUTED: line 600 stores the quaternion that was not normalised over the normalised one, so the matrix is a rotation times the squared length of a quaternion that shrinks with every turn; already one sample of a unit at rest on the earth is enough. Proved: the form of the matrix, the quaternion never grows, and a lower bound for its length after n samples."
  },
  {
   "property": "C155",
   "status": "partial",
   "theorems": [
    "C155_same_object_refuted",
    "C155_other_objects_partial"
   ],
   "note": "REFUTED: current_epoch is last_epoch itself, so the object passed in is changed and returned and the distance between the two is zero whatever the motion. Proved: no other object is changed."
  },
  {
   "property": "C156",
   "status": "partial",
   "theorems": [
    "C156_first_sample_partial",
    "C156_second_sample_refuted"
   ],
   "note": "REFUTED: the first sample keeps place and velocity and scales the attitude matrix; because of that the second one lets the unit fall. Proved: both, exactly."
  },
  {
   "property": "C157",
   "status": "proved",
   "theorems": [
    "C157_accuracy",
    "C157_roundtrip",
    "C157_antimeridian_refuted",
    "C157_poles_refuted"
   ],
   "note": "The exceptions are real: on the meridian of 180 degrees the result is on the other side of the earth, and on the axis there is no finite result (the two _refuted theorems)."
  },
  {
   "property": "C158",
   "status": "proved",
   "theorems": [
    "C158_moved"
   ],
   "note": ""
  },
  {
   "property": "C159",
   "status": "partial",
   "theorems": [
    "C159_duplicate_partial",
    "C159_time_partial",
    "C159_backwards_refuted"
   ],
   "note": "REFUTED: the check is commented out; samples that are 0.1 ms or more before the state are integrated backwards and set its time back. Proved: samples within 0.1 ms change nothing, all others set the time."
  },
  {
   "property": "C160",
   "status": "proved",
   "theorems": [
    "C160_accelerometers",
    "C160_gyroscopes"
   ],
   "note": ""
  },
  {
   "property": "C161",
   "status": "partial",
   "theorems": [
    "C161_scale_partial",
    "C161_arm_REFUTED",
    "C161_odometer_REFUTED",
    "C161_waiting_REFUTED"
   ],
   "note": "REFUTED for the lever arm and the odometer: the variance of the lever arm shrinks with every sample, without limit (C161_arm_REFUTED; a decay with a correlation time of ten hours and no noise), and the one of the odometer's scale factor tends to ten times the configured square (noise for 3600 s, decay for 36000 s: C161_odometer_REFUTED); C161_waiting_REFUTED exhibits a history of a resting unit. Proved: the scale factors of gyroscopes and accelerometers tend to the configured squares (C161_scale_partial), starting from the fourth power as C97 says."
  },
  {
   "property": "C162",
   "status": "proved",
   "theorems": [
    "C162_fixes",
    "C162_each_fix",
    "C162_antenna",
    "C162_wheel",
    "C162_sideways",
    "C162_still",
    "C162_height"
   ],
   "note": "Exact arithmetic. That the covariance is positive semidefinite is a hypothesis, because the process noise can destroy it (C22). The deviation used for a barometric height is the one configured for zero turn rates (opt.zupta_std)."
  },
  {
   "property": "C163",
   "status": "partial",
   "theorems": [
    "C163_file",
    "C163_str",
    "C163_long_time_refuted",
    "C163_state_partial",
    "C163_start",
    "C163_biases_refuted"
   ],
   "note": "REFUTED: C163_biases_refuted: NavData never takes the biases from the line, they start at zero. C163_long_time_refuted: a time from 1000000 s on fills its field of thirteen characters, which has no blank in front, and is joined to the week, so the line has sixteen numbers. The rest is proved: C163_file (every line of a file reads back to the printed decimals for times of the week), C163_state_partial (time, position, velocity, attitude of the state), C163_start (matrix, quaternions and angles of the state agree), C163_str (the eleven cells of str). Not modelled: numpy's conversion of the values to degrees before printing."
  },
  {
   "property": "C164",
   "status": "proved",
   "theorems": [
    "C164_parameters",
    "C164_same_file",
    "C164_distance",
    "C164_space",
    "C164_metric"
   ],
   "note": "C164_parameters and C164_same_file: all twelve parameters, each axis. C164_distance: sign law, zero and the plane distance; C164_metric: north and east as arcs; C164_space: with heights. Exact arithmetic; the programs keep the parameters in single precision, Python in double."
  },
  {
   "property": "C165",
   "status": "proved",
   "theorems": [
    "C165_conservative",
    "C165_exact",
    "C165_unbiased"
   ],
   "note": "C165_conservative, C165_exact, by induction over the sequence. For the class KalmanFilter with the transition and measurement matrices of the true errors: that the matrices of the running filter are those of its errors is C76 to C78; that they are the same in all runs is an assumption (they depend on the trajectory)."
  },
  {
   "property": "C166",
   "status": "proved",
   "theorems": [
    "C166_better"
   ],
   "note": "C166_better, by induction over the two runs; the gain of the second filter used in the first is no better than the first one's own."
  },
  {
   "property": "C167",
   "status": "partial",
   "theorems": [
    "C167_sensors",
    "C167_bias",
    "C167_library_REFUTED",
    "C167_python_REFUTED",
    "C167_compare_partial",
    "C167_one_result_REFUTED"
   ],
   "note": "REFUTED: the result file of the library has thirteen columns and that of the Python tools seventeen, but show_sensors.py reads column 24 and showBias column 19, so both stop with an exception on every such file (C167_library_REFUTED, C167_python_REFUTED); a file with one result is not shown either (C167_one_result_REFUTED). Proved: for a table with 25 columns or more exactly the times with the bit are drawn (C167_sensors), for one with 20 or more the bias columns of every line (C167_bias); nav_compare shows time and heading of every result to six decimals, for files with at least two results (C167_compare_partial). Model of numpy.loadtxt as documented; window, labels and counts are not modelled."
  },
  {
   "property": "C168",
   "status": "partial",
   "theorems": [
    "C168_rows",
    "C168_cells_partial",
    "C168_exchanged_REFUTED",
    "C168_latitude_REFUTED",
    "C168_week_REFUTED",
    "C168_not_asked",
    "C168_written"
   ],
   "note": "REFUTED: the east error stands under lat and the north error under lon (C168_exchanged_REFUTED; a solution one degree too far north has latitude error 0 in the file, C168_latitude_REFUTED), and the week is always 0 (C168_week_REFUTED). Proved: rows and times (C168_rows, C168_written), height, speeds, attitude, horizontal and spatial errors (C168_cells_partial); a horizontal or spatial error that was not asked for is no number (C168_not_asked). How pandas prints numbers is not modelled."
  }
 ]
}