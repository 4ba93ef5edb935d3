{
 "claims": [
  {
   "property": "C01",
   "status": "proved",
   "theorems": [
    "C01_ring_buffer_refines_list",
    "C01_ring_buffer_history"
   ],
   "note": ""
  },
  {
   "property": "C02",
   "status": "proved",
   "theorems": [
    "C02_delay_exact",
    "C02_delay_wraps",
    "C02_full_scale_delay_refuted",
    "C02_delay1_delay2",
    "C02_reads"
   ],
   "note": "Includes the counterexample: a request equal to a power-of-two max_delay is not delayed."
  },
  {
   "property": "C03",
   "status": "proved",
   "theorems": [
    "C03_fractional_delay",
    "C03_fractional_delay_wraps",
    "C03_no_interpolation",
    "C03_last_slot_refuted"
   ],
   "note": ""
  },
  {
   "property": "C04",
   "status": "proved",
   "theorems": [
    "C04_bitset_make",
    "C04_bitset_range_set",
    "C04_bitset_clear",
    "C04_range_set_wrap_refuted"
   ],
   "note": "i+n overflowing size_t is excluded; C04_range_set_wrap_refuted shows it is a real failure."
  },
  {
   "property": "C05",
   "status": "partial",
   "theorems": [
    "C05_bitset_set_bit_partial",
    "C05_bit31_of_wide_words",
    "C05_index_beyond_size_ignored",
    "C05_bitset_set_bit31_refuted",
    "C05_bitset_set_high_bit_refuted",
    "C05_bitset_index_size_refuted"
   ],
   "note": "Full property is false of the code (int mask 1<<i for bit 31 and above on 64-bit words; index equal to size() not rejected): C05_*_refuted. Every index is characterised: proved for all indices of 8/16/32-bit words and positions below 31 of 64-bit words, position 31 of 64-bit words writes bits 31..63, positions above are undefined, indices above size() are ignored."
  },
  {
   "property": "C06",
   "status": "proved",
   "theorems": [
    "C06_acf_counts_mismatches",
    "C06_acf_zero_at_period",
    "C06_acf_single_word_refuted"
   ],
   "note": "Holds for bitsets of at least two words; single-word case is refuted."
  },
  {
   "property": "C07",
   "status": "proved",
   "theorems": [
    "C07_zero_crossing",
    "C07_stale_edge_refuted",
    "C07_fractional_period_finite_refuted",
    "C07_fractional_period_value"
   ],
   "note": ""
  },
  {
   "property": "C08",
   "status": "proved",
   "theorems": [
    "C08_period_detector",
    "C08_bits_exact",
    "C08_stale_edge_fills_bits_refuted",
    "C08_undefined_conversion_refuted",
    "C08_period_at_least_min_refuted",
    "C08_prediction_harmless",
    "C08_prediction_fresh",
    "C08_prediction_repeated",
    "C08_fundamental_kept"
   ],
   "note": "Buffer safety and exact bits proved for all signals; refuted side claims are separate theorems."
  },
  {
   "property": "C09",
   "status": "proved",
   "theorems": [
    "C09_moving_maximum_float",
    "C09_moving_maximum"
   ],
   "note": ""
  },
  {
   "property": "C10",
   "status": "proved",
   "theorems": [
    "C10_int_moving_sum_exact",
    "C10_call_returns_sum"
   ],
   "note": ""
  },
  {
   "property": "C11",
   "status": "partial",
   "theorems": [
    "C11_int_average_partial",
    "C11_int_average_power_of_two",
    "C11_int_average_negative",
    "C11_int_average_negative_refuted",
    "C11_average_zero_window_refuted"
   ],
   "note": "False for negative sums with other than power-of-two windows (signed/unsigned division), refuted; proved for non-negative sums and for power-of-two windows, and the exact result of a negative sum is stated."
  },
  {
   "property": "C12",
   "status": "proved",
   "theorems": [
    "C12_float_drift_bound",
    "C12_general_floats_refuted",
    "C12_float_moving_sum_no_drift",
    "C12_fill_residual_refuted"
   ],
   "note": ""
  },
  {
   "property": "C13",
   "status": "proved",
   "theorems": [
    "C13_median3_float",
    "C13_median3"
   ],
   "note": ""
  },
  {
   "property": "C14",
   "status": "proved",
   "theorems": [
    "C14_message_roundtrip",
    "C14_messages_distinct",
    "C14_from_raw",
    "C14_two_byte_constructors",
    "C14_channel_range_refuted"
   ],
   "note": ""
  },
  {
   "property": "C15",
   "status": "proved",
   "theorems": [
    "C15_dispatch_voice",
    "C15_dispatch_any_voice_status",
    "C15_dispatch_ignores_non_status",
    "C15_system_messages_refuted",
    "C15_process_in_order"
   ],
   "note": ""
  },
  {
   "property": "C16",
   "status": "proved",
   "theorems": [
    "C16_note_name_roundtrip",
    "C16_note_names_unique",
    "C16_note_number_parses",
    "C16_note_enum",
    "C16_negative_octave_refuted",
    "C16_bad_letter_refuted"
   ],
   "note": ""
  },
  {
   "property": "C17",
   "status": "proved",
   "theorems": [
    "C17_frequency_to_step",
    "C17_frequency_range_refuted",
    "C17_phase_to_turns",
    "C17_float_turns_refuted",
    "C17_phase_accumulates",
    "C17_first_last",
    "C17_first_counts_cycles",
    "C17_history"
   ],
   "note": ""
  },
  {
   "property": "C18",
   "status": "proved",
   "theorems": [
    "C18_one_shot_saturates",
    "C18_history"
   ],
   "note": ""
  },
  {
   "property": "C19",
   "status": "proved",
   "theorems": [
    "C19_basic_saw",
    "C19_basic_square_pulse",
    "C19_basic_triangle",
    "C19_triangle_undefined_refuted",
    "C19_saw",
    "C19_square",
    "C19_square_glitch_refuted",
    "C19_pulse",
    "C19_triangle",
    "C19_sine",
    "C19_width_to_phase"
   ],
   "note": ""
  },
  {
   "property": "C20",
   "status": "proved",
   "theorems": [
    "C20_output_range",
    "C20_always_defined",
    "C20_phase_order",
    "C20_events",
    "C20_attack_exit",
    "C20_off_is_silent",
    "C20_shape",
    "C20_step_values",
    "C20_parameters",
    "C20_note_off_level",
    "C20_attack_completes",
    "C20_decay_completes",
    "C20_release_completes",
    "C20_legato_jumps",
    "C20_note_release_unreachable",
    "C20_long_decay_never_ends_refuted",
    "C20_release_never_off_refuted",
    "C20_legato_reads_uninitialised_refuted"
   ],
   "note": ""
  },
  {
   "property": "C21",
   "status": "proved",
   "theorems": [
    "C21_envelope_follower_step",
    "C21_envelope_follower_range",
    "C21_peak_follower",
    "C21_coefficients",
    "C21_coefficient_value",
    "C21_setters",
    "C21_short_attack_refuted"
   ],
   "note": ""
  },
  {
   "property": "C22",
   "status": "proved",
   "theorems": [
    "C22_fast_envelope_follower",
    "C22_counter_wrap_refuted",
    "C22_hold_narrowed_refuted"
   ],
   "note": ""
  },
  {
   "property": "C23",
   "status": "proved",
   "theorems": [
    "C23_compressor",
    "C23_expander",
    "C23_soft_knee_outside",
    "C23_soft_knee_inside",
    "C23_setters",
    "C23_agc",
    "C23_agc_holds_max_refuted"
   ],
   "note": ""
  },
  {
   "property": "C24",
   "status": "proved",
   "theorems": [
    "C24_noise_gate_float",
    "C24_noise_gate",
    "C24_windowed_gate",
    "C24_windowed_gate_floats",
    "C24_plain_gate_history",
    "C24_default_onset",
    "C24_reopening_refuted"
   ],
   "note": "Gate with and without attack window, in binary32, with constructors and setters. Found: the window of the attack gate only holds what arrived while the gate was closed, so a rise can be missed after closing (C24_reopening_refuted)."
  },
  {
   "property": "C25",
   "status": "proved",
   "theorems": [
    "C25_schmitt_trigger_float",
    "C25_window_comparator_float",
    "C25_schmitt_trigger",
    "C25_window_comparator"
   ],
   "note": ""
  },
  {
   "property": "C26",
   "status": "proved",
   "theorems": [
    "C26_monostable",
    "C26_monostable_zero",
    "C26_rising_edge"
   ],
   "note": ""
  },
  {
   "property": "C27",
   "status": "proved",
   "theorems": [
    "C27_differentiator",
    "C27_central_difference",
    "C27_fast_downsample",
    "C27_integrator"
   ],
   "note": ""
  },
  {
   "property": "C28",
   "status": "proved",
   "theorems": [
    "C28_clip",
    "C28_soft_clip_bounded",
    "C28_soft_clip_monotone",
    "C28_soft_clip_odd",
    "C28_soft_clip_polynomial",
    "C28_nan_passes"
   ],
   "note": ""
  },
  {
   "property": "C29",
   "status": "proved",
   "theorems": [
    "C29_fixed_point_bounded",
    "C29_fixed_point_settles",
    "C29_output_in_range",
    "C29_constant_input_converges",
    "C29_cutoff_coefficients",
    "C29_exp_moving_average_bounded",
    "C29_exp_moving_average_converges",
    "C29_dc_block_bounded",
    "C29_dc_block_removes_dc",
    "C29_stable_below_nyquist_refuted",
    "C29_length_keeps_unity_gain_refuted"
   ],
   "note": ""
  },
  {
   "property": "C30",
   "status": "proved",
   "theorems": [
    "C30_one_pole_energy",
    "C30_polyphase_energy",
    "C30_unit_gain",
    "C30_pivot",
    "C30_hilbert_unit_gain",
    "C30_hilbert_energy",
    "C30_float",
    "C30_hilbert_float"
   ],
   "note": ""
  },
  {
   "property": "C31",
   "status": "proved",
   "theorems": [
    "C31_difference_equation",
    "C31_retuned",
    "C31_linear",
    "C31_time_invariant",
    "C31_bounded",
    "C31_pole_radius",
    "C31_stable",
    "C31_lowpass",
    "C31_highpass",
    "C31_bandpass_csg",
    "C31_bandpass_cpg",
    "C31_notch",
    "C31_allpass",
    "C31_peaking",
    "C31_lowshelf",
    "C31_highshelf",
    "C31_gain_limits",
    "C31_bandpass_half_power",
    "C31_bandwidth",
    "C31_shelf_q_matters_refuted",
    "C31_float",
    "C31_float_coefficients",
    "C31_float_allpass_exact",
    "C31_float_blocks",
    "C31_float_poles_inside_refuted"
   ],
   "note": ""
  },
  {
   "property": "C32",
   "status": "proved",
   "theorems": [
    "C32_fft_is_dft",
    "C32_fft_in_bounds",
    "C32_fft_double_accuracy",
    "C32_series_accuracy",
    "C32_fft_short_overrun"
   ],
   "note": ""
  },
  {
   "property": "C33",
   "status": "proved",
   "theorems": [
    "C33_rand_range",
    "C33_rand_full_period",
    "C33_rand_reaches_every_seed"
   ],
   "note": ""
  },
  {
   "property": "C34",
   "status": "proved",
   "theorems": [
    "C34_a2db_accuracy",
    "C34_db2a_accuracy",
    "C34_level_roundtrip",
    "C34_a2db_total",
    "C34_a2db_monotone",
    "C34_a2db_fixed_points",
    "C34_a2db_domain",
    "C34_a2db_minus_zero_refuted",
    "C34_db2a_total",
    "C34_db2a_monotone",
    "C34_db2a_nan",
    "C34_decibel_roundtrip_total"
   ],
   "note": ""
  },
  {
   "property": "C35",
   "status": "proved",
   "theorems": [
    "C35_comparisons",
    "C35_nan_unordered",
    "C35_nearest",
    "C35_forms_agree",
    "C35_exact",
    "C35_laws",
    "C35_monotone",
    "C35_whole_numbers",
    "C35_add_sub_error",
    "C35_group_laws_refuted",
    "C35_reciprocal",
    "C35_period_order",
    "C35_zero_frequency",
    "C35_round_trip_refuted",
    "C35_literals",
    "C35_ms_literal_refuted"
   ],
   "note": ""
  },
  {
   "property": "C36",
   "status": "proved",
   "theorems": [
    "C36_wav_memory_streams_in_order",
    "C36_reposition_takes_effect_after_buffer",
    "C36_restart_rewinds_refuted",
    "C36_restart_rewinds_unbuffered",
    "C36_unopened_file_refuted",
    "C36_num_channels",
    "C36_buff_size_zero_delays_one_frame",
    "C36_position_is_read_ahead",
    "C36_string_constructor_buff_size_refuted"
   ],
   "note": "Streaming and restart/seek theorems cover every history; stronger user expectations are refuted by separate theorems."
  },
  {
   "property": "C37",
   "status": "partial",
   "theorems": [
    "C37_audio_list_idempotent",
    "C37_audio_list_after_count_change",
    "C37_audio_get_by_id_partial",
    "C37_audio_get_is_ith_usable",
    "C37_audio_get_by_id_refuted",
    "C37_audio_handles_dangle_refuted",
    "C37_audio_hotplug_refuted",
    "C37_midi_list_grows",
    "C37_midi_list_idempotent_refuted"
   ],
   "note": "audio list proved for constant device sets; get(i) is shown to be the i-th usable device, hence the device with id i when all devices have channels; the remaining claims are refuted (also for every repeated midi_device::list())."
  },
  {
   "property": "C38",
   "status": "proved",
   "theorems": [
    "C38_equal_temperament",
    "C38_octave_doubles",
    "C38_strictly_increasing",
    "C38_A4",
    "C38_outer_keys_refuted",
    "C38_named_notes",
    "C38_e_flat_refuted"
   ],
   "note": ""
  },
  {
   "property": "C39",
   "status": "proved",
   "theorems": [
    "C39_zero_cross_float",
    "C39_peak_float",
    "C39_zero_cross",
    "C39_peak"
   ],
   "note": ""
  },
  {
   "property": "C40",
   "status": "proved",
   "theorems": [
    "C40_every_history",
    "C40_step",
    "C40_jump_is_a_shift",
    "C40_candidates",
    "C40_queries",
    "C40_harmonics_do_not_shift",
    "C40_predict_frequency",
    "C40_finite_frequency_refuted"
   ],
   "note": ""
  },
  {
   "property": "C41",
   "status": "proved",
   "theorems": [
    "C41_channel_view",
    "C41_frames_visited_once_in_order",
    "C41_process_isolates_channels",
    "C41_callback_forwards_buffers"
   ],
   "note": ""
  },
  {
   "property": "C42",
   "status": "partial",
   "theorems": [
    "C42_midi_stream_delivers_in_order_partial",
    "C42_delivery_until_first_error",
    "C42_invalid_stream_is_silent",
    "C42_read_error_refuted"
   ],
   "note": "Events before the first read error are delivered once, in order; an error code is taken for an event (refuted), and polling is well-defined iff no poll returned an error."
  },
  {
   "property": "C43",
   "status": "proved",
   "theorems": [
    "C43_every_history",
    "C43_step",
    "C43_reports",
    "C43_octave_lock",
    "C43_prediction",
    "C43_report_clears_prediction",
    "C43_agreement_refuted"
   ],
   "note": ""
  },
  {
   "property": "C44",
   "status": "proved",
   "theorems": [
    "C44_inverse",
    "C44_inverse_of_negative_refuted",
    "C44_division",
    "C44_log2",
    "C44_log10",
    "C44_log2_monotone",
    "C44_pow2",
    "C44_pow2_flushes",
    "C44_pow2_monotone",
    "C44_pow2_overflow_refuted",
    "C44_pow10",
    "C44_exp_series"
   ],
   "note": ""
  },
  {
   "property": "C45",
   "status": "proved",
   "theorems": [
    "C45_sine",
    "C45_tangent",
    "C45_hyperbolic_tangent",
    "C45_allpass_pole",
    "C45_allpass_stable",
    "C45_allpass_any_angle"
   ],
   "note": ""
  },
  {
   "property": "C46",
   "status": "proved",
   "theorems": [
    "C46_compression_curve",
    "C46_default_configuration",
    "C46_conditioner",
    "C46_envelopes",
    "C46_gate",
    "C46_noise_is_silenced",
    "C46_band_limited",
    "C46_infinite_input_refuted"
   ],
   "note": ""
  },
  {
   "property": "C47",
   "status": "proved",
   "theorems": [
    "C47_smoothed_follower",
    "C47_smoothed_settles",
    "C47_rms_level",
    "C47_rms_settles",
    "C47_rms_accuracy",
    "C47_all_finite_inputs_refuted",
    "C47_full_range_refuted"
   ],
   "note": ""
  },
  {
   "property": "C48",
   "status": "proved",
   "theorems": [
    "C48_map",
    "C48_one_maps_to_y2_refuted",
    "C48_crossfade",
    "C48_nan_control",
    "C48_crossfade_monotone"
   ],
   "note": ""
  },
  {
   "property": "C49",
   "status": "proved",
   "theorems": [
    "C49_base_coefficient",
    "C49_bounded",
    "C49_step",
    "C49_settles",
    "C49_no_overshoot_refuted"
   ],
   "note": ""
  },
  {
   "property": "C50",
   "status": "proved",
   "theorems": [
    "C50_difference_equation",
    "C50_stable",
    "C50_resonance_one_or_more",
    "C50_no_resonance_no_overshoot",
    "C50_setters",
    "C50_cutoff_one",
    "C50_float",
    "C50_frequency"
   ],
   "note": ""
  },
  {
   "property": "C51",
   "status": "proved",
   "theorems": [
    "C51_record_and_reopen",
    "C51_file_bytes",
    "C51_record_and_play_back",
    "C51_any_float_file",
    "C51_open_ends",
    "C51_long_recording_refuted",
    "C51_unreadable_formats_refuted",
    "C51_truncated_file_stalls"
   ],
   "note": ""
  },
  {
   "property": "C52",
   "status": "proved",
   "theorems": [
    "C52_crash_leaves_a_prefix",
    "C52_durable_before_close_refuted"
   ],
   "note": ""
  },
  {
   "property": "C53",
   "status": "proved",
   "theorems": [
    "C53_every_call_allowed",
    "C53_nothing_left_open",
    "C53_callback_finds_its_object",
    "C53_destroying_a_running_stream_refuted",
    "C53_opens_what_was_asked",
    "C53_invalid_stream_is_inert",
    "C53_error_of_valid_stream_refuted",
    "C53_output_only_needs_input_device_refuted",
    "C53_midi_calls_allowed",
    "C53_midi_closes_null_refuted"
   ],
   "note": ""
  },
  {
   "property": "C54",
   "status": "proved",
   "theorems": [
    "C54_delay_effect",
    "C54_delay_bounded",
    "C54_delay_time_refuted",
    "C54_sine",
    "C54_synth",
    "C54_synth_step",
    "C54_silence",
    "C54_velocity_zero_refuted"
   ],
   "note": ""
  },
  {
   "property": "C55",
   "status": "proved",
   "theorems": [
    "C55_dual_report",
    "C55_period_detected",
    "C55_every_analysis",
    "C55_window_exact",
    "C55_witness",
    "C55_any_window_refuted",
    "C55_pitch_detected",
    "C55_prediction",
    "C55_prediction_every_pulse",
    "C55_prediction_at_minimum_refuted",
    "C55_pitch_prediction",
    "C55_dual_prediction"
   ],
   "note": ""
  }
 ]
}