{
 "claims": [
  {
   "property": "C01",
   "status": "proved",
   "theorems": [
    "C01_ring_is_bounded_fifo"
   ],
   "note": "drops of zero elements are excluded here and treated in C05"
  },
  {
   "property": "C02",
   "status": "proved",
   "theorems": [
    "C02_rollover_keeps_newest"
   ],
   "note": ""
  },
  {
   "property": "C03",
   "status": "proved",
   "theorems": [
    "C03_ring_accounting"
   ],
   "note": ""
  },
  {
   "property": "C04",
   "status": "partial",
   "theorems": [
    "C04_overrun_counts_partial",
    "C04_overrun_capacity1_refuted",
    "C04_overrun_drop_last_refuted"
   ],
   "note": "false of the code for capacity 1 and after drop_last (unsigned wrap); proved for capacity >= 2 without drops"
  },
  {
   "property": "C05",
   "status": "partial",
   "theorems": [
    "C05_zero_drop_exact",
    "C05_drop_all_default_refuted"
   ],
   "note": "the documented behaviour is false of the code; the exact behaviour is proved"
  },
  {
   "property": "C06",
   "status": "proved",
   "theorems": [
    "C06_line_framing"
   ],
   "note": ""
  },
  {
   "property": "C07",
   "status": "proved",
   "theorems": [
    "C07_get_next_line_exact",
    "C07_get_next_line_bounded",
    "C07_drop_next_line_exact"
   ],
   "note": ""
  },
  {
   "property": "C08",
   "status": "partial",
   "theorems": [
    "C08_view_partial",
    "C08_view_refuted"
   ],
   "note": "false of the code when the line wraps around the end of the storage; exact otherwise"
  },
  {
   "property": "C09",
   "status": "proved",
   "theorems": [
    "C09_pull_appends_all",
    "C09_no_line_lost"
   ],
   "note": ""
  },
  {
   "property": "C10",
   "status": "partial",
   "theorems": [
    "C10_overflow_spares_lines_partial",
    "C10_second_pull_refuted"
   ],
   "note": "false of the code when pull_in_data is called again after an overflow that completed a line; proved from every other state"
  },
  {
   "property": "C11",
   "status": "partial",
   "theorems": [
    "C11_push_out_exact",
    "C11_output_in_order_once_partial",
    "C11_refused_byte_lost_refuted"
   ],
   "note": "a byte refused by the stream although it reported room is lost; proved for streams that keep their word, exact effect proved for all"
  },
  {
   "property": "C12",
   "status": "partial",
   "theorems": [
    "C12_abort_restores_output_partial",
    "C12_commit_keeps_output",
    "C12_abort_empty_on_full_refuted",
    "C12_abort_foreign_bytes_refuted"
   ],
   "note": "abort with nothing queued on a full output buffer wipes it; abort drops the last bytes whoever wrote them"
  },
  {
   "property": "C13",
   "status": "partial",
   "theorems": [
    "C13_one_line_consumed",
    "C13_shows_its_line_partial",
    "C13_two_transactions_refuted",
    "C13_stale_view_refuted"
   ],
   "note": "consumption proved for every use of one transaction; the line shown is wrong for wrapped lines and after concurrent pulls, two open transactions consume two lines"
  },
  {
   "property": "C14",
   "status": "partial",
   "theorems": [
    "C14_history_partial",
    "C14_step_partial",
    "C14_reachable_holds",
    "C14_program_partial",
    "C14_program_refuted"
   ],
   "note": "Proved for all programs that use neither remove(), at(), front() nor pop the last element from the back (C14_program_partial), and with these for all histories within vguard, which adds where in the storage the elements lie. Outside of it the code is wrong (C14_program_refuted; C15, C16, C17)."
  },
  {
   "property": "C15",
   "status": "partial",
   "theorems": [
    "C15_pop_back_partial",
    "C15_pop_back_shifted_exact",
    "C15_pop_back_refuted"
   ],
   "note": "false of the code when the only element does not sit at the start of the storage"
  },
  {
   "property": "C16",
   "status": "partial",
   "theorems": [
    "C16_remove_partial",
    "C16_remove_at_end_exact",
    "C16_remove_shifted_refuted",
    "C16_remove_full_refuted",
    "C16_remove_past_end_refuted"
   ],
   "note": "false of the code: physical index, out of bounds read at the end of the storage, index size() accepted"
  },
  {
   "property": "C17",
   "status": "partial",
   "theorems": [
    "C17_accessors_partial",
    "C17_at_exact",
    "C17_front_refuted"
   ],
   "note": "front() and at() are wrong once the window is shifted"
  },
  {
   "property": "C18",
   "status": "partial",
   "theorems": [
    "C18_violation_halts",
    "C18_debug_safe_partial",
    "C18_emplace_front_refuted"
   ],
   "note": "emplace_front, remove, at, front, back lack checks"
  },
  {
   "property": "C19",
   "status": "partial",
   "theorems": [
    "C19_vector_iteration",
    "C19_array_iteration_partial",
    "C19_const_reverse_exact",
    "C19_const_reverse_refuted"
   ],
   "note": "reverse iteration over a const Array visits nothing"
  },
  {
   "property": "C20",
   "status": "partial",
   "theorems": [
    "C20_no_stale_partial",
    "C20_start",
    "C20_clear_refuted"
   ],
   "note": "clear and pop_back leave an element behind in a shifted vector"
  },
  {
   "property": "C21",
   "status": "partial",
   "theorems": [
    "C21_free_once_partial",
    "C21_external_kept_partial",
    "C21_no_leak_partial",
    "C21_swap_external_refuted",
    "C21_swap_copy_refuted",
    "C21_move_assign_leak_refuted",
    "C21_copy_assign_leak_refuted"
   ],
   "note": "swap does not exchange ownership, assignments leak"
  },
  {
   "property": "C22",
   "status": "proved",
   "theorems": [
    "C22_exclusive",
    "C22_reachable_shows"
   ],
   "note": ""
  },
  {
   "property": "C23",
   "status": "partial",
   "theorems": [
    "C23_complete_partial",
    "C23_order_partial",
    "C23_large_pool_refuted",
    "C23_large_pool"
   ],
   "note": "holds up to 65535 pooled objects; beyond, acquire may not return"
  },
  {
   "property": "C24",
   "status": "partial",
   "theorems": [
    "C24_destroy_partial",
    "C24_event_system_partial",
    "C24_destroy_refuted",
    "C24_event_system_refuted"
   ],
   "note": "only half of the objects are released"
  },
  {
   "property": "C25",
   "status": "partial",
   "theorems": [
    "C25_ordered_partial",
    "C25_pending_unique",
    "C25_schedule",
    "C25_schedule_partial",
    "C25_expire",
    "C25_order_refuted"
   ],
   "note": "All programs and handler behaviours. Order proved for delays up to T and clocks up to N with 2^24 T + N < 2^48 (e.g. delays of 2.3 hours on clocks of 2000 years); with longer delays the order is wrong (witness), though nothing is lost. expire on an event that is not due loses it in a release build."
  },
  {
   "property": "C26",
   "status": "partial",
   "theorems": [
    "C26_clock",
    "C26_none_lost",
    "C26_exactly_once_partial",
    "C26_none_left_partial",
    "C26_loop_partial",
    "C26_early_refuted"
   ],
   "note": "For any delays and clocks: what was scheduled is what fired and what is pending, and nothing fires earlier than the 2^24th part of the clock before it is due (never early in the first 2^24 ms). Due order and the exact effect of loop() for delays up to T and clocks up to N with 2^24 T + N < 2^48. Beyond 2^24 ms events can fire early (witness). Handlers may call anything, loop() included."
  },
  {
   "property": "C27",
   "status": "partial",
   "theorems": [
    "C27_trigger",
    "C27_trigger_any",
    "C27_attach",
    "C27_attach_full_refuted"
   ],
   "note": "All attachment histories, any clock; handlers may do anything, call loop() included. In a release build attaching beyond the handler capacity is silently ignored (witness)."
  },
  {
   "property": "C28",
   "status": "partial",
   "theorems": [
    "C28_capacity_partial",
    "C28_full_refuted"
   ],
   "note": "Capacity bound and slot recovery for all programs, delays and clocks. Scheduling without a free slot halts a debug build but is undefined behaviour in a release build (witness)."
  },
  {
   "property": "C29",
   "status": "partial",
   "theorems": [
    "C29_sleep_partial",
    "C29_not_past_partial",
    "C29_maximum_refuted"
   ],
   "note": "The sleep is characterised exactly for any clock and goes past the next due event by at most the 2^24th part of the clock (not at all in the first 2^24 ms). The configured maximum (microseconds) is applied to a millisecond count, so loop() sleeps up to 1000 times longer (witness)."
  },
  {
   "property": "C30",
   "status": "partial",
   "theorems": [
    "C30_exact_partial",
    "C30_operand_partial",
    "C30_self_partial",
    "C30_order_partial",
    "C30_unary",
    "C30_equality_refuted",
    "C30_difference_refuted"
   ],
   "note": "exact up to 2^24 counts; every right operand is rounded to single precision"
  },
  {
   "property": "C31",
   "status": "partial",
   "theorems": [
    "C31_nearest_partial",
    "C31_error_partial",
    "C31_hours_refuted",
    "C31_day_refuted",
    "C31_documented_refuted"
   ],
   "note": "nearest below 1677721 of the smaller unit; beyond, single precision is off"
  },
  {
   "property": "C32",
   "status": "partial",
   "theorems": [
    "C32_due_partial",
    "C32_latched",
    "C32_deviation_partial",
    "C32_remaining_partial",
    "C32_remaining_any_partial",
    "C32_absolute_partial",
    "C32_early_refuted",
    "C32_late_refuted"
   ],
   "note": "exact up to 2^24 ms of uptime (missing: exactness beyond, which is false); at any uptime within 2^-24 of the clock and the delay"
  },
  {
   "property": "C33",
   "status": "partial",
   "theorems": [
    "C33_catch_up_partial",
    "C33_catch_up_any_partial",
    "C33_plain_partial",
    "C33_deviation_partial",
    "C33_next_partial",
    "C33_reset",
    "C33_long_uptime_refuted"
   ],
   "note": "exact up to 2^24 ms of uptime (missing: exactness beyond, which is false); at any uptime within 2^-24 of the clock and the interval"
  },
  {
   "property": "C34",
   "status": "proved",
   "theorems": [
    "C34_value_at"
   ],
   "note": "every list of blocks starting within the day; durations as a debug build enforces"
  },
  {
   "property": "C35",
   "status": "partial",
   "theorems": [
    "C35_next_start_partial",
    "C35_first_in_list",
    "C35_order_refuted"
   ],
   "note": "true for lists in order of starts; in general the first in list order is returned (witness)"
  },
  {
   "property": "C36",
   "status": "proved",
   "theorems": [
    "C36_day_of_year",
    "C36_unique",
    "C36_leap"
   ],
   "note": "calcYearDay against day-by-day counting"
  },
  {
   "property": "C37",
   "status": "partial",
   "theorems": [
    "C37_minimal_times_partial",
    "C37_deviation_partial",
    "C37_hold",
    "C37_plain_partial",
    "C37_plain_later_partial",
    "C37_plain_refuted",
    "C37_exact_partial",
    "C37_long_uptime_refuted"
   ],
   "note": "exact up to 2^24 ms of uptime and configured times; at any uptime the minimal times hold up to 2^-24 of the clock; single precision shortens them (witness)"
  },
  {
   "property": "C38",
   "status": "partial",
   "theorems": [
    "C38_maximal_times_partial",
    "C38_deviation_partial",
    "C38_rearmed_refuted",
    "C37_exact_partial"
   ],
   "note": "holds while no reading is beyond a threshold, at any uptime up to 2^-24 of the clock; readings beyond the threshold re-arm the maximal time, so the latch can stay on indefinitely (witness)"
  },
  {
   "property": "C39",
   "status": "proved",
   "theorems": [
    "C39_update_within",
    "C39_response_within",
    "C39_equal_limits_refuted"
   ],
   "note": "IEEE binary32 (Flocq). Limits configured equal are ignored, so the output leaves them (witness)."
  },
  {
   "property": "C40",
   "status": "partial",
   "theorems": [
    "C40_rescale_partial",
    "C40_shorter",
    "C40_refuted"
   ],
   "note": "true when the new time is a multiple of the old one; the ratio is an integer quotient, so any shorter time zeroes the integral gain and makes the derivative gain infinite (proved for all)"
  },
  {
   "property": "C41",
   "status": "proved",
   "theorems": [
    "C41_relay",
    "C41_configured",
    "C41_min_or_max",
    "C41_cycles_never_decrease",
    "C41_finished_stays",
    "C41_finishing_call"
   ],
   "note": "for every measurement sequence, also NaN; whether the cycles get done at all depends on the process"
  },
  {
   "property": "C42",
   "status": "partial",
   "theorems": [
    "C42_mean_refuted",
    "C42_reported_partial",
    "C42_one_cycle",
    "C42_two_cycles"
   ],
   "note": "false: n - 2 gains are summed and divided by n - 1; exact value proved for all n; NaN for one cycle, 0 for two"
  },
  {
   "property": "C43",
   "status": "partial",
   "theorems": [
    "C43_between_partial",
    "C43_constant_partial",
    "C43_overflow_refuted",
    "C43_one_refuted"
   ],
   "note": "for samples up to 2^126 in absolute value; beyond, a difference can overflow; K = 1 shown to fail as well"
  },
  {
   "property": "C44",
   "status": "partial",
   "theorems": [
    "C44_in_band_partial",
    "C44_behaviour",
    "C44_first_sample_refuted",
    "C44_after_limit_refuted",
    "C44_marker_refuted"
   ],
   "note": "false for the first sample, after a forced acceptance, and after a sample equal to the marker; full behaviour proved otherwise"
  },
  {
   "property": "C45",
   "status": "partial",
   "theorems": [
    "C45_monotone_partial",
    "C45_range_partial",
    "C45_inside_partial",
    "C45_percentage",
    "C45_above_refuted",
    "C45_wide_refuted"
   ],
   "note": "for limits up to 2^125 in absolute value; output range exceeded when its width is not a float; Percentage and Permillage proved fully"
  },
  {
   "property": "C46",
   "status": "partial",
   "theorems": [
    "C46_grid_partial",
    "C46_inside_partial",
    "C46_error",
    "C46_twice_refuted",
    "C46_outside_refuted"
   ],
   "note": "false by rounding; exact on a grid, error at most 2^-24 in the default range"
  },
  {
   "property": "C47",
   "status": "partial",
   "theorems": [
    "C47_composition_partial",
    "C47_null_skipped",
    "C47_current_partial",
    "C47_five_lawful",
    "C47_empty_refuted"
   ],
   "note": "composition proved for all sample streams; value() of an empty stack is 0; detach_filter does not compile"
  },
  {
   "property": "C48",
   "status": "partial",
   "theorems": [
    "C48_states_partial",
    "C48_closed",
    "C48_map_identity",
    "C48_map_composition",
    "C48_map_error_composition",
    "C48_maps_commute",
    "C48_and_then_associative",
    "C48_and_then_units",
    "C48_map_is_and_then",
    "C48_or_else_associative",
    "C48_match_fusion",
    "C48_match_empty_refuted"
   ],
   "note": "all laws proved; match on an empty Result halts or is undefined"
  },
  {
   "property": "C49",
   "status": "proved",
   "theorems": [
    "C49_unique"
   ],
   "note": "any list of types; order of last mentions"
  },
  {
   "property": "C50",
   "status": "partial",
   "theorems": [
    "C50_sum_partial",
    "C50_sum_units_partial",
    "C50_sum_whole",
    "C50_scale",
    "C50_zero",
    "C50_simplify_partial",
    "C50_simplify_whole",
    "C50_kernel_partial",
    "C50_simplify_refuted",
    "C50_kernel_refuted"
   ],
   "note": "equal up to single-precision rounding (exact for small whole parts); simplify is undefined for negative parts and fails for tiny ones; kernel-time differences round the right operand"
  },
  {
   "property": "C51",
   "status": "partial",
   "theorems": [
    "C51_starts_with",
    "C51_ends_with_partial",
    "C51_ends_with_refuted"
   ],
   "note": "ends_with throws for every needle longer than the string"
  },
  {
   "property": "C52",
   "status": "partial",
   "theorems": [
    "C52_lstrip_partial",
    "C52_lstrip_refuted",
    "C52_rstrip_refuted",
    "C52_static_partial",
    "C52_static_refuted"
   ],
   "note": "rstrip of core/utils strips the front; all four read outside a string made of delimiters only, except StaticString::lstrip"
  },
  {
   "property": "C53",
   "status": "partial",
   "theorems": [
    "C53_accepts",
    "C53_rejects_partial",
    "C53_round_trip_partial",
    "C53_refuted"
   ],
   "note": "parse_time throws on texts without a leading digit, on numbers beyond int and on what repr writes for negative times"
  },
  {
   "property": "C54",
   "status": "partial",
   "theorems": [
    "C54_text_partial",
    "C54_overflow",
    "C54_overflow_refuted"
   ],
   "note": "debug messages append \"(file:line)\" behind the buffer when the text is long; exact overflow proved"
  },
  {
   "property": "C55",
   "status": "partial",
   "theorems": [
    "C55_range",
    "C55_ends_partial",
    "C55_last_partial",
    "C55_exact_partial",
    "C55_setpoint_refuted",
    "C55_tiny_refuted",
    "C55_negative_refuted",
    "C55_zero_refuted"
   ],
   "note": "range holds for all floats; with the default increment fades end beside the setpoint; tiny and negative increments never end"
  },
  {
   "property": "C56",
   "status": "partial",
   "theorems": [
    "C56_monotone",
    "C56_own_clock_partial",
    "C56_mixed",
    "C56_agree_refuted",
    "C56_micros_lost_refuted"
   ],
   "note": "the clocks never go back but disagree: 1 ms shows as 1 s on micros()"
  },
  {
   "property": "C57",
   "status": "proved",
   "theorems": [
    "C57_mock_loopback"
   ],
   "note": ""
  },
  {
   "property": "C58",
   "status": "partial",
   "theorems": [
    "C58_increment_partial",
    "C58_post_increment_refuted"
   ],
   "note": "post-increment yields the new position"
  },
  {
   "property": "C59",
   "status": "partial",
   "theorems": [
    "C59_copy_aliases_partial",
    "C59_copy_independent_refuted"
   ],
   "note": "copies share storage"
  },
  {
   "property": "C60",
   "status": "partial",
   "theorems": [
    "C60_elapsed_partial",
    "C60_deviation_partial",
    "C60_no_reset",
    "C60_long_uptime_refuted"
   ],
   "note": "exact up to 2^24 ms of uptime; at any uptime within 2^-24 of the clock; exactness beyond is false (witness)"
  },
  {
   "property": "C61",
   "status": "proved",
   "theorems": [
    "C61_construction"
   ],
   "note": ""
  },
  {
   "property": "C62",
   "status": "partial",
   "theorems": [
    "C62_epochs_partial",
    "C62_debug_refuted",
    "C62_debug"
   ],
   "note": "true from 2000 on and in release builds; in debug builds earlier times, also the default 0, fail an assertion on an unsigned difference"
  },
  {
   "property": "C63",
   "status": "partial",
   "theorems": [
    "C63_sampling_partial",
    "C63_deviation_partial",
    "C63_no_change",
    "C63_long_uptime_refuted"
   ],
   "note": "exact up to 2^24 ms of uptime; at any uptime within 2^-24 of the clock; exactness beyond is false (witness)"
  },
  {
   "property": "C64",
   "status": "partial",
   "theorems": [
    "C64_reported_partial",
    "C64_kp_partial",
    "C64_scaled_refuted"
   ],
   "note": "only for a sampling time of 1 s; otherwise the internally scaled gains are returned"
  },
  {
   "property": "C65",
   "status": "partial",
   "theorems": [
    "C65_ignored",
    "C65_on_error_refuted"
   ],
   "note": "false for every configuration: the configured proportionality is never used"
  },
  {
   "property": "C66",
   "status": "partial",
   "theorems": [
    "C66_copy_inert",
    "C66_copy_refuted"
   ],
   "note": "false: a copy works on the variables of the original"
  },
  {
   "property": "C67",
   "status": "partial",
   "theorems": [
    "C67_final_command_refuted",
    "C67_commands_partial"
   ],
   "note": "false for the last command, which is 0; all others are limits"
  },
  {
   "property": "C68",
   "status": "partial",
   "theorems": [
    "C68_peak_refuted",
    "C68_cycle_partial"
   ],
   "note": "false for the peak: measurements up to and including the one that switches off are ignored"
  },
  {
   "property": "C69",
   "status": "partial",
   "theorems": [
    "C69_width_refuted",
    "C69_mantissa_one_partial"
   ],
   "note": "false for mantissa other than 1: (10 m)^(d + 1) instead of m 10^(d + 1)"
  },
  {
   "property": "C70",
   "status": "partial",
   "theorems": [
    "C70_chain_partial",
    "C70_numeric_error",
    "C70_numeric_error_refuted"
   ],
   "note": "false when bool converts to E and E is not T: \"return *this\" picks the error constructor; exact behaviour proved for both cases"
  },
  {
   "property": "C71",
   "status": "partial",
   "theorems": [
    "C71_made_and_copied_partial",
    "C71_variable_refuted"
   ],
   "note": "false for variables when T, or bool, converts to another type E"
  },
  {
   "property": "C72",
   "status": "partial",
   "theorems": [
    "C72_debug",
    "C72_release_partial",
    "C72_wrong_state",
    "C72_same_types_refuted",
    "C72_empty_refuted"
   ],
   "note": "debug builds proved; release builds need different types and a Result that is not empty"
  },
  {
   "property": "C73",
   "status": "proved",
   "theorems": [
    "C73_conversion",
    "C73_magnitudes"
   ],
   "note": ""
  },
  {
   "property": "C74",
   "status": "proved",
   "theorems": [
    "C74_same_unit"
   ],
   "note": ""
  },
  {
   "property": "C75",
   "status": "partial",
   "theorems": [
    "C75_order",
    "C75_comparison_partial",
    "C75_comparison_refuted"
   ],
   "note": "false for amounts closer than the rounding of the conversion; right beyond 5 * 2^-24"
  },
  {
   "property": "C76",
   "status": "partial",
   "theorems": [
    "C76_order_partial",
    "C76_units_refuted",
    "C76_kernel_refuted"
   ],
   "note": "operands in different units are compared without conversion; kernel-time quotients are truncated"
  },
  {
   "property": "C77",
   "status": "partial",
   "theorems": [
    "C77_equality_partial",
    "C77_units_partial",
    "C77_equality_refuted",
    "C77_symmetry_refuted"
   ],
   "note": "exact within one unit; between units a quantity may differ from its own conversion"
  },
  {
   "property": "C78",
   "status": "proved",
   "theorems": [
    "C78_kelvin",
    "C78_order"
   ],
   "note": ""
  },
  {
   "property": "C79",
   "status": "proved",
   "theorems": [
    "C79_find_first_of"
   ],
   "note": ""
  },
  {
   "property": "C80",
   "status": "partial",
   "theorems": [
    "C80_number_partial",
    "C80_number_refuted"
   ],
   "note": "digits only; right when a terminator follows; the full grammar of numbers is C127"
  },
  {
   "property": "C81",
   "status": "proved",
   "theorems": [
    "C81_concat"
   ],
   "note": ""
  },
  {
   "property": "C82",
   "status": "proved",
   "theorems": [
    "C82_storage",
    "C82_written",
    "C82_set_size"
   ],
   "note": ""
  },
  {
   "property": "C83",
   "status": "partial",
   "theorems": [
    "C83_units_partial",
    "C83_numbers",
    "C83_hours_refuted"
   ],
   "note": "hours are never used"
  },
  {
   "property": "C84",
   "status": "proved",
   "theorems": [
    "C84_printf"
   ],
   "note": ""
  },
  {
   "property": "C85",
   "status": "partial",
   "theorems": [
    "C85_levels",
    "C85_start",
    "C85_release",
    "C85_zephyr_partial",
    "C85_zephyr_off_refuted"
   ],
   "note": "false on Zephyr only: OFF falls through to ERR"
  },
  {
   "property": "C86",
   "status": "proved",
   "theorems": [
    "C86_throw",
    "C86_install"
   ],
   "note": "handlers that throw further library errors are not modelled"
  },
  {
   "property": "C87",
   "status": "proved",
   "theorems": [
    "C87_order",
    "C87_compare",
    "C87_binary32"
   ],
   "note": ""
  },
  {
   "property": "C88",
   "status": "partial",
   "theorems": [
    "C88_delay_partial",
    "C88_delay_refuted"
   ],
   "note": "from a millisecond on the remainder below a millisecond is not waited"
  },
  {
   "property": "C89",
   "status": "partial",
   "theorems": [
    "C89_level_partial",
    "C89_undefined_refuted"
   ],
   "note": "false for the state UNDEFINED only"
  },
  {
   "property": "C90",
   "status": "proved",
   "theorems": [
    "C90_attach",
    "C90_no_interrupt"
   ],
   "note": ""
  },
  {
   "property": "C91",
   "status": "partial",
   "theorems": [
    "C91_detach_partial",
    "C91_detach_refuted"
   ],
   "note": "detach uses the pin where attach used the interrupt of the pin"
  },
  {
   "property": "C92",
   "status": "partial",
   "theorems": [
    "C92_smooth_partial",
    "C92_jump_refuted",
    "C92_second_fade_refuted"
   ],
   "note": "steps of one fade are within the increment up to rounding; jumps of up to one and a half increments, and more after a fade that ended beside its setpoint"
  },
  {
   "property": "C93",
   "status": "partial",
   "theorems": [
    "C93_value_partial",
    "C93_set_value_refuted",
    "C93_fade_refuted"
   ],
   "note": "set_value of the implementations hides the one that keeps value()"
  },
  {
   "property": "C94",
   "status": "partial",
   "theorems": [
    "C94_duty_partial",
    "C94_value",
    "C94_monotone",
    "C94_full_scale_refuted"
   ],
   "note": "full scale is 2^resolution, one too many"
  },
  {
   "property": "C95",
   "status": "proved",
   "theorems": [
    "C95_read"
   ],
   "note": ""
  },
  {
   "property": "C96",
   "status": "partial",
   "theorems": [
    "C96_before_partial",
    "C96_interval_before_partial",
    "C96_turn_partial",
    "C96_elapsed",
    "C96_alarm_lost",
    "C96_alarm_never",
    "C96_alarm_refuted",
    "C96_interval_silent",
    "C96_interval_never",
    "C96_interval_refuted",
    "C96_interval_dead_refuted",
    "C96_elapsed_refuted"
   ],
   "note": "right between two rolls; an alarm due behind the roll never expires, an interval timer is silent until the clock comes round again, or for good when its next expiry lies behind the roll"
  },
  {
   "property": "C97",
   "status": "partial",
   "theorems": [
    "C97_never_shorter",
    "C97_floor",
    "C97_round",
    "C97_round_trip_partial",
    "C97_real_error",
    "C97_round_trip_refuted",
    "C97_longest_refuted"
   ],
   "note": "the three roundings hold up to 2^62 counts; the round trip is exact up to 2^24 counts and false above"
  },
  {
   "property": "C98",
   "status": "proved",
   "theorems": [
    "C98_own",
    "C98_only_own",
    "C98_other"
   ],
   "note": ""
  },
  {
   "property": "C99",
   "status": "partial",
   "theorems": [
    "C99_text_partial",
    "C99_separator_refuted",
    "C99_debug",
    "C99_debug_refuted"
   ],
   "note": "a separator follows the last time as well; a debug build stops for texts shorter than 30 characters (libstdc++) and for texts that grow between the passes"
  },
  {
   "property": "C100",
   "status": "partial",
   "theorems": [
    "C100_laws",
    "C100_equal",
    "C100_division",
    "C100_dot_refuted",
    "C100_axis_partial",
    "C100_normalized",
    "C100_normalize_refuted"
   ],
   "note": "dot gives a point, normalize is only right on an axis; whole numbers without overflow"
  },
  {
   "property": "C101",
   "status": "partial",
   "theorems": [
    "C101_read_partial",
    "C101_block",
    "C101_history",
    "C101_empty_refuted"
   ],
   "note": "the answer is true without a byte as well"
  },
  {
   "property": "C102",
   "status": "partial",
   "theorems": [
    "C102_start_partial",
    "C102_ends_partial",
    "C102_clock_refuted"
   ],
   "note": "at any uptime, the clock of the platform as rounded to single precision (exact up to 4.6 hours); the half hour is taken from the clock of the platform and not from the clock given (witness)"
  },
  {
   "property": "C103",
   "status": "partial",
   "theorems": [
    "C103_flag_refuted",
    "C103_fall_back_partial"
   ],
   "note": "false: the flag is never read; the wait that it should switch on is right within its time-out"
  },
  {
   "property": "C104",
   "status": "partial",
   "theorems": [
    "C104_pace_partial",
    "C104_deviation_partial",
    "C104_uptime_refuted"
   ],
   "note": "exact up to 4.6 hours of uptime, within 2^-24 of the clock later; exactness later is false (witness)"
  },
  {
   "property": "C105",
   "status": "partial",
   "theorems": [
    "C105_value",
    "C105_stack_value",
    "C105_average",
    "C105_no_effect",
    "C105_band_partial",
    "C105_band_refuted",
    "C105_marker_refuted",
    "C105_band_exact",
    "C105_stack",
    "C105_null_refuted"
   ],
   "note": "false for the band after rejected samples: their count is kept; and for a reset to the marker; everything else proved"
  },
  {
   "property": "C106",
   "status": "proved",
   "theorems": [
    "C106_sum",
    "C106_product",
    "C106_quotient"
   ],
   "note": "error bounds of single precision for every pair of units"
  },
  {
   "property": "C107",
   "status": "partial",
   "theorems": [
    "C107_reads",
    "C107_event",
    "C107_schedule_partial",
    "C107_trigger",
    "C107_drop",
    "C107_null",
    "C107_null_refuted",
    "C107_copy_refuted"
   ],
   "note": "proved for events scheduled once; a second scheduling of the same event moves the first one, and a release build without room gives null, which it dereferences when that is scheduled (witnesses)"
  },
  {
   "property": "C108",
   "status": "partial",
   "theorems": [
    "C108_partial",
    "C108_bounds",
    "C108_lost",
    "C108_lost_refuted",
    "C108_seconds",
    "C108_seconds_refuted",
    "C108_dst_refuted",
    "C108_text_refuted"
   ],
   "note": "true for times without an 08 or 09; hours and minutes of 08 and 09 leave members uninitialised, seconds of 08 and 09 are read as 0; exact result proved in every case"
  },
  {
   "property": "C109",
   "status": "partial",
   "theorems": [
    "C109_back_partial",
    "C109_front_partial",
    "C109_insert_partial",
    "C109_back",
    "C109_back_refuted",
    "C109_front",
    "C109_front_refuted",
    "C109_insert",
    "C109_insert_moved",
    "C109_insert_refuted"
   ],
   "note": "true when the elements are not moved before the copy; otherwise the exact (wrong) value added is proved"
  },
  {
   "property": "C110",
   "status": "partial",
   "theorems": [
    "C110_copy_partial",
    "C110_exclusive_partial",
    "C110_depopulate",
    "C110_depopulate_refuted",
    "C110_populate",
    "C110_populate_refuted",
    "C110_destroy",
    "C110_destroy_refuted",
    "C110_dangling",
    "C110_dangling_refuted",
    "C110_move_assign",
    "C110_move_assign_refuted",
    "C110_copy_assign",
    "C110_copy_assign_refuted"
   ],
   "note": "copies hold the same objects and acquire stays exclusive; copies share the storage with the original, so the rest is false: exact effects proved"
  },
  {
   "property": "C111",
   "status": "partial",
   "theorems": [
    "C111_account_partial",
    "C111_serve_partial",
    "C111_stuck",
    "C111_stuck_refuted",
    "C111_kept",
    "C111_kept_refuted"
   ],
   "note": "accounting proved for all programs: every transaction is open, overwritten while open, or has consumed one line; assigning over an open one does not end it (exact effect and witness)"
  },
  {
   "property": "C112",
   "status": "partial",
   "theorems": [
    "C112_same",
    "C112_band_partial",
    "C112_value_partial",
    "C112_first_refuted",
    "C112_stack",
    "C112_stack_refuted"
   ],
   "note": "value() of the one filter is unchanged (except the first sample of a band with limit 0, which is kept); the filters of a stack before the one that raised have taken the sample (exact theorem and witness)"
  },
  {
   "property": "C113",
   "status": "partial",
   "theorems": [
    "C113_still",
    "C113_timer",
    "C113_timer_refuted",
    "C113_timer_lost_refuted",
    "C113_latch_partial",
    "C113_latch_any_partial",
    "C113_order_partial",
    "C113_first_partial",
    "C113_kept",
    "C113_order_refuted",
    "C113_drift_refuted"
   ],
   "note": "true of the latch (up to 2^24 ms exactly, later within 2^-24); a Timer loses every tick between its difference and its reset; events can be out of order by the time a push takes, or by that time for each push when the compiler evaluates the other operand first"
  },
  {
   "property": "C114",
   "status": "partial",
   "theorems": [
    "C114_calm",
    "C114_none_lost",
    "C114_slots",
    "C114_order_partial",
    "C114_none_left_partial",
    "C114_trigger",
    "C114_others_refuted"
   ],
   "note": "nothing lost, slots freed, order kept (for delays up to hours) whatever is thrown; but the handlers attached after the one that threw are never told of the event"
  },
  {
   "property": "C115",
   "status": "partial",
   "theorems": [
    "C115_latch_partial",
    "C115_latch_stuck",
    "C115_latch_refuted",
    "C115_pid_stuck",
    "C115_events_partial",
    "C115_event_never",
    "C115_event_refuted"
   ],
   "note": "true between two roll-overs, at any uptime; false across one: latches and controllers hold their output for up to 49.7 days, events due after it never fire (exact theorems for all times, and witnesses)"
  },
  {
   "property": "C116",
   "status": "partial",
   "theorems": [
    "C116_move_partial",
    "C116_move_assign_partial",
    "C116_owners_partial",
    "C116_states",
    "C116_unwrap",
    "C116_unwrap_kept",
    "C116_unwrap_refuted",
    "C116_source_refuted"
   ],
   "note": "Moves hand over exactly and never duplicate an owner, for all programs. False of the code: unwrap() copies, as uv::Wrapper only converts to an lvalue, so the Result keeps its payload; a Result moved from still reports its old state."
  },
  {
   "property": "C117",
   "status": "partial",
   "theorems": [
    "C117_mag_partial",
    "C117_normalize_partial",
    "C117_zero",
    "C117_plane",
    "C117_equal",
    "C117_zero_nan",
    "C117_zero_refuted",
    "C117_short_refuted",
    "C117_long_refuted",
    "C117_arithmetic"
   ],
   "note": "Within (1 + 2^-26) roundings of float for lengths from 2^-125 to 2^127. False of the code: the point zero becomes NaN, very short points keep a length other than one, very long ones become zero. Arithmetic of points works component by component, and each component is the exact result correctly rounded while it stays in range (C117_arithmetic)."
  },
  {
   "property": "C118",
   "status": "partial",
   "theorems": [
    "C118_fields",
    "C118_unix_partial",
    "C118_back",
    "C118_once",
    "C118_order",
    "C118_text_partial",
    "C118_text_refuted",
    "C118_carried",
    "C118_nodate_refuted",
    "C118_weekday_refuted",
    "C118_far",
    "C118_far_refuted"
   ],
   "note": "Proved for all dates and times, with mktime and gmtime_r of the C library taken as POSIX describes them in UTC. False of the code: dates that do not exist are carried over silently, the weekday is taken as 1 to 7 and shown as 0 to 6, text leaves the daylight saving flag unset, and Unix times beyond the years of an int leave the fields unset."
  },
  {
   "property": "C119",
   "status": "partial",
   "theorems": [
    "C119_ends_partial",
    "C119_chain_partial",
    "C119_endless",
    "C119_endless_refuted",
    "C119_dropped",
    "C119_dropped_refuted",
    "C119_stops"
   ],
   "note": "Proved for all handlers that remove or lower themselves before they raise and keep themselves while they use their members. False of the code otherwise: a handler stays installed while it runs, so one that raises calls itself without end, and one that drops the handler it replaced destroys itself."
  },
  {
   "property": "C120",
   "status": "partial",
   "theorems": [
    "C120_lists_partial",
    "C120_ends_partial",
    "C120_empty",
    "C120_others",
    "C120_swap_refuted",
    "C120_moved_refuted"
   ],
   "note": "Proved for all programs without copies (they share storage, see C59) that swap arrays of the same size and ownership. False of the code: swap exchanges the storage but not the sizes, a moved-from array says it has its elements still, and front/back of an empty array read beyond it."
  },
  {
   "property": "C121",
   "status": "partial",
   "theorems": [
    "C121_own_partial",
    "C121_lawful_partial",
    "C121_copies",
    "C121_destroys",
    "C121_others",
    "C121_ring_room",
    "C121_ring_roll",
    "C121_vec_pops",
    "C121_ring_outlives",
    "C121_vec_outlives",
    "C121_ring_refuted",
    "C121_line_refuted",
    "C121_vec_refuted"
   ],
   "note": "Proved for all programs without copies, and for all programs with copies that write or free no storage while two objects use it; in all programs copies answer like the original at first, calls that only read change no other object, and destruction is defined. False of the code: a copy shares the storage, so pushing to one changes the other, popping from a vector moves the element out of its copies, and a copy that outlives the original uses freed storage (exact effects and witnesses)."
  },
  {
   "property": "C122",
   "status": "partial",
   "theorems": [
    "C122_alive_partial",
    "C122_exact_partial",
    "C122_leaks",
    "C122_ring_alive",
    "C122_ring_full_partial",
    "C122_ring_leaks",
    "C122_remove_refuted",
    "C122_leak_refuted",
    "C122_ring_refuted"
   ],
   "note": "Proved: in all programs without remove nothing in use is destroyed (vectors; ring buffers in all programs); exact counts in all programs that keep the results, respect the guards of C14 and neither assign lists nor destroy the vector, and for ring buffers whenever they are full. False of the code: remove copies the bytes of a stale cell so that an object is destroyed while in use; destruction and list assignment never release the elements (proved for all programs), and elements taken out of a ring buffer live on until their cell is written."
  },
  {
   "property": "C123",
   "status": "partial",
   "theorems": [
    "C123_defined_partial",
    "C123_products",
    "C123_alarms_partial",
    "C123_intervals_partial",
    "C123_timers_partial",
    "C123_limit",
    "C123_never_refuted",
    "C123_days_refuted"
   ],
   "note": "Proved for all times up to 73 066 years and all runs of timers of 17 839 years; products of such times are defined exactly when they are in the range. False of the code: the last 2^38 counts of the range round up to 2^63 in the conversion through float, so comparing the greatest time with itself, or using it as an alarm or interval that never comes, is undefined (exact limit proved)."
  },
  {
   "property": "C124",
   "status": "partial",
   "theorems": [
    "C124_default",
    "C124_whole_partial",
    "C124_distinct",
    "C124_sorted",
    "C124_back_partial",
    "C124_back_refuted",
    "C124_far_refuted"
   ],
   "note": "Proved in UTC with strftime assumed as POSIX describes it (14 conversions), for all moments. False of the code: reading the text back is undefined when the hour or minute is 08 or 09 (C108), and a DateTime of a Unix time beyond the years of an int has uninitialised fields, so formatting it is undefined."
  },
  {
   "property": "C125",
   "status": "proved",
   "theorems": [
    "C125_law",
    "C125_exact",
    "C125_hold",
    "C125_forward",
    "C125_reverse",
    "C125_mirror",
    "C125_turned",
    "C125_pid",
    "C125_error"
   ],
   "note": "The law holds bit for bit for all floats; the comparisons of histories for values up to 2^40 and sampling times up to 2^24 ms; the textbook sum for integers whose products stay below 2^21. What the comparisons say of the class PID follows from C125_pid (its gains after initialize() are those of C40 until tunings are set)."
  },
  {
   "property": "C126",
   "status": "proved",
   "theorems": [
    "C126_average",
    "C126_settles",
    "C126_mapped",
    "C126_inverted"
   ],
   "note": "For float filters. Resets: C105 (the state after a reset); frame sizes below 2 and samples above 2^126 are refuted in C43, wide ranges in C45."
  },
  {
   "property": "C127",
   "status": "partial",
   "theorems": [
    "C127_number_partial",
    "C127_other_partial",
    "C127_once",
    "C127_order_partial",
    "C127_behind_refuted",
    "C127_zero_refuted"
   ],
   "note": "Right for views whose text contains no zero character and is followed by one; false for views that are not (C127_behind_refuted) or whose text contains one (C127_zero_refuted). strtof itself is assumed to do what C17 7.22.1.3 says, correctly rounded (NumeralModel)."
  },
  {
   "property": "C128",
   "status": "partial",
   "theorems": [
    "C128_whole",
    "C128_unsigned_partial",
    "C128_unsigned_refuted",
    "C128_near_partial",
    "C128_beyond",
    "C128_exact_partial",
    "C128_exact_refuted",
    "C128_order",
    "C128_special"
   ],
   "note": "Whole numbers of signed types are exact. False of the code for negative times divided by an unsigned long (C128_unsigned_refuted) and for whole float factors beyond 2^24 counts (C128_exact_refuted), where the error bound of C128_near_partial holds instead. Proved for every binary floating-point format with 2 to 62 bits, float and double among them."
  },
  {
   "property": "C129",
   "status": "partial",
   "theorems": [
    "C129_answers",
    "C129_all_answered",
    "C129_transactions_partial",
    "C129_transactions_all_partial",
    "C129_transactions_refuted"
   ],
   "note": "Proved in full for a server that copies its lines. A server with transactions gives the same results or reads outside of the input buffer, as soon as a line wraps around its end (C129_transactions_refuted; the same fault as in C08)."
  },
  {
   "property": "C130",
   "status": "partial",
   "theorems": [
    "C130_starts_partial",
    "C130_starts_later_partial",
    "C130_starts_refuted"
   ],
   "note": "exact up to 2^24 ms of uptime; at any uptime up to 2^-24 of the clock for each switching; exactness beyond is false (witness)"
  },
  {
   "property": "C131",
   "status": "partial",
   "theorems": [
    "C131_tasks_partial",
    "C131_tasks_later_partial",
    "C131_spare_refuted",
    "C131_returns_refuted",
    "C131_early_refuted"
   ],
   "note": "exact up to 2^24 ms of uptime with one spare event slot; at any uptime for periods longer than the 2^24th part of it; false without a spare slot, and for shorter periods late (witnesses)"
  },
  {
   "property": "C132",
   "status": "partial",
   "theorems": [
    "C132_one_partial",
    "C132_release",
    "C132_release_refuted"
   ],
   "note": "debug builds exactly; false of release builds (witness), where the last one given counts"
  },
  {
   "property": "C133",
   "status": "partial",
   "theorems": [
    "C133_detached_refuted"
   ],
   "note": "false: detach is not implemented, it halts a debug build and does nothing in a release build (witness)"
  },
  {
   "property": "C134",
   "status": "partial",
   "theorems": [
    "C134_ceiling_partial",
    "C134_floor_partial",
    "C134_forced_refuted"
   ],
   "note": "up to 2^24 ms of uptime and without a maximal on (resp. off) time; false with one (witness)"
  },
  {
   "property": "C135",
   "status": "proved",
   "theorems": [
    "C135_answers",
    "C135_all_answered",
    "C135_calls"
   ],
   "note": "with a server that copies its lines (C129); requests and answers contain no delimiter and fit, with one, into the input buffer they arrive in"
  },
  {
   "property": "C136",
   "status": "partial",
   "theorems": [
    "C136_freed_partial",
    "C136_once",
    "C136_vec_refuted",
    "C136_ring_refuted"
   ],
   "note": "Proved for all programs, with the exact set of storages that are not freed: those handed in by the caller, and those of objects that were assigned to, by copying or moving (the code does not free them: C136_vec_refuted, C136_ring_refuted). Without assignments between objects everything allocated is freed. That malloc succeeds is assumed."
  },
  {
   "property": "C137",
   "status": "partial",
   "theorems": [
    "C137_limited",
    "C137_reaches_partial",
    "C137_returns",
    "C137_sinks_partial",
    "C137_rises",
    "C137_pushes",
    "C137_unwound",
    "C137_reaches_refuted"
   ],
   "note": "The amounts are exact on whole numbers at one sample a second, at both limits and in both directions. For all floats up to 2^40: the output never moves back (C137_pushes) and does not wind up (C137_unwound), stated for the upper limit of a forward controller (for reverse ones with C125_mirror). False in single precision: that the limit is reached, since a small share Ki times deviation is lost when it is added to the sum (C137_reaches_refuted)."
  },
  {
   "property": "C138",
   "status": "partial",
   "theorems": [
    "C138_follow_partial",
    "C138_ends",
    "C138_wakes",
    "C138_gap_refuted",
    "C138_order_refuted"
   ],
   "note": "Proved for schedules listed in order without overlaps that fill the day; with gaps the value is due until its block ends and nothing after that (C138_ends). False of the code otherwise: start_of_next_block does not tell where a block ends (C138_gap_refuted) and takes the first later start in the order of the list (C138_order_refuted)."
  },
  {
   "property": "C139",
   "status": "partial",
   "theorems": [
    "C139_toward_partial",
    "C139_approach_partial",
    "C139_reaches_refuted"
   ],
   "note": "Proved for samples up to 2^126 and frames of at least two samples (outside: C43_overflow_refuted, C43_one_refuted). False in single precision: that the output gets to a constant input (C139_reaches_refuted); how near it gets is C126_settles."
  },
  {
   "property": "C140",
   "status": "partial",
   "theorems": [
    "C140_tunings_partial",
    "C140_early_partial",
    "C140_uptime_refuted",
    "C140_one_refuted"
   ],
   "note": "proved for every run of measurements whose waits are more than the 2^24th part of the uptime (any wait in the first 4.6 hours, 1 s for 194 days) and two or more cycles: gains are numbers, not negative, accepted by set_tunings also with assertions enabled; false for shorter waits (times are rounded when subtracted, the integral gain becomes negative) and for one cycle (gains are NaN)"
  },
  {
   "property": "C141",
   "status": "proved",
   "theorems": [
    "C141_value",
    "C141_daily",
    "C141_nap"
   ],
   "note": "on top of the models of Schedule and DateTime; the zone of the C library is UTC as in C118"
  },
  {
   "property": "C142",
   "status": "partial",
   "theorems": [
    "C142_number_partial",
    "C142_drives_partial",
    "C142_lost",
    "C142_lost_infinite",
    "C142_recovers_refuted"
   ],
   "note": "proved for tunings up to 2^20, limits, readings and setpoints up to 2^40 and sampling times from 100 ms: every response is a finite number within the limits, accepted by an analogue output; false after a reading that is no number (or one infinite reading without integral gain): every later response is NaN, whatever is called"
  },
  {
   "property": "C143",
   "status": "partial",
   "theorems": [
    "C143_band_partial",
    "C143_average_partial",
    "C143_controller_partial",
    "C143_lost",
    "C143_first_refuted",
    "C143_mark_refuted",
    "C143_pass_refuted"
   ],
   "note": "proved for a band-pass that stops on too many rejections, when the first sample is a number and none equals the internal mark -789.123: outputs are numbers among the samples, the average lies between samples, the controller answers a number within its limits; an unguarded average is NaN for ever after one NaN; false when the first sample is NaN, when one follows a sample equal to the mark, and after too many rejections without stopping"
  },
  {
   "property": "C144",
   "status": "partial",
   "theorems": [
    "C144_causes_partial",
    "C144_quiet_partial",
    "C144_reacts_partial",
    "C144_reacts_low_partial",
    "C144_minimal_refuted",
    "C144_margin_refuted"
   ],
   "note": "proved for samples up to 2^126 and a latch without minimal and maximal times (staying off also with them), with an explicit bound on the number of samples after which it has reacted; false with a minimal off time, where it may switch on at a sample between the levels, and for a lasting value above the level by less than the average resolves, to which it never reacts"
  }
 ]
}