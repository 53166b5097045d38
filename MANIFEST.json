{
 "claims": [
  {
   "property": "C01",
   "status": "proved",
   "theorems": [
    "C01_split_cuts_at_separators",
    "C01_split_unique"
   ],
   "note": ""
  },
  {
   "property": "C02",
   "status": "proved",
   "theorems": [
    "C02_trim_exact",
    "C02_trim_idempotent"
   ],
   "note": ""
  },
  {
   "property": "C03",
   "status": "proved",
   "theorems": [
    "C03_chunk_independent",
    "C03_lines_are_the_cut_at_LF",
    "C03_long_line_stalls_refuted",
    "C03_flush_forgets",
    "C03_flush_after_cr_refuted"
   ],
   "note": ""
  },
  {
   "property": "C04",
   "status": "proved",
   "theorems": [
    "C04_stays_in_buffer",
    "C04_incomplete_line_overflow_refuted",
    "C04_short_lines_leave_room"
   ],
   "note": ""
  },
  {
   "property": "C05",
   "status": "proved",
   "theorems": [
    "C05_line_ends",
    "C05_cr_only",
    "C05_lone_cr_swallows_line_refuted"
   ],
   "note": ""
  },
  {
   "property": "C06",
   "status": "proved",
   "theorems": [
    "C06_ring_is_bounded_list"
   ],
   "note": ""
  },
  {
   "property": "C07",
   "status": "proved",
   "theorems": [
    "C07_longest_keyword",
    "C07_registration",
    "C07_expect_next",
    "C07_as_string"
   ],
   "note": ""
  },
  {
   "property": "C08",
   "status": "proved",
   "theorems": [
    "C08_registration",
    "C08_ready_cycle",
    "C08_due_once",
    "C08_timeout_cycle",
    "C08_timeout_ends",
    "C08_when_it_stops",
    "C08_loop"
   ],
   "note": ""
  },
  {
   "property": "C09",
   "status": "proved",
   "theorems": [
    "C09_every_line_once_in_order",
    "C09_prefix_at_any_time",
    "C09_second_connection_refused",
    "C09_last_line_after_cr_lost_refuted"
   ],
   "note": ""
  },
  {
   "property": "C10",
   "status": "proved",
   "theorems": [
    "C10_every_line_means_something",
    "C10_lines_delivered",
    "C10_verdict",
    "C10_unterminated_last_line",
    "C10_last_comment_refuted"
   ],
   "note": "Texts whose lines all end in LF; an unterminated last line is only handled without a comment (C10_last_comment_refuted)."
  },
  {
   "property": "C11",
   "status": "proved",
   "theorems": [
    "C11_products",
    "C11_rest_refused",
    "C11_decimals",
    "C11_malformed_refuted"
   ],
   "note": "For every number reader (strtod) that consumes a non-empty prefix. Malformed products with a missing operand are accepted as 1 (C11_malformed_refuted)."
  },
  {
   "property": "C12",
   "status": "proved",
   "theorems": [
    "C12_expression_value",
    "C12_every_sequence",
    "C12_every_signed_sequence",
    "C12_unambiguous"
   ],
   "note": "Grammar in Spec_Expr. For every number reader, library functions and parameter table; up to six operands kept at once, which every expression without minus signs meets (C12_every_sequence)."
  },
  {
   "property": "C13",
   "status": "proved",
   "theorems": [
    "C13_stack_bound",
    "C13_value_bound",
    "C13_overflow_refuted"
   ],
   "note": "At most one non-literal minus sign per bracket pair; with two the stack is overrun (C13_overflow_refuted). The number reader must consume at least one character and no bracket."
  },
  {
   "property": "C14",
   "status": "proved",
   "theorems": [
    "C14_word_progress",
    "C14_line_ends",
    "C14_file_ends",
    "C14_unclosed_comment_refuted",
    "C14_choice_refuted",
    "C14_nested_while_refuted"
   ],
   "note": "Progress for every line; the end within the line for harmless lines without WHILE. The conditions are needed (three refuted theorems)."
  },
  {
   "property": "C15",
   "status": "proved",
   "theorems": [
    "C15_protocol",
    "C15_line_done",
    "C15_one_line",
    "C15_file",
    "C15_start_in_loop_refuted"
   ],
   "note": ""
  },
  {
   "property": "C16",
   "status": "proved",
   "theorems": [
    "C16_move",
    "C16_continuation",
    "C16_feed",
    "C16_line_number",
    "C16_line_end",
    "C16_modes",
    "C16_scale"
   ],
   "note": "For every line made of words (Spec_Words) and every receiver; arithmetic is that of binary32. G0/G1 with and without the G word, F, N, modes, scale."
  },
  {
   "property": "C17",
   "status": "proved",
   "theorems": [
    "C17_G92",
    "C17_clear_suspend_restore",
    "C17_suspended",
    "C17_restored",
    "C17_renamed",
    "C17_renamed_exactly",
    "C17_rotary_refuted",
    "C17_scale_refuted"
   ],
   "note": "Effect of G92, G92.1-3 on offset, position and reports; going to the stated coordinate returns to the present place within 12B/2^24, exactly on a power-of-two grid. Refuted for rotary axes in inch mode and for scaled axes (findings)."
  },
  {
   "property": "C18",
   "status": "proved",
   "theorems": [
    "C18_G10",
    "C18_G10_refused",
    "C18_select",
    "C18_unknown",
    "C18_return",
    "C18_start",
    "C18_persistent"
   ],
   "note": "G10 L2 (both modes, refusals), selection, unknown numbers, switching back and forth, start from the parameter table, persistence on a power-of-two grid. A #5220 that is not a finite number is excluded at the start (finding: it trips an assertion)."
  },
  {
   "property": "C19",
   "status": "proved",
   "theorems": [
    "C19_assignment",
    "C19_not_writable",
    "C19_numbers",
    "C19_different_numbers",
    "C19_case",
    "C19_history",
    "C19_twice_refuted"
   ],
   "note": "Every form of assignment, refused names, naming by number, letter case, last-writer-wins over histories; finding: assignments between the words of a command are executed twice."
  },
  {
   "property": "C20",
   "status": "proved",
   "theorems": [
    "C20_refused_move",
    "C20_continuation_refuted"
   ],
   "note": "G0/G1 with the G word; a refused continuation moves the position (C20_continuation_refuted)."
  },
  {
   "property": "C21",
   "status": "proved",
   "theorems": [
    "C21_arc",
    "C21_spline",
    "C21_zero_radius_refuted"
   ],
   "note": "arc_move and spline_move of a receiver, for every library function: the moves asked for end exactly at the target on every axis or at the first one refused, which is reported; a spline takes at most 102 moves. C21_zero_radius_refuted: an arc whose centre is its start is skipped silently although its target is elsewhere."
  },
  {
   "property": "C22",
   "status": "proved",
   "theorems": [
    "C22_program_end"
   ],
   "note": "M2/M30 in every state outside a loop body being collected."
  },
  {
   "property": "C23",
   "status": "proved",
   "theorems": [
    "C23_home"
   ],
   "note": "G28 for every set of axis words."
  },
  {
   "property": "C24",
   "status": "proved",
   "theorems": [
    "C24_crash",
    "C24_not_lost",
    "C24_result",
    "C24_missing_refuted",
    "C24_full_refuted",
    "C24_sync_refuted"
   ],
   "note": "All crash points, all answers of the system calls. Three real defects recorded as refutations: no main file between the renames; write errors go unnoticed; a failing fdatasync is ignored."
  },
  {
   "property": "C25",
   "status": "proved",
   "theorems": [
    "C25_tables",
    "C25_roundtrip",
    "C25_written",
    "C25_negative_refuted",
    "C25_empty_name"
   ],
   "note": "printf and sscanf of %f are parameters of the model; the values saved must survive them. C25_negative_refuted: a negative parameter number stops all numbered parameters from being saved."
  },
  {
   "property": "C26",
   "status": "proved",
   "theorems": [
    "C26_leg_by_leg",
    "C26_total",
    "C26_rounding",
    "C26_told",
    "C26_told_home"
   ],
   "note": "For every history of calls while the backend accepts the commands, whatever the floating point speed computations return; step counts are integers (int overflow of differences not modelled)."
  },
  {
   "property": "C27",
   "status": "proved",
   "theorems": [
    "C27_fits",
    "C27_default_refuted"
   ],
   "note": "Proved for lookahead settings up to 1023; for the default of 1024 the negation is proved: 1023 successive moves fail the assertion."
  },
  {
   "property": "C28",
   "status": "proved",
   "theorems": [
    "C28_flushed",
    "C28_again"
   ],
   "note": "All legs sent completely and in order; halting twice sends nothing."
  },
  {
   "property": "C29",
   "status": "proved",
   "theorems": [
    "C29_smooth",
    "C29_halt",
    "C29_axis_change_refuted",
    "C29_single_step_refuted"
   ],
   "note": "Squares of the speeds at a joint differ by at most 5 A (A: the largest acceleration in steps/s^2; one step of it changes the square by 2 A), with all rounding errors of the plan. The case that the theorems leave out (another axis leads and the corner is not sharp) is shown to be wrong in the code: the speed jumps where the axis with most steps changes. A single step is planned with speed 0."
  },
  {
   "property": "C30",
   "status": "proved",
   "theorems": [
    "C30_split_conserves_steps",
    "C30_refused_is_prefix"
   ],
   "note": ""
  },
  {
   "property": "C31",
   "status": "proved",
   "theorems": [
    "C31_pieces_fit_hardware",
    "C31_no_undefined_when_speeds_convert",
    "C31_zero_speed_undefined_refuted"
   ],
   "note": "Zero speed is undefined behaviour in the code (refuted theorem)."
  },
  {
   "property": "C32",
   "status": "proved",
   "theorems": [
    "C32_pulses_exact",
    "C32_execution_terminates",
    "C32_travel_never_stops_early",
    "C32_fast_acceleration_loses_steps_refuted"
   ],
   "note": "Guard: no computed delay equals the firmware stop value; unguarded claim refuted for accelerations beyond ~700 kHz (C32_fast_acceleration_loses_steps_refuted)."
  },
  {
   "property": "C33",
   "status": "proved",
   "theorems": [
    "C33_end_to_end_steps"
   ],
   "note": ""
  },
  {
   "property": "C34",
   "status": "proved",
   "theorems": [
    "C34_idiv_exact"
   ],
   "note": ""
  },
  {
   "property": "C35",
   "status": "proved",
   "theorems": [
    "C35_idle_position_exact",
    "C35_position_in_motion",
    "C35_position_monotone",
    "C35_reported_close_to_emitted",
    "C35_status_is_progress"
   ],
   "note": ""
  },
  {
   "property": "C36",
   "status": "proved",
   "theorems": [
    "C36_sim_equals_firmware",
    "C36_sim_hides_lost_steps_refuted"
   ],
   "note": ""
  },
  {
   "property": "C37",
   "status": "proved",
   "theorems": [
    "C37_fifo",
    "C37_capacity",
    "C37_drains"
   ],
   "note": ""
  },
  {
   "property": "C38",
   "status": "proved",
   "theorems": [
    "C38_zero_iff_done",
    "C38_count_while_executing",
    "C38_count_between",
    "C38_sixteen_reported_as_one_refuted"
   ],
   "note": "Exact while a segment is being stepped; between two segments the completed one is still counted, and 16 pending are then reported as 1 (C38_sixteen_reported_as_one_refuted). The count includes the executing segment."
  },
  {
   "property": "C39",
   "status": "proved",
   "theorems": [
    "C39_wait_queue_empty",
    "C39_shutdown_flushes",
    "C39_silent_after_shutdown"
   ],
   "note": ""
  },
  {
   "property": "C40",
   "status": "proved",
   "theorems": [
    "C40_every_segment_ends",
    "C40_no_steps_while_stopped",
    "C40_host_is_told",
    "C40_refusals"
   ],
   "note": "Up to 16 aborted segments can go unnoticed until the ring wraps to their slots."
  },
  {
   "property": "C41",
   "status": "proved",
   "theorems": [
    "C41_motor_exclusive",
    "C41_first_mapping_counts",
    "C41_second_mapping_refused",
    "C41_free_motor",
    "C41_config_line"
   ],
   "note": ""
  },
  {
   "property": "C42",
   "status": "proved",
   "theorems": [
    "C42_assign",
    "C42_read_back",
    "C42_round_trip"
   ],
   "note": ""
  },
  {
   "property": "C43",
   "status": "proved",
   "theorems": [
    "C43_last_switch_counts",
    "C43_others_untouched",
    "C43_mapping",
    "C43_outputs_written"
   ],
   "note": ""
  },
  {
   "property": "C44",
   "status": "proved",
   "theorems": [
    "C44_debounced",
    "C44_three_equal",
    "C44_default",
    "C44_configured",
    "C44_answer",
    "C44_unconnected_refuted"
   ],
   "note": "C44_configured: the assignment of switches follows from the configuration; C44_unconnected_refuted: an emergency stop on an input the cape lacks is accepted and never answers."
  },
  {
   "property": "C45",
   "status": "proved",
   "theorems": [
    "C45_estop_state",
    "C45_no_enable_in_estop",
    "C45_enabled_only_without_estop"
   ],
   "note": ""
  },
  {
   "property": "C46",
   "status": "proved",
   "theorems": [
    "C46_move_guarded",
    "C46_drive_guarded",
    "C46_nan_refuted"
   ],
   "note": ""
  },
  {
   "property": "C47",
   "status": "proved",
   "theorems": [
    "C47_stopped_is_safe",
    "C47_latched",
    "C47_latched_history",
    "C47_entered",
    "C47_M0",
    "C47_noticed",
    "C47_spindle_in_stop_refuted",
    "C47_output_in_stop_refuted"
   ],
   "note": ""
  },
  {
   "property": "C48",
   "status": "proved",
   "theorems": [
    "C48_homing_changes",
    "C48_motors_off_unhomes",
    "C48_homed_needs_G28"
   ],
   "note": ""
  },
  {
   "property": "C49",
   "status": "proved",
   "theorems": [
    "C49_homing_trace",
    "C49_homed_position",
    "C49_stop_while_homing_refuted"
   ],
   "note": ""
  },
  {
   "property": "C50",
   "status": "proved",
   "theorems": [
    "C50_clamping"
   ],
   "note": ""
  },
  {
   "property": "C51",
   "status": "proved",
   "theorems": [
    "C51_speed_factor",
    "C51_G1",
    "C51_G0",
    "C51_G0_default_speed",
    "C51_current_feedrate",
    "C51_no_feedrate_no_move",
    "C51_factor_twice_refuted"
   ],
   "note": ""
  },
  {
   "property": "C52",
   "status": "proved",
   "theorems": [
    "C52_idle_shutoff"
   ],
   "note": ""
  },
  {
   "property": "C53",
   "status": "proved",
   "theorems": [
    "C53_history_safe",
    "C53_on",
    "C53_off",
    "C53_no_max_rpm_refuted",
    "C53_serial_speed_bytes",
    "C53_serial_off",
    "C53_serial_on",
    "C53_serial_reverse_refuted",
    "C53_serial_overflow_refuted"
   ],
   "note": "PWM spindle for max-rpm 1..2^31-1 and speeds 0..2^31-1; serial spindle with an open port, any answers of the controller. max-rpm 0 hangs (C53_no_max_rpm_refuted), reverse start of the serial spindle can hang, large speeds overflow."
  },
  {
   "property": "C54",
   "status": "proved",
   "theorems": [
    "C54_register_values",
    "C54_history_legal",
    "C54_output_effect",
    "C54_nan_refuted"
   ],
   "note": "Frequencies 0..12 MHz, finite values; NaN is undefined behaviour (C54_nan_refuted)."
  },
  {
   "property": "C55",
   "status": "proved",
   "theorems": [
    "C55_extremes",
    "C55_box",
    "C55_filament",
    "C55_z_min_refuted"
   ],
   "note": "Finite coordinates. Minimum of Z starts at 0 (C55_z_min_refuted). Times are not modelled."
  },
  {
   "property": "C56",
   "status": "proved",
   "theorems": [
    "C56_integers_read_exactly",
    "C56_no_number_no_value"
   ],
   "note": ""
  },
  {
   "property": "C57",
   "status": "proved",
   "theorems": [
    "C57_axis_settings",
    "C57_general_settings",
    "C57_accepted_not_negative"
   ],
   "note": ""
  },
  {
   "property": "C58",
   "status": "proved",
   "theorems": [
    "C58_done",
    "C58_refused",
    "C58_lookahead_one_refuted"
   ],
   "note": "Proved for a lookahead of at least 2; refuted for 1."
  },
  {
   "property": "C59",
   "status": "proved",
   "theorems": [
    "C59_arc",
    "C59_circle"
   ],
   "note": ""
  },
  {
   "property": "C60",
   "status": "proved",
   "theorems": [
    "C60_spline"
   ],
   "note": ""
  },
  {
   "property": "C61",
   "status": "proved",
   "theorems": [
    "C61_arc",
    "C61_absolute_refuted"
   ],
   "note": ""
  },
  {
   "property": "C62",
   "status": "proved",
   "theorems": [
    "C62_spline",
    "C62_alone",
    "C62_parabola_refuted",
    "C62_checks_refuted"
   ],
   "note": ""
  },
  {
   "property": "C63",
   "status": "proved",
   "theorems": [
    "C63_speed_limits",
    "C63_halted",
    "C63_drive"
   ],
   "note": "For configurations with sane limits (drivable) and sane calls; all rounding errors together are below a thousandth. The legs need not meet, and direct drives are included."
  },
  {
   "property": "C64",
   "status": "proved",
   "theorems": [
    "C64_acceleration_limits",
    "C64_halted",
    "C64_whole_steps_refuted"
   ],
   "note": "C64_whole_steps_refuted: the ramp up is cut to whole steps but its end speed is kept, so a short ramp takes up to twice the acceleration configured; the theorems allow one and a half steps more."
  },
  {
   "property": "C65",
   "status": "proved",
   "theorems": [
    "C65_centre"
   ],
   "note": ""
  },
  {
   "property": "C66",
   "status": "proved",
   "theorems": [
    "C66_loop",
    "C66_loop_ends",
    "C66_streamed_refuted"
   ],
   "note": ""
  },
  {
   "property": "C67",
   "status": "proved",
   "theorems": [
    "C67_if",
    "C67_if_nothing",
    "C67_if_error",
    "C67_nonzero_refuted"
   ],
   "note": ""
  },
  {
   "property": "C68",
   "status": "proved",
   "theorems": [
    "C68_request",
    "C68_parameter",
    "C68_no_parameter",
    "C68_load",
    "C68_foreign",
    "C68_foreign_taken"
   ],
   "note": ""
  },
  {
   "property": "C69",
   "status": "proved",
   "theorems": [
    "C69_probe",
    "C69_surface"
   ],
   "note": ""
  },
  {
   "property": "C70",
   "status": "proved",
   "theorems": [
    "C70_constant_speed",
    "C70_speeding_up",
    "C70_from_rest",
    "C70_any_start",
    "C70_slowing_down",
    "C70_steps_exact",
    "C70_overshoot_refuted",
    "C70_stall_refuted"
   ],
   "note": ""
  },
  {
   "property": "C71",
   "status": "proved",
   "theorems": [
    "C71_commands",
    "C71_release",
    "C71_wait",
    "C71_spindle_history",
    "C71_spindle_stopped",
    "C71_hardware"
   ],
   "note": ""
  },
  {
   "property": "C72",
   "status": "proved",
   "theorems": [
    "C72_corner",
    "C72_halted",
    "C72_threshold_refuted"
   ],
   "note": "Sharp: the cosine of the angle is at most 0.707. Assumes that acos of at most 0.7071 is between 0.785405 and 2. Corners between the threshold angle and 45 degrees may be passed with a jump of one axis (refuted theorem)."
  },
  {
   "property": "C73",
   "status": "proved",
   "theorems": [
    "C73_pulses",
    "C73_stall_refuted"
   ],
   "note": "The hypothesis on the commands is the one of C70: ramps of at most 32767 steps (longer motion at constant speed is divided, which is covered), not slower than 10 steps/s^2 and not from a speed far above. The refuted theorem shows that the planner may send others."
  },
  {
   "property": "C74",
   "status": "proved",
   "theorems": [
    "C74_time",
    "C74_single_step_refuted",
    "C74_long_refuted"
   ],
   "note": "C74_time is about the sequence of pauses and of motor commands with at least one step whose two speeds are not both below about 1/1024 steps/s. C74_single_step_refuted shows that the planner does send a command outside of this range."
  },
  {
   "property": "C75",
   "status": "proved",
   "theorems": [
    "C75_levels",
    "C75_directions",
    "C75_firmware",
    "C75_emergency_input",
    "C75_capes"
   ],
   "note": "Waiting for the clocks of the GPIO banks and the pin multiplexer are not modelled; a write takes effect at once."
  },
  {
   "property": "C76",
   "status": "proved",
   "theorems": [
    "C76_outputs",
    "C76_settled",
    "C76_stop_refuted",
    "C76_spindle_off_refuted"
   ],
   "note": "C76_outputs and C76_settled hold for every interleaving; C76_stop_refuted and C76_spindle_off_refuted are witnesses on the VGEN5 cape."
  },
  {
   "property": "C77",
   "status": "proved",
   "theorems": [
    "C77_one_client",
    "C77_descriptors",
    "C77_messages_refuted",
    "C77_dropped_refuted",
    "C77_missing_file_refuted"
   ],
   "note": "Lines are assumed short as in C03. The three refuted theorems are findings."
  },
  {
   "property": "C78",
   "status": "proved",
   "theorems": [
    "C78_no_lost_wakeup",
    "C78_calls_return",
    "C78_same_queue"
   ],
   "note": "The kernel drivers and the interrupt controller are modelled as the comments in uio-genirq-interface.cc describe them."
  },
  {
   "property": "C79",
   "status": "proved",
   "theorems": [
    "C79_hardware",
    "C79_left_off",
    "C79_overrides",
    "C79_privileges",
    "C79_groups_refuted",
    "C79_firmware_left_refuted",
    "C79_dry_run_refuted",
    "C79_second_start_refuted",
    "C79_daemon_file_refuted",
    "C79_status_refuted",
    "C79_speed_refuted"
   ],
   "note": "Refuted: supplementary groups stay, the firmware may be left running on an early exit, dry runs and second starts command a serial spindle, a relative G-code file of a daemon, a low status port, a speed factor that is no number."
  },
  {
   "property": "C80",
   "status": "proved",
   "theorems": [
    "C80_rules",
    "C80_outputs",
    "C80_no_failure",
    "C80_position",
    "C80_default_refuted",
    "C80_pulses"
   ],
   "note": "Composes machine control, planner, motor operations and firmware. Refuted for the default lookahead."
  },
  {
   "property": "C81",
   "status": "proved",
   "theorems": [
    "C81_parser",
    "C81_agree",
    "C81_steps",
    "C81_refused_refuted",
    "C81_home_refuted",
    "C81_arc_refuted",
    "C81_clamped"
   ],
   "note": "Composes parser, machine control, arcs, planner. Refuted where moves are refused, for homing without switch and for arcs without length."
  },
  {
   "property": "C82",
   "status": "proved",
   "theorems": [
    "C82_sound",
    "C82_written",
    "C82_long_refuted",
    "C82_time"
   ],
   "note": "Refuted for files of more than 2^32 bytes, whose sizes wrap."
  },
  {
   "property": "C83",
   "status": "proved",
   "theorems": [
    "C83_path",
    "C83_home_refuted",
    "C83_laser_refuted",
    "C83_view",
    "C83_tight",
    "C83_shades"
   ],
   "note": "Refuted for homing some axes only and for the shades after rapid moves."
  },
  {
   "property": "C84",
   "status": "proved",
   "theorems": [
    "C84_between",
    "C84_colours",
    "C84_range",
    "C84_ramp",
    "C84_span",
    "C84_speed",
    "C84_pieces",
    "C84_path",
    "C84_unhomed_refuted",
    "C84_flat_refuted",
    "C84_steady_refuted"
   ],
   "note": "Refuted for axes without a homing switch, machines without Z, and files with one speed only."
  },
  {
   "property": "C85",
   "status": "proved",
   "theorems": [
    "C85_within",
    "C85_apart",
    "C85_ignored",
    "C85_lines",
    "C85_visible"
   ],
   "note": "C85_within for text at x = 0, C85_lines for text at y = 0."
  }
 ]
}