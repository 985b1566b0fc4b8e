{
 "claims": [
  {
   "property": "C01",
   "status": "proved",
   "theorems": [
    "C01_varuint_round_trip",
    "C01_varuint_too_big",
    "C01_varuint_negative_diverges"
   ],
   "note": ""
  },
  {
   "property": "C02",
   "status": "proved",
   "theorems": [
    "C02_read_varuint_bounds",
    "C02_read_varuint_none_iff",
    "C02_read_varuint_documented"
   ],
   "note": ""
  },
  {
   "property": "C03",
   "status": "proved",
   "theorems": [
    "C03_varuint_length",
    "C03_varuint_shortest",
    "C03_varuint_prefix_free"
   ],
   "note": ""
  },
  {
   "property": "C04",
   "status": "proved",
   "theorems": [
    "C04_int_round_trip",
    "C04_int_out_of_range"
   ],
   "note": ""
  },
  {
   "property": "C05",
   "status": "proved",
   "theorems": [
    "C05_int_write_never_raises",
    "C05_int_write_value",
    "C05_f32_overflow_iff",
    "C05_api_scales_apply"
   ],
   "note": ""
  },
  {
   "property": "C06",
   "status": "proved",
   "theorems": [
    "C06_nan_survives",
    "C06_infinity",
    "C06_finite_never_nan"
   ],
   "note": ""
  },
  {
   "property": "C07",
   "status": "proved",
   "theorems": [
    "C07_quantised_value",
    "C07_error_bound",
    "C07_monotone",
    "C07_api_scales_apply"
   ],
   "note": ""
  },
  {
   "property": "C08",
   "status": "proved",
   "theorems": [
    "C08_reported_register_can_be_read",
    "C08_next_stays_in_buffer",
    "C08_iteration_terminates",
    "C08_scan_needs_no_bound"
   ],
   "note": ""
  },
  {
   "property": "C09",
   "status": "proved",
   "theorems": [
    "C09_parser_inverts_encoding",
    "C09_registers_unambiguous",
    "C09_error_subframe_ends_reply",
    "C09_error_then_reply_refuted"
   ],
   "note": "for replies made of NOP and reply subframes; C09_error_subframe_ends_reply and C09_error_then_reply_refuted: what follows an error subframe is lost"
  },
  {
   "property": "C10",
   "status": "proved",
   "theorems": [
    "C10_parse_reply",
    "C10_raises_iff",
    "C10_encoded_reply"
   ],
   "note": ""
  },
  {
   "property": "C11",
   "status": "proved",
   "theorems": [
    "C11_make_query",
    "C11_default_query",
    "C11_make_custom_query",
    "C11_long_run_raises",
    "C11_negative_register_diverges"
   ],
   "note": ""
  },
  {
   "property": "C12",
   "status": "proved",
   "theorems": [
    "C12_query_parser_inverts",
    "C12_padding_adds_none",
    "C12_padding_harmless_refuted",
    "C12_query_parser_terminates"
   ],
   "note": ""
  },
  {
   "property": "C13",
   "status": "proved",
   "theorems": [
    "C13_expected_reply_size",
    "C13_default_and_custom",
    "C13_read_gpio_size_refuted"
   ],
   "note": ""
  },
  {
   "property": "C14",
   "status": "proved",
   "theorems": [
    "C14_make_position",
    "C14_make_stay_within",
    "C14_make_vfoc",
    "C14_make_aux_pwm",
    "C14_make_stop_brake",
    "C14_make_set_output",
    "C14_make_write_gpio",
    "C14_make_set_trim",
    "C14_overflow_bound",
    "C14_addressed",
    "C14_settings",
    "C14_pi"
   ],
   "note": ""
  },
  {
   "property": "C15",
   "status": "proved",
   "theorems": [
    "C15_make_current_same_resolution",
    "C15_make_current_none",
    "C15_one_current_refuted",
    "C15_different_resolutions_refuted"
   ],
   "note": "the statement's false cases are proved as refutations: one current None raises TypeError; different resolutions never decode to the request"
  },
  {
   "property": "C16",
   "status": "proved",
   "theorems": [
    "C16_command_value_arrives",
    "C16_nan_arrives",
    "C16_ilimit_scale_refuted",
    "C16_set_trim_value"
   ],
   "note": "all registers but 0x2b; ilimit_scale and wide trim values refuted"
  },
  {
   "property": "C17",
   "status": "proved",
   "theorems": [
    "C17_default_commands_fit",
    "C17_any_query_fits_refuted"
   ],
   "note": "default settings; refuted for user chosen queries"
  },
  {
   "property": "C18",
   "status": "proved",
   "theorems": [
    "C18_query_appended",
    "C18_no_query",
    "C18_dropped_query_refuted"
   ],
   "note": "all methods but make_require_reindex / make_recapture_position_velocity, for which it is refuted"
  },
  {
   "property": "C19",
   "status": "proved",
   "theorems": [
    "C19_diagnostic_write",
    "C19_diagnostic_write_refuses",
    "C19_diagnostic_read",
    "C19_parse_exact",
    "C19_parse_complete"
   ],
   "note": ""
  },
  {
   "property": "C20",
   "status": "proved",
   "theorems": [
    "C20_bytes_in_order",
    "C20_all_sent",
    "C20_drain_alone",
    "C20_drain_returns_early_refuted",
    "C20_cancelled_drain_refuted"
   ],
   "note": "Order and completeness of the sent bytes hold for every schedule of drains, reads and commands without cancellation; drain returning before its bytes are sent while another drain runs, and byte loss when a drain is cancelled, are proved as refutations."
  },
  {
   "property": "C21",
   "status": "proved",
   "theorems": [
    "C21_read",
    "C21_readline",
    "C21_read_until_OK",
    "C21_read_binary_blob",
    "C21_any_sequence",
    "C21_fragmentation_independent",
    "C21_nonblocking_read",
    "C21_command",
    "C21_flush_read",
    "C21_read_zero_refuted",
    "C21_length_refuted",
    "C21_empty_blob_refuted"
   ],
   "note": "All stream readers are specified on the concatenated byte stream; read(0) and an empty blob block for a byte that is not needed, and a request for few bytes still asks the device for up to 48, proved as refutations."
  },
  {
   "property": "C22",
   "status": "proved",
   "theorems": [
    "C22_returns",
    "C22_waits",
    "C22_missing_register",
    "C22_returns_only",
    "C22_cycle_error",
    "C22_bad_command",
    "C22_query",
    "C22_query_extra"
   ],
   "note": ""
  },
  {
   "property": "C23",
   "status": "proved",
   "theorems": [
    "C23_choice",
    "C23_error",
    "C23_singleton",
    "C23_total"
   ],
   "note": ""
  },
  {
   "property": "C24",
   "status": "proved",
   "theorems": [
    "C24_line",
    "C24_bus_id",
    "C24_source_refuted",
    "C24_raw_id",
    "C24_round_trip",
    "C24_receive",
    "C24_receive_bare_refuted"
   ],
   "note": ""
  },
  {
   "property": "C25",
   "status": "proved",
   "theorems": [
    "C25_least_length",
    "C25_padded",
    "C25_oversize",
    "C25_same_meaning"
   ],
   "note": ""
  },
  {
   "property": "C26",
   "status": "proved",
   "theorems": [
    "C26_readline",
    "C26_lines",
    "C26_nothing_lost",
    "C26_lines_wellformed",
    "C26_read"
   ],
   "note": ""
  },
  {
   "property": "C27",
   "status": "proved",
   "theorems": [
    "C27_cycle",
    "C27_progress",
    "C27_reply_flag",
    "C27_cancelled_refuted"
   ],
   "note": ""
  },
  {
   "property": "C28",
   "status": "proved",
   "theorems": [
    "C28_calls",
    "C28_exactly_once",
    "C28_results",
    "C28_all_answered",
    "C28_unlisted",
    "C28_write_refuted",
    "C28_read_refuted",
    "C28_command_order_refuted",
    "C28_listed_twice"
   ],
   "note": ""
  },
  {
   "property": "C29",
   "status": "proved",
   "theorems": [
    "C29_conserved",
    "C29_no_lost_wakeup",
    "C29_progress",
    "C29_ready",
    "C29_zero_refuted",
    "C29_written",
    "C29_cancel_refuted",
    "C29_write_error_refuted"
   ],
   "note": "all schedules of concurrent reads; a cancelled blocking read loses bytes, read(0) raises and a failing serial.write loses bytes: proved as refutations"
  },
  {
   "property": "C30",
   "status": "proved",
   "theorems": [
    "C30_data",
    "C30_unambiguous",
    "C30_schema",
    "C30_end_to_end",
    "C30_total",
    "C30_only",
    "C30_truncated",
    "C30_truncated_text",
    "C30_seconds",
    "C30_microseconds",
    "C30_flags_refuted",
    "C30_truncated_refuted",
    "C30_keyword_refuted",
    "C30_varint_refuted",
    "C30_unknown_code",
    "C30_empty_enum",
    "C30_overlong_refuted"
   ],
   "note": "decoded types and values in both directions, termination and truncation for every input; the flags of objects, fields named async/await, signed varints and cut-off strings are proved as refutations; enums over non-integers and member names starting with an underscore are not followed"
  },
  {
   "property": "C31",
   "status": "proved",
   "theorems": [
    "C31_blocks",
    "C31_deterministic",
    "C31_unsorted_refuted"
   ],
   "note": "Blocks equal the image byte for byte and the iteration ends. An unsorted section list silently loses sections (C31_unsorted_refuted); the tool sorts them."
  },
  {
   "property": "C32",
   "status": "proved",
   "theorems": [
    "C32_sound",
    "C32_bootloader",
    "C32_boundary_refuted",
    "C32_tail_refuted",
    "C32_next_sector_refuted",
    "C32_empty_section_refuted"
   ],
   "note": "C32_sound holds for every device. C32_bootloader is against a model of the bootloader command loop and flash writer; it needs the padding to be writable and the last double word to be filled from its start, and the _refuted theorems show that the code fails without either."
  },
  {
   "property": "C33",
   "status": "proved",
   "theorems": [
    "C33_int",
    "C33_targets",
    "C33_accepts",
    "C33_error"
   ],
   "note": "Values, acceptance and the error for every list of items; int(str) is modelled on latin-1 text with the ASCII digits."
  },
  {
   "property": "C34",
   "status": "proved",
   "theorems": [
    "C34_value",
    "C34_injective",
    "C34_alphabet"
   ],
   "note": "Every triple of 32 bit words; the text also consists of base64 digits and reads back as the number."
  },
  {
   "property": "C35",
   "status": "proved",
   "theorems": [
    "C35_frame",
    "C35_same_version",
    "C35_refused",
    "C35_readable"
   ],
   "note": "Frame over texts for every pair of versions; the printing of a float is assumed to contain no space or line feed (Python guarantees it)."
  },
  {
   "property": "C36",
   "status": "proved",
   "theorems": [
    "C36_compose_up",
    "C36_compose_down",
    "C36_compose_refuted",
    "C36_poll_lost",
    "C36_poll_refuted",
    "C36_poll_down",
    "C36_requires"
   ],
   "note": "Composition holds except when interrupted at 0x0101 (C36_compose_refuted); the I2C period is never carried up (C36_poll_lost, C36_poll_refuted) and is carried down rightly (C36_poll_down)."
  },
  {
   "property": "C37",
   "status": "proved",
   "theorems": [
    "C37_real",
    "C37_real_unique",
    "C37_float",
    "C37_float_exact",
    "C37_float_hangs",
    "C37_float_nan",
    "C37_float_turns",
    "C37_pi"
   ],
   "note": "Over the reals and over binary64. The float bound 2^56 is exact: C37_float_hangs shows that nothing beyond it returns."
  },
  {
   "property": "C38",
   "status": "proved",
   "theorems": [
    "C38_unwrap",
    "C38_recovers",
    "C38_idempotent",
    "C38_inverse",
    "C38_fast_refuted"
   ],
   "note": "Over the real numbers; rounding of the running sum on floats is not bounded."
  },
  {
   "property": "C39",
   "status": "proved",
   "theorems": [
    "C39_least_squares",
    "C39_defined",
    "C39_exact"
   ],
   "note": "Over the real numbers; rounding of the sums is not bounded."
  },
  {
   "property": "C40",
   "status": "proved",
   "theorems": [
    "C40_interpolate",
    "C40_interpolate_refused",
    "C40_unique",
    "C40_at_points",
    "C40_in_range",
    "C40_unsorted_refuted",
    "C40_lerp",
    "C40_lerp_sample",
    "C40_lerp_refused",
    "C40_lerp_empty",
    "C40_lerp_float",
    "C40_linspace",
    "C40_linspace_ends"
   ],
   "note": "Over the real numbers, plus C40_lerp_float for indices on floats. C40_unsorted_refuted shows that sample points have to be in order."
  },
  {
   "property": "C41",
   "status": "proved",
   "theorems": [
    "C41_concurrent_reads_refuted"
   ],
   "note": ""
  },
  {
   "property": "C42",
   "status": "proved",
   "theorems": [
    "C42_frame",
    "C42_extended",
    "C42_raw_refuted",
    "C42_cycle",
    "C42_alignment_refuted",
    "C42_concurrent_refuted"
   ],
   "note": ""
  },
  {
   "property": "C43",
   "status": "proved",
   "theorems": [
    "C43_uint16",
    "C43_int16"
   ],
   "note": "Every integer."
  },
  {
   "property": "C44",
   "status": "proved",
   "theorems": [
    "C44_window",
    "C44_in_range",
    "C44_no_offset",
    "C44_small_window"
   ],
   "note": "Over the real numbers, for window sizes whose half is between 1 and the length plus one."
  },
  {
   "property": "C45",
   "status": "proved",
   "theorems": [
    "C45_direction",
    "C45_refused",
    "C45_poles_real",
    "C45_poles_float"
   ],
   "note": "Direction and refusals hold for any arithmetic; the pole count over the reals and over doubles."
  },
  {
   "property": "C46",
   "status": "proved",
   "theorems": [
    "C46_good_spin",
    "C46_optimizer_failure_refuted"
   ],
   "note": "Over the real numbers; the optimiser is arbitrary."
  },
  {
   "property": "C47",
   "status": "proved",
   "theorems": [
    "C47_offset",
    "C47_direction",
    "C47_refused"
   ],
   "note": "Over the real numbers."
  },
  {
   "property": "C48",
   "status": "proved",
   "theorems": [
    "C48_parse",
    "C48_truncated",
    "C48_refused",
    "C48_collect",
    "C48_session"
   ],
   "note": "float() of text is a parameter."
  },
  {
   "property": "C49",
   "status": "proved",
   "theorems": [
    "C49_restore_config_exact",
    "C49_restore_config_order",
    "C49_stored_after_all",
    "C49_restore_file_exact",
    "C49_restore_file_order",
    "C49_restore_file_latin1",
    "C49_write_config_exact"
   ],
   "note": "The device is arbitrary."
  },
  {
   "property": "C50",
   "status": "proved",
   "theorems": [
    "C50_stored_only_when_complete",
    "C50_success_is_stored",
    "C50_no_update_restores"
   ],
   "note": "Device, float text and optimizer are parameters. --cal-no-update that fails half way does not restore."
  },
  {
   "property": "C51",
   "status": "proved",
   "theorems": [
    "C51_only_these"
   ],
   "note": "Without --cal-no-update, which sets every captured parameter again."
  },
  {
   "property": "C52",
   "status": "proved",
   "theorems": [
    "C52_from_recording",
    "C52_report_is_stored"
   ],
   "note": "Device, float text and optimizer are parameters."
  },
  {
   "property": "C53",
   "status": "proved",
   "theorems": [
    "C53_index_search_is_stopped",
    "C53_stopped_on_success",
    "C53_spin_is_stopped",
    "C53_sign_is_restored",
    "C53_limits_are_restored",
    "C53_stopped_on_failure_refuted",
    "C53_limits_on_failure_refuted",
    "C53_mode_on_failure_refuted"
   ],
   "note": "The three refuted theorems give runs: the second hall reading fails after \"d pwm\" and nothing stops the motor; \"d index 0\" is refused and the limits stay NaN; servo.voltage_mode_control cannot be read and is set to the text None."
  },
  {
   "property": "C54",
   "status": "proved",
   "theorems": [
    "C54_named_devices",
    "C54_bad_names",
    "C54_found_devices",
    "C54_stop_sends_only_stop",
    "C54_stop_stops_each",
    "C54_looking_changes_nothing",
    "C54_set_offset_zero_refuted",
    "C54_kv_voltage_refuted",
    "C54_discovery_prefix_refuted"
   ],
   "note": "The refuted theorems: discovery queries prefix 0 and then talks to another prefix; --set-offset 0 is taken for no action; calculate_calibration_parameters assigns to the shared options, so the second device is refused with RuntimeError before anything moves."
  },
  {
   "property": "C55",
   "status": "proved",
   "theorems": [
    "C55_success",
    "C55_conf_only_after_flash",
    "C55_before_flash",
    "C55_config_lost_refuted"
   ],
   "note": "Uses C32 for what write_flash verifies and C49 for restore_config. The refuted theorem is a run: a configuration without motor.Kv is flashed from 0x010a to 0x0109 and ends with KeyError after the reset, with nothing set."
  },
  {
   "property": "C56",
   "status": "proved",
   "theorems": [
    "C56_success",
    "C56_stores_all_or_nothing",
    "C56_only_report",
    "C56_other_device",
    "C56_hall_refuted",
    "C56_report_device",
    "C56_same_settings",
    "C56_old_firmware_refuted"
   ],
   "note": "The report is what json.load gives for what json.dump wrote: numbers are unchanged by both, which is not modelled. Reading zero poles from the device during calibration makes it set them again; C56_same_settings names that case, as C52 does."
  },
  {
   "property": "C57",
   "status": "proved",
   "theorems": [
    "C57_upgrade",
    "C57_downgrade"
   ],
   "note": "Migrate_Spec.v is the table of versions, in terms of the texts before and after; Python's float(), str() and sum() are parameters. Steps of more than one version are compositions of these (C36_compose_up, C36_compose_down, with the exceptions of C36_compose_refuted); settings not in the table are unchanged (C35_frame)."
  },
  {
   "property": "C58",
   "status": "proved",
   "theorems": [
    "C58_voltages",
    "C58_overload"
   ],
   "note": "Volt_Spec.v says which texts are allowed after which answers; formatting, hypot and sum() are parameters, so that a text with three decimals is that of the number. C58_overload is about one measurement of the speed (find_speed)."
  },
  {
   "property": "C59",
   "status": "proved",
   "theorems": [
    "C59_set_offset",
    "C59_stored_when_placed",
    "C59_old_firmware"
   ],
   "note": "Offset_Spec.v; C59_set_offset is an equivalence. Python's format of a float is a parameter."
  },
  {
   "property": "C60",
   "status": "proved",
   "theorems": [
    "C60_ready_before_changes",
    "C60_ready_on_success",
    "C60_encoder_voltage_refuted",
    "C60_needs_inductance"
   ],
   "note": "Ready_Spec.v. C60_encoder_voltage_refuted: the voltage is a one-element tuple by a trailing comma, so its first use in arithmetic raises TypeError; ex_tuple shows such a run."
  },
  {
   "property": "C61",
   "status": "proved",
   "theorems": [
    "C61_requests",
    "C61_schema_once",
    "C61_known_value",
    "C61_first_value",
    "C61_binary_refuted"
   ],
   "note": "Telemetry_Spec.v lists the messages. C61_requests and C61_schema_once are about one task that uses the Stream alone and any answers; the two theorems about values are about a device that answers each message before the next is sent. The decoder of schemas and values is a parameter (C30 is about the real one)."
  },
  {
   "property": "C62",
   "status": "proved",
   "theorems": [
    "C62_succeeds",
    "C62_unmapped",
    "C62_version",
    "C62_sections",
    "C62_complete",
    "C62_usable",
    "C62_flashed",
    "C62_read_back",
    "C62_missing_refuted",
    "C62_same_address_refuted",
    "C62_stray_version_refuted"
   ],
   "note": "Elf_Spec.v says which sections belong to the image, where they lie and what the version is. Parsing the bytes of the file is pyelftools' and not modelled. C62_flashed is about the bootloader of C32, C62_read_back about do_flash (C55) and any device."
  },
  {
   "property": "C63",
   "status": "proved",
   "theorems": [
    "C63_written",
    "C63_in_order",
    "C63_drained",
    "C63_failure_hangs",
    "C63_reads",
    "C63_end_of_file",
    "C63_reads_in_turn",
    "C63_read_failure_hangs",
    "C63_cancelled_drain_refuted",
    "C63_cancelled_drain_written",
    "C63_short_write_refuted",
    "C63_cancelled_read_refuted"
   ],
   "note": "A step under a lock is one step of the model. Histories and what is asked of them are in Aiostream_Spec.v. C63_failure_hangs, C63_read_failure_hangs and C63_end_of_file say for every schedule that the call never returns."
  },
  {
   "property": "C64",
   "status": "proved",
   "theorems": [
    "C64_reply",
    "C64_query",
    "C64_default_query",
    "C64_custom_query",
    "C64_command",
    "C64_position_query",
    "C64_int32_saturation_refuted"
   ],
   "note": "The controller's side (ScaleSaturate, IntMapping) is a specification in Answer_Spec.v, written from the firmware source in binary32 arithmetic; the conversion of 2^31 to int32, undefined in C++, is taken to saturate. Registers that are not telemetry are returned as the bytes say."
  },
  {
   "property": "C65",
   "status": "proved",
   "theorems": [
    "C65_every_byte",
    "C65_explained",
    "C65_same_meaning",
    "C65_register_names",
    "C65_names",
    "C65_every_register_refuted",
    "C65_every_unit_refuted"
   ],
   "note": "The printed text is modelled as lines with the bytes shown and what is said of them; turning the hexadecimal arguments into bytes and numbers into text is left out. C65_every_register_refuted and C65_every_unit_refuted: a register that moteus.Register does not name raises ValueError (only TypeError is caught); some quantities are shown as counts only."
  },
  {
   "property": "C66",
   "status": "proved",
   "theorems": [
    "C66_schedule",
    "C66_progress",
    "C66_resync",
    "C66_telemetry",
    "C66_session",
    "C66_emission_in_answer_refuted",
    "C66_error_refuted"
   ],
   "note": "The Qt trees, plots and console are not modelled: showing a value is an event that carries it. Device.start is modelled from the line after its sleeping. C66_emission_in_answer_refuted and C66_error_refuted: values emitted during an answer corrupt it; read_data never sees an error because it compares with 'cdata' first."
  },
  {
   "property": "C67",
   "status": "proved",
   "theorems": [
    "C67_order",
    "C67_alive",
    "C67_in_order",
    "C67_prompt",
    "C67_user",
    "C67_task",
    "C67_shows",
    "C67_backoff",
    "C67_asked"
   ],
   "note": "That the numbers are distinct is C33_targets. The transport is modelled as messages it returns while the loop waits; an exception of the transport itself is not modelled."
  },
  {
   "property": "C68",
   "status": "proved",
   "theorems": [
    "C68_line",
    "C68_lines",
    "C68_until",
    "C68_done"
   ],
   "note": "What Python counts as digits and blanks is a parameter; it is assumed to be right for the printable ASCII characters and for digits up to 255 (C68_ex_sensible gives an instance). How long a sleep takes is not modelled, only that it happens and its length."
  },
  {
   "property": "C69",
   "status": "proved",
   "theorems": [
    "C69_numerals",
    "C69_numerals_unique",
    "C69_config",
    "C69_telemetry",
    "C69_telemetry_fixed",
    "C69_format",
    "C69_shorter_refuted",
    "C69_keyword_refuted",
    "C69_commit",
    "C69_config_sent",
    "C69_offered",
    "C69_offered_bool",
    "C69_entered",
    "C69_dotted",
    "C69_names",
    "C69_lines"
   ],
   "note": "repr of floats, bytes and other values is a parameter; str.lower is a parameter of which only the forms of True and False are used. C69_shorter_refuted and C69_keyword_refuted give the two cases in which the full claim fails. Text above latin1 is refused when it is encoded."
  },
  {
   "property": "C70",
   "status": "proved",
   "theorems": [
    "C70_no_error",
    "C70_step",
    "C70_samples",
    "C70_window",
    "C70_one_refuted",
    "C70_remove_refuted",
    "C70_shorter_refuted",
    "C70_mark_refuted"
   ],
   "note": "Times and their arithmetic are parameters, as are numpy.std and numpy.mean, of which only is assumed that they succeed on numbers. The exceptions to the claim are the theorems with the suffix _refuted. Drawing is not modelled."
  },
  {
   "property": "C71",
   "status": "proved",
   "theorems": [
    "C71_steps",
    "C71_rows",
    "C71_sent",
    "C71_recorded",
    "C71_limits",
    "C71_unstored",
    "C71_bins",
    "C71_short",
    "C71_limits_refuted",
    "C71_moving_refuted",
    "C71_flat_refuted",
    "C71_tiny_refuted",
    "C71_ready"
   ],
   "note": "float(), printing of floats and sum() are parameters of which nothing is assumed. The bound on the rounding error is about IEEE binary64 as Coq's SpecFloat computes it, related to the reals by Flocq. The exceptions to the claim are the theorems with the suffix _refuted."
  },
  {
   "property": "C72",
   "status": "proved",
   "theorems": [
    "C72_limits",
    "C72_unchanged",
    "C72_zero",
    "C72_sent",
    "C72_ready",
    "C72_no_store_refuted",
    "C72_perfect_refuted",
    "C72_second_refuted",
    "C72_flush_refuted",
    "C72_closed",
    "C72_constant",
    "C72_reference",
    "C72_reference_refuted",
    "C72_remainder"
   ],
   "note": "float(), printing of floats, sum(), numpy.mean and numpy.interp are parameters; of numpy.interp it is assumed, in the statement of C72_sent, that it gives as many values as places. C72_closed, C72_constant and C72_reference are about exact real numbers; the rest is about IEEE binary64. The exceptions to the claim are the theorems with the suffix _refuted."
  },
  {
   "property": "C73",
   "status": "proved",
   "theorems": [
    "C73_delta",
    "C73_wrap",
    "C73_wrap_refuted",
    "C73_count",
    "C73_measure",
    "C73_trim",
    "C73_shown",
    "C73_perfect",
    "C73_settles",
    "C73_lost_refuted",
    "C73_due",
    "C73_ends",
    "C73_no_limit",
    "C73_rate_refuted"
   ],
   "note": "C73_trim, C73_shown, C73_perfect and C73_settles are about exact real numbers; C73_count, C73_due and C73_ends are about any arithmetic. That the device obeys is a hypothesis of C73_settles (obeys in Clock_Spec.v). The exceptions to the claim are C73_wrap_refuted, C73_lost_refuted, C73_no_limit and C73_rate_refuted."
  },
  {
   "property": "C74",
   "status": "proved",
   "theorems": [
    "C74_search",
    "C74_best_refuted",
    "C74_restores",
    "C74_stored",
    "C74_voltage",
    "C74_sign_refuted",
    "C74_last_refuted",
    "C74_poles_refuted",
    "C74_bct_refuted",
    "C74_voltage_refuted"
   ],
   "note": "C74_search is about any total order of metrics; numpy.std and the sum of floats are parameters. The exceptions to the claim are C74_best_refuted, C74_sign_refuted, C74_last_refuted, C74_poles_refuted, C74_bct_refuted and C74_voltage_refuted. find_source and capture_histogram are requests with arbitrary answers."
  }
 ]
}