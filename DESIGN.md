# Formal model of moteus (python library) in Coq 8.16.1

## Conventions

* Python `int` is `Z`; `bytes` is `list Z` with every element in `[0,256)` (predicate `bytes_ok`, stated where needed).
* Python `float` is `SpecFloat.spec_float` of the standard library at precision 53 / emax 1024 (one NaN);
  arithmetic is `SFdiv/SFmul/SFadd/SFsub` (round to nearest even), so the model computes without axioms. Bounds over the reals are
  proved through Flocq's `BinarySingleNaN`, which relates these functions to `Rdefinitions.R`.
* A Python exception is a value: `res A = Ok a | Raise e`. A loop that can run for ever returns `Raise Diverges` when its turns run
  out; the theorems say for which inputs that cannot happen, or that it happens for every number of turns.
* Concurrency (`asyncio`): an `async def` is a tree of effects (`Async.prog`) with the awaits as the only switching points. Theorems
  quantify over all answers of the environment and, where tasks share state, over all schedules, cancellations included.
* Files: `*_Model.v` (definitions citing the lines of /repo they model), `*_Spec.v` (independent
  specification: the wire protocol as docs/reference.md A.1 describes it, etc.), `*_Proofs.v` (lemmas), `Props_*.v` (the theorems
  of each property, witness examples, `Print Assumptions`). A theorem named `..._refuted` shows by a witness that a claim one would
  expect is false of the code, or that a hypothesis of another theorem cannot be dropped.

## Trusted base

1. Coq 8.16.1's kernel, including its virtual machine (`vm_compute`).
2. The axioms listed in the last section. They are the standard library's, and come in through its real numbers (used directly
   and through Flocq). No axiom is declared here.
3. The translation from Python to Gallina, made by hand. Each definition cites the lines it models and says where it simplifies.
4. Python itself, modelled from its documentation where the code uses it: `struct`, `io.BytesIO`, `bytes` and `str` methods, slices and
   negative indices, `dict` order, `asyncio.Lock` and `asyncio.Event`, `asyncio` cancellation. Where the library's behaviour is not
   pinned down it is a parameter of the theorem, quantified over: `float(str)`, `str(float)` and `repr(float)` in the configuration rules,
   `sum()` of floats (which changed in Python 3.12), the clock, the operating system's answers to `read`/`write`, `python-can`'s bus.
5. What stands on the other side of the wire, modelled from /repo/docs/reference.md and /repo/fw: the register protocol
   (`Protocol_Spec.v`), the meaning of registers (`Fw_Spec.v`), how quantities become counts (`Answer_Spec.v`), the bootloader (`Flash_Model.v`). Theorems that do not need it quantify over
   every device.

### What is modelled

| file of /repo | modelled | left out |
|---|---|---|
| lib/python/moteus/multiplex.py | all of it (`Mux_Model.v`) | resolutions that are not one of the four numbers |
| lib/python/moteus/moteus.py | frame building and reply parsing, 149-1419 (`Ctrl_Model.v`); `Stream`, 1436-1584 (`Stream_Model.v`); `execute`, `set_position`, `set_position_wait_complete`, transport selection (`Wait_Model.v`) | argument parsing, `__repr__`, verbose printing |
| lib/python/moteus/fdcanusb.py | payload coding, line reader, `cycle`, `write`, `read` (`Fdcanusb_Model.v`) | port detection, debug log |
| lib/python/moteus/pythoncan.py, router.py | `cycle`, `write`, `read` (`Router_Model.v`) | bus construction from arguments |
| lib/python/moteus/posix_aioserial.py | all but the constructor (`Aioserial_Model.v`) | the constructor |
| lib/python/moteus/aiostream.py, win32_aioserial.py | `read`, `write`, `drain` and the two threads (`Aiostream_Model.v`) | opening and closing the port |
| lib/python/moteus/reader.py | all decoders (`Reader_Model.v`) | enums over non-integers |
| lib/python/moteus/moteus_tool.py | `FirmwareUpgrade` (`Config_Model.v`); flashing (`Flash_Model.v`); target expansion, serial number (`Tool_Model.v`); `_wrap_neg_pi_to_pi`, `lerp` (`Calib_Model.v`); the procedures of `Stream`: configuration, flashing, device info, `do_calibrate` and all its parts, 732-1984 (`Device_Model.v`, `Calproc_Model.v`); `Runner`, 2046-2146 (`Runner_Model.v`); `_read_elf` on what pyelftools finds (`Elf_Model.v`) | parsing the bytes of an ELF file, argument parsing, printing, plotting; the debug console and dump options |
| lib/python/moteus/calibrate_encoder.py, regression.py | the numeric helpers, regression (`Calib_Model.v`); `calibrate`, `calibrate_hall` (`Encoder_Model.v`); `parse_file` (`Calfile_Model.v`); `scipy.optimize.minimize` is a parameter of the theorems, of which nothing is assumed | plotting, the debug dictionary |
| utils/decode_can_frame.py | all but the arguments (`Decode_Model.v`) | hexadecimal text to bytes, numbers to text |
| utils/gui/moteus_gui/tview.py | DeviceStream, Device (`Tview_Model.v`); the loop that serves all devices, the start of a device (`Window_Model.v`); the commands of the console (`Userline_Model.v`); the trees and edits of the configuration (`Tree_Model.v`); plots (`Plot_Model.v`) | Qt widgets, drawing |
| lib/python/examples/synchronized_movement.py | `_calculate_ms_delta`, `ServoClock`, `Poller.wait_for_event` (`Clock_Model.v`) | `main` and its printing |
| utils/measure_ma732_bct.py | `Searcher`, `BctDetector.run`, `find_current`, `find_open_loop_voltage`, `find_best_bct` (`Bct_Model.v`) | `find_source`, `get_config` and the capture (requests with arbitrary answers), the text of the commands |
| utils/compensate_cogging.py, compensate_encoder.py, histogram.py | all procedures and calculations (`Compensate_Model.v`); `numpy.interp` and `numpy.mean` are parameters, of which only the number of values of `numpy.interp` is assumed, and only in C72_sent | plotting, printing, argument parsing |
| fw/can_bootloader.cc | command loop and flash writer, used as the device of C32 | CAN controller registers, the framing of its replies |

Not modelled at all: the motor control firmware (fw/ except the parts cited), the widgets of the GUI (tview), PCB files, the C++ client library, the
Raspberry Pi library.

## Plan by property

| id | model | proof |
|---|---|---|
| C01-C03 | `write_varuint`, `read_varuint` on `list Z` | induction on the 7-bit groups; length by log; prefix-freedom by induction |
| C04 | `pack_int`/`unpack_int` little endian two's complement | div/mod arithmetic |
| C05-C07 | `saturate`, `write_mapped`, `read_mapped` on spec_float | case analysis on comparison and truncation; Flocq lemmas for the real bound |
| C08-C10 | `RegisterParser` state machine (offset, remaining, current register, resolution), `parse_reply` | measure on remaining bytes; refinement to an inductive reply grammar |
| C11-C13 | `WriteCombiner`, `_make_query_data`, `make_custom_query`, `QueryParser` | invariant of the combiner: output = encoding of run-length groups; decoder of `Protocol_Spec` inverts it |
| C14-C18 | all `make_*` methods of `Controller` over an abstract "write fields" list | one general combiner theorem + instantiation; refutations by concrete witnesses |
| C19 | diagnostic frames | direct |
| C20-C21 | `Stream` as effect trees over an arbitrary reply oracle | invariant over all answers; refinement to functions on the byte stream |
| C22 | loop over an infinite reply sequence | induction on the first index |
| C23 | factories as a list of records, stable sort | induction |
| C24-C26 | hex coding, dlc rounding, line splitting | induction on list / chunks |
| C27, C41 | fdcanusb adapter + device model, lock, tasks | invariant over interleavings; refuted under cancellation and for a second reader |
| C28, C42 | Router over abstract transports, PythonCan over any bus | list lemmas; invariant over interleavings |
| C29 | AioSerial small steps | invariant over all schedules |
| C30 | types as an inductive tree, encoder as spec, decoder as model with fuel | mutual induction |
| C31-C32 | FlashContext, write_flash, verify, bootloader | induction on sections; simulation against the device |
| C33-C34 | string to ints, base 64 digits | induction / positional notation |
| C35-C36 | configuration as ordered dictionary, rules as functions; float text conversions as parameters | frame lemmas per rule; refutations by witnesses |
| C37 | the loops over a record of arithmetic operations, instantiated with `R` and with floats | induction over the turns; Flocq: monotone rounding, Sterbenz, ulp bounds for progress and for the fixed point beyond 2^56 |
| C38-C40, C43, C44 | the same, over `R` (and floats for the index of `lerp`) | induction; normal equations; exchange of sums |
| C45, C46 | `calibrate` step by step over the record of arithmetic operations; `Encoder_Spec.v` says what a good spin and a good result are | unwrapping lemmas turn counter steps into true travel; interval bounds carried through every step over `R`; rounding of the ratio over floats |
| C48 | `parse_file` and the recording loop (`Calfile_Model.v`) on bytes, `float()` as a parameter | both directions by inversion of splitting; prefixes of line lists |
| C47 | `calibrate_hall` | arg-min by induction; the table against the physical hall sequence |
| C49 | `moteus_tool` procedures as trees of requests to the device (`Proc.v`, `Device_Model.v`); a run is any list of requests and answers, cut off anywhere | induction over the lines; exact characterisation both ways |
| C50, C51 | the whole of `do_calibrate` (`Calproc_Model.v`) | for each part: which requests it can make, and that it cannot finish well after an answer that was a failure |
| C52 | `do_calibrate` | for each part: what it set last, and which requests later parts can make |
| C53 | `do_calibrate` | the last energising command of each part and the "d stop" after it; a rule for properties of finished runs that sequences keep, applied to the finally block |
| C54 | `Runner.start`, `find_targets`, `run_action` | a procedure for one device, put at an address; the requests are projected to each device; induction over the list of devices and of ids queried |
| C55 | `do_flash` with `write_flash` and `restore_config` | the way through the procedure step by step; programs of Async.v as procedures, so that C32 applies; C49 for what is restored |
| C56 | `do_restore_calibration`, `get_device_info` | the procedure part by part; what a part sends is compared with the names set before, so what was set is kept; C52 for the calibration it is compared with |
| C57 | `FirmwareUpgrade.fix_config` rule by rule, in both directions | each rule's result is read back setting by setting and compared with `Migrate_Spec.v`; induction over the tables' bins and sources |
| C58 | `do_calibrate` and all it calls, as a tree of requests (Calproc_Model.v) | what may be asked as a predicate of the answers so far, through binds, catches and loops with invariants: the next voltage of each sweep is justified by the readings since the last one |
| C59 | `do_set_offset` as a tree of requests (Device_Model.v) | inversion of the tree in one direction, construction of the run in the other |
| C60 | `do_calibrate` up to its first change, `find_encoder_cal_voltage`, `set_encoder_filter` (Calproc_Model.v) | the first part of the tree sends only readings; inversion of each step of a run that succeeds |
| C61 | `Stream.read_data` and all it calls (Stream_Model.v) | invariants of the attributes through all runs of a coroutine; the reading operations of C21 composed, with just the fragments they need |
| C62 | `ElfMappings`, `_read_elf` on what pyelftools gives (Elf_Model.v); `do_flash` and the bootloader of C32 and C55 | induction over the sections with the set of names still to be found; sorting; C32 and C55 applied to the result |
| C63 | `AioStream` (Aiostream_Model.v): the two queues, threads and locks, futures and cancellation as a machine driven by a schedule | invariants over all schedules: which calls' bytes the file was given, and to which call each chunk it gave belongs |
| C64 | query builders and `parse_reply` against a specification of the firmware's side (Answer_Spec.v): binary32 quotient, limits, truncation | composition of C11, C14 and C10; error analysis of the two roundings with Flocq |
| C65 | utils/decode_can_frame.py as a writer of lines over the bytes left (Decode_Model.v); the documented subframes with the lines that explain them as a relation (Decode_Spec.v) | induction over the frame; consumption invariant for the bytes; case analysis on the 48 register commands |
| C66 | DeviceStream and Device of utils/gui/moteus_gui/tview.py as a coinductive tree of awaits, run by a machine of messages and resumptions (Tview_Model.v); reading from the whole stream, and what a controller sends, in Tview_Spec.v | the machine tracks the reading of the whole stream (invariant); determinism of the reading gives prefix and progress; induction over elements, channels and items |
| C67 | TviewMainWindow._run_transport_iteration, _dispatch_until, DeviceStream.write/poll/maybe_emit_one, Device.start as steps over the list of devices and a log (Window_Model.v); what the log should say in Window_Spec.v | a relation that describes a step as one device sees it; invariants over it for writing, turns and the task; a rank of the loop that every round increases; C66_session for what is shown |
| C68 | _handle_user_input, _run_user_command_line, _run_user_command, _wait_user_query and Device.wait_for_data of tview.py as a plan of actions and a task that runs them (Userline_Model.v); commands, how they are written and what they mean in Userline_Spec.v | induction over the line for the parser; invariants of the task over all events; a measure that every round of arriving values decreases |
| C69 | _add_schema_item, _set_tree_widget_data, the formats, EditDelegate, _get_item_name, config_item_changed, add_config_line of tview.py on trees of items (Tree_Model.v); positional numerals, the single values of a value and rows in Tree_Spec.v | induction over the type for building and filling trees, with an invariant that a tree has the shape of its type; injectivity of names; induction over lines for the tree without schemas; refutations by computation |
| C70 | _get_data, RecordSignal, PlotItem._handle_update and remove, Record.update and the menu that begins a plot (Plot_Model.v), with the clock, numpy.std and numpy.mean as parameters; what a plot should get, from the history alone, in Plot_Spec.v | an invariant over all histories that relates the signals to the plots that should be there; induction over the type for reading a value by name; refutations by computation |
| C71 | compensate_cogging.py and histogram.py as a procedure of requests (Compensate_Model.v); what is sent, recorded and stored in Compensate_Spec.v | inversion of the traces of the procedure; induction over parts, lines and bins; Flocq bounds for the quotients; refutations by running the model with a small device |
| C72 | compensate_encoder.py as a procedure of requests, and its calculations over any arithmetic (Compensate_Model.v); what is listed, sent and stored in Compensate_Spec.v | inversion of the traces; induction over requests for what is never sent; induction over the points in the reals for the integral and the wrapping; refutations by running the model with a small device |
| C73 | ServoClock as a function from state and what one call meets to state and what it sends; Poller.wait_for_event as a procedure of requests (Clock_Model.v); counter, history and obedience in Clock_Spec.v | induction over the history; a contraction in the reals for the settling; a loop invariant of the trace for the waiting; refutations by running the model |
| C74 | Searcher as a function of state; BctDetector.run as a procedure of requests (Bct_Model.v); grids, traces and tests of a voltage in Bct_Spec.v | a finite check of the grids and a fold for the search; a loop invariant and inversion of the trace for the run; refutations by running the model against a small device |

Properties about hardware (does a motor turn, is a current loop stable) cannot be expressed in a model of this library and are not listed.

## Hypotheses a reader should know

* C32: flash starts erased where the bootloader erases, a write programs exactly the double words given, a read returns what is stored.
* C35/C36: `str(float)` contains no space and no line feed.
* C27/C42: the bus delivers the replies of one cycle before those of the next, as the lock enforces; what happens otherwise is
  covered by the refutations.
* C37-C40, C44-C47 over `R` say nothing about rounding. The theorems named `_float` do.

## Axioms

`F` = ClassicalDedekindReals.sig_forall_dec, `N` = ClassicalDedekindReals.sig_not_dec,
`E` = FunctionalExtensionality.functional_extensionality_dep, `C` = Classical_Prop.classic; all four belong to the standard library.
The table is what `Print Assumptions` lists for each theorem of MANIFEST.json.

<!-- axioms begin -->
| axioms | theorems |
|---|---|
| none (closed under the global context) | C01_varuint_round_trip, C01_varuint_too_big, C01_varuint_negative_diverges, C02_read_varuint_bounds, C02_read_varuint_none_iff, C02_read_varuint_documented, C03_varuint_length, C03_varuint_shortest, C03_varuint_prefix_free, C04_int_round_trip, C04_int_out_of_range, C08_reported_register_can_be_read, C08_next_stays_in_buffer, C08_iteration_terminates, C08_scan_needs_no_bound, C09_parser_inverts_encoding, C09_registers_unambiguous, C09_error_subframe_ends_reply, C09_error_then_reply_refuted, C11_make_query, C11_default_query, C11_make_custom_query, C11_long_run_raises, C11_negative_register_diverges, C12_query_parser_inverts, C12_padding_adds_none, C12_padding_harmless_refuted, C12_query_parser_terminates, C13_expected_reply_size, C13_default_and_custom, C13_read_gpio_size_refuted, C14_make_stop_brake, C14_make_write_gpio, C14_make_set_trim, C14_addressed, C14_settings, C15_make_current_none, C15_one_current_refuted, C15_different_resolutions_refuted, C16_set_trim_value, C17_default_commands_fit, C17_any_query_fits_refuted, C18_query_appended, C18_no_query, C18_dropped_query_refuted, C19_diagnostic_write, C19_diagnostic_write_refuses, C19_diagnostic_read, C19_parse_exact, C19_parse_complete, C20_bytes_in_order, C20_all_sent, C20_drain_alone, C20_drain_returns_early_refuted, C20_cancelled_drain_refuted, C21_read, C21_readline, C21_read_until_OK, C21_read_binary_blob, C21_any_sequence, C21_fragmentation_independent, C21_nonblocking_read, C21_command, C21_flush_read, C21_read_zero_refuted, C21_length_refuted, C21_empty_blob_refuted, C22_returns, C22_waits, C22_missing_register, C22_returns_only, C22_cycle_error, C22_bad_command, C22_query, C22_query_extra, C23_choice, C23_error, C23_singleton, C23_total, C24_line, C24_bus_id, C24_source_refuted, C24_raw_id, C24_round_trip, C24_receive, C24_receive_bare_refuted, C25_least_length, C25_padded, C25_oversize, C25_same_meaning, C26_readline, C26_lines, C26_nothing_lost, C26_lines_wellformed, C26_read, C27_cycle, C27_progress, C27_reply_flag, C27_cancelled_refuted, C28_calls, C28_exactly_once, C28_results, C28_all_answered, C28_unlisted, C28_write_refuted, C28_read_refuted, C28_command_order_refuted, C28_listed_twice, C29_conserved, C29_no_lost_wakeup, C29_progress, C29_ready, C29_zero_refuted, C29_written, C29_cancel_refuted, C29_write_error_refuted, C30_data, C30_unambiguous, C30_schema, C30_end_to_end, C30_total, C30_only, C30_truncated, C30_truncated_text, C30_flags_refuted, C30_truncated_refuted, C30_keyword_refuted, C30_varint_refuted, C30_unknown_code, C30_empty_enum, C30_overlong_refuted, C31_blocks, C31_deterministic, C31_unsorted_refuted, C32_sound, C32_bootloader, C32_boundary_refuted, C32_tail_refuted, C32_next_sector_refuted, C32_empty_section_refuted, C33_int, C33_targets, C33_accepts, C33_error, C34_value, C34_injective, C34_alphabet, C35_frame, C35_same_version, C35_refused, C35_readable, C36_compose_up, C36_compose_down, C36_compose_refuted, C36_poll_lost, C36_poll_refuted, C36_poll_down, C36_requires, C37_float_nan, C40_lerp_empty, C41_concurrent_reads_refuted, C42_frame, C42_extended, C42_raw_refuted, C42_cycle, C42_alignment_refuted, C42_concurrent_refuted, C43_uint16, C43_int16, C45_direction, C45_refused, C48_parse, C48_truncated, C48_refused, C48_collect, C48_session, C49_restore_config_exact, C49_restore_config_order, C49_stored_after_all, C49_restore_file_exact, C49_restore_file_order, C49_restore_file_latin1, C49_write_config_exact, C50_stored_only_when_complete, C50_success_is_stored, C50_no_update_restores, C51_only_these, C52_from_recording, C52_report_is_stored, C53_index_search_is_stopped, C53_stopped_on_success, C53_spin_is_stopped, C53_sign_is_restored, C53_limits_are_restored, C53_stopped_on_failure_refuted, C53_limits_on_failure_refuted, C53_mode_on_failure_refuted, C54_named_devices, C54_bad_names, C54_found_devices, C54_stop_sends_only_stop, C54_stop_stops_each, C54_looking_changes_nothing, C54_set_offset_zero_refuted, C54_kv_voltage_refuted, C54_discovery_prefix_refuted, C55_success, C55_conf_only_after_flash, C55_before_flash, C55_config_lost_refuted, C56_success, C56_stores_all_or_nothing, C56_only_report, C56_other_device, C56_hall_refuted, C56_report_device, C56_same_settings, C56_old_firmware_refuted, C57_upgrade, C57_downgrade, C58_voltages, C58_overload, C59_set_offset, C59_stored_when_placed, C59_old_firmware, C60_ready_before_changes, C60_ready_on_success, C60_encoder_voltage_refuted, C60_needs_inductance, C61_requests, C61_schema_once, C61_known_value, C61_first_value, C61_binary_refuted, C62_succeeds, C62_unmapped, C62_version, C62_sections, C62_complete, C62_usable, C62_flashed, C62_read_back, C62_missing_refuted, C62_same_address_refuted, C62_stray_version_refuted, C63_written, C63_in_order, C63_drained, C63_failure_hangs, C63_reads, C63_end_of_file, C63_reads_in_turn, C63_read_failure_hangs, C63_cancelled_drain_refuted, C63_cancelled_drain_written, C63_short_write_refuted, C63_cancelled_read_refuted, C64_int32_saturation_refuted, C65_every_byte, C65_explained, C65_same_meaning, C65_register_names, C65_names, C65_every_register_refuted, C65_every_unit_refuted, C66_schedule, C66_progress, C66_resync, C66_telemetry, C66_session, C66_emission_in_answer_refuted, C66_error_refuted, C67_order, C67_alive, C67_in_order, C67_prompt, C67_user, C67_task, C67_shows, C67_backoff, C67_asked, C68_line, C68_lines, C68_until, C68_done, C69_numerals, C69_numerals_unique, C69_config, C69_telemetry, C69_telemetry_fixed, C69_format, C69_shorter_refuted, C69_keyword_refuted, C69_commit, C69_config_sent, C69_offered, C69_offered_bool, C69_entered, C69_dotted, C69_names, C69_lines, C70_no_error, C70_step, C70_samples, C70_window, C70_one_refuted, C70_remove_refuted, C70_shorter_refuted, C70_mark_refuted, C71_rows, C71_recorded, C71_limits, C71_unstored, C71_short, C71_limits_refuted, C71_moving_refuted, C71_flat_refuted, C71_tiny_refuted, C71_ready, C72_limits, C72_unchanged, C72_zero, C72_ready, C72_no_store_refuted, C72_perfect_refuted, C72_second_refuted, C72_flush_refuted, C73_delta, C73_wrap, C73_wrap_refuted, C73_count, C73_measure, C73_due, C73_ends, C73_no_limit, C73_rate_refuted, C74_search, C74_best_refuted, C74_restores, C74_stored, C74_voltage, C74_sign_refuted, C74_last_refuted, C74_poles_refuted, C74_bct_refuted, C74_voltage_refuted |
| C E F N | C05_int_write_never_raises, C05_int_write_value, C05_f32_overflow_iff, C06_nan_survives, C06_infinity, C06_finite_never_nan, C07_quantised_value, C07_error_bound, C07_monotone, C10_parse_reply, C10_raises_iff, C10_encoded_reply, C14_make_position, C14_make_stay_within, C14_make_vfoc, C14_make_aux_pwm, C14_make_set_output, C14_overflow_bound, C14_pi, C15_make_current_same_resolution, C16_command_value_arrives, C30_seconds, C30_microseconds, C37_real, C37_real_unique, C37_float, C37_float_exact, C37_float_hangs, C37_float_turns, C37_pi, C38_unwrap, C38_recovers, C38_idempotent, C38_inverse, C38_fast_refuted, C40_lerp_float, C45_poles_float, C46_good_spin, C46_optimizer_failure_refuted, C47_offset, C47_refused, C64_reply, C64_query, C64_default_query, C64_custom_query, C64_command, C64_position_query, C71_steps, C71_sent, C71_bins, C72_sent, C72_remainder |
| E F | C05_api_scales_apply, C07_api_scales_apply, C16_nan_arrives, C16_ilimit_scale_refuted, C40_unique, C40_at_points, C40_in_range |
| E F N | C39_least_squares, C39_defined, C39_exact, C40_interpolate, C40_interpolate_refused, C40_unsorted_refuted, C40_lerp, C40_lerp_sample, C40_lerp_refused, C40_linspace, C40_linspace_ends, C44_window, C44_in_range, C44_no_offset, C44_small_window, C45_poles_real, C47_direction, C72_closed, C72_constant, C72_reference, C72_reference_refuted, C73_trim, C73_shown, C73_perfect, C73_settles, C73_lost_refuted |
<!-- axioms end -->

## Wrong programs

`seeded/LOG.jsonl` has one line per edit that was tried. `survived: true` means that everything
that depends on the edited file still built; such an edit is tried again once a theorem was added
for it, and then has a second line, with that theorem under `theorems_tightened`. `survived: null`
means that the build was stopped before it had checked all of it. `checked`, where present, names the
files that were rebuilt; without it all files were. `files_not_built` are the property files that
depend on a file that failed. An edit whose last line says `survived: true` is not caught by any
theorem here. The lines of survivors from the earlier rounds were added later than
those of the edits caught in the same rounds, so the order of lines is not that of the attempts.
