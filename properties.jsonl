{"id": "C01", "title": "varuint round trip at any position", "statement": "Every integer 0 <= v < 2^35 written with WriteFrame.write_varuint and read back with read_varuint at the offset where it was written yields v and the offset just past it, whatever bytes come before and after; integers >= 2^35 are never read back (None), and a negative integer makes write_varuint loop without end.", "quantifier": "all integers, all prefixes and suffixes of the buffer", "why_tests_cant": "infinitely many integers and buffers; the 5-byte cut-off and the sign behaviour are boundary facts at sizes no example list enumerates", "anchors": ["lib/python/moteus/multiplex.py:read_varuint", "lib/python/moteus/multiplex.py:WriteFrame.write_varuint"]}
{"id": "C02", "title": "read_varuint never over-reads", "statement": "For every buffer and non-negative offset, read_varuint terminates, returns a value in [0,2^35) with a next offset in (offset, offset+5] and within the buffer, or None; None is returned exactly when the buffer ends before a terminating byte within the first five, or five continuation bytes are seen.", "quantifier": "all byte strings and all offsets", "why_tests_cant": "depends on every possible malformed buffer", "anchors": ["lib/python/moteus/multiplex.py:read_varuint"]}
{"id": "C03", "title": "varuint encoding is canonical and self-delimiting", "statement": "write_varuint emits the shortest encoding, of length 1 + floor(log_128 v); distinct values get distinct encodings and no encoding is a prefix of another, so concatenated varuints are uniquely decodable.", "quantifier": "all pairs of naturals", "why_tests_cant": "pairs of unbounded integers", "anchors": ["lib/python/moteus/multiplex.py:WriteFrame.write_varuint"]}
{"id": "C04", "title": "fixed-width integers round trip", "statement": "For each of the int8/int16/int32 resolutions, WriteFrame.write followed by RegisterParser.read gives back the same integer for every integer in range, and every integer out of range raises struct.error and leaves the buffer unchanged.", "quantifier": "all integers, all three integer resolutions", "why_tests_cant": "2^32 values plus all out of range ones", "anchors": ["lib/python/moteus/multiplex.py:TYPES", "lib/python/moteus/multiplex.py:WriteFrame.write", "lib/python/moteus/multiplex.py:RegisterParser.read"]}
{"id": "C05", "title": "mapped writes at integer resolutions never raise and always fit", "statement": "For every float value (including infinities and NaN), every integer resolution and every positive normal scale, write_mapped succeeds; the emitted integer is in [-MAX, MAX] for a finite value and is the reserved minimum exactly when the value is not finite. At F32 it raises OverflowError exactly for finite values that round past the largest binary32.", "quantifier": "all 2^64 floats, all resolutions, all scales used", "why_tests_cant": "overflow of value/scale to infinity and truncation at the limits happen at isolated floats", "anchors": ["lib/python/moteus/multiplex.py:saturate", "lib/python/moteus/multiplex.py:WriteFrame.write_mapped"]}
{"id": "C06", "title": "NaN survives the wire at every resolution", "statement": "A value that is NaN is written so that read_mapped returns NaN at all four resolutions; an infinity reads back as NaN at integer resolutions and as the same infinity at F32; no finite value ever reads back as NaN.", "quantifier": "all floats, resolutions and scale triples used by the API", "why_tests_cant": "all floats", "anchors": ["lib/python/moteus/multiplex.py:saturate", "lib/python/moteus/multiplex.py:RegisterParser.nanify", "lib/python/moteus/multiplex.py:RegisterParser.read_mapped"]}
{"id": "C07", "title": "quantisation error bound and monotonicity", "statement": "For a finite value whose magnitude does not exceed the range of an integer resolution, the value decoded on the other side differs from the value written by less than one count of the scale (plus float rounding), truncating toward zero; outside the range it is the nearest end of the range; larger inputs never produce smaller encoded integers.", "quantifier": "all finite floats, all ten unit scales, all integer resolutions", "why_tests_cant": "real-number bound over all floats", "anchors": ["lib/python/moteus/multiplex.py:saturate", "lib/python/moteus/moteus.py:Writer", "lib/python/moteus/moteus.py:Parser"]}
{"id": "C08", "title": "reply parser is total and never over-reads", "statement": "For every byte string, RegisterParser.next/read iteration terminates; whenever next reports a register, the following read of that resolution does not raise and consumes exactly its width inside the buffer.", "quantifier": "all byte strings (all possible CAN payloads, well-formed or corrupt)", "why_tests_cant": "256^64 payloads", "anchors": ["lib/python/moteus/multiplex.py:RegisterParser.next", "lib/python/moteus/multiplex.py:RegisterParser.read"]}
{"id": "C09", "title": "reply parser returns exactly what the device encoded", "statement": "For every list of reply subframes encoded as the reference manual A.1.c says (short or long count form, any registers, resolutions and values, NOPs interleaved and as trailing padding), iterating next/read gives exactly the encoded (register, resolution, raw value) list in order.", "quantifier": "all well-formed replies of any length", "why_tests_cant": "unbounded structure of subframes", "anchors": ["lib/python/moteus/multiplex.py:RegisterParser", "docs/reference.md:A.1.c"]}
{"id": "C10", "title": "parse_reply is total on what firmware can send", "statement": "parse_reply returns for every byte string unless an integer-valued register is reported in F32 as NaN or infinity, in which case it raises; in the result every reported register maps to its last reported, correctly scaled value and no other key is present.", "quantifier": "all byte strings", "why_tests_cant": "all payloads", "anchors": ["lib/python/moteus/moteus.py:parse_reply", "lib/python/moteus/moteus.py:parse_register"]}
{"id": "C11", "title": "query frames ask for exactly the requested registers", "statement": "For every QueryResolution (any resolution or IGNORE per field and any _extra dictionary) decoding the frame produced by make_query by the protocol rules gives exactly the requested (register, resolution) pairs, in register order within each group, each once; the same for make_custom_query. A run of more than 127 equal consecutive resolutions raises struct.error instead.", "quantifier": "all resolution assignments, all extra register dictionaries", "why_tests_cant": "5^17 settings times unbounded dictionaries", "anchors": ["lib/python/moteus/moteus.py:Controller._make_query_data", "lib/python/moteus/moteus.py:Controller.make_custom_query", "lib/python/moteus/multiplex.py:WriteCombiner"]}
{"id": "C12", "title": "QueryParser inverts query generation", "statement": "QueryParser.parse applied to any frame produced by make_query/make_custom_query returns exactly the requested pairs. Applied to the same frame after CAN-FD padding with NOP it returns a spurious trailing None element.", "quantifier": "all queries, all paddings", "why_tests_cant": "unbounded", "anchors": ["lib/python/moteus/multiplex.py:QueryParser", "lib/python/moteus/moteus.py:Controller.make_query"]}
{"id": "C13", "title": "expected_reply_size equals the size of the reply", "statement": "The expected_reply_size reported for every query command equals the number of bytes of the reply frame that carries all the requested registers in the same grouping.", "quantifier": "all query settings", "why_tests_cant": "all combinations of resolutions", "anchors": ["lib/python/moteus/moteus.py:Controller._make_query_data", "lib/python/moteus/multiplex.py:WriteCombiner.maybe_write"]}
{"id": "C14", "title": "write frames perform exactly the requested register writes", "statement": "Decoding the data of make_position, make_stay_within, make_vfoc, make_aux_pwm, make_write_gpio, make_stop, make_brake, make_set_output*, make_set_trim by the protocol rules gives the mode write (where there is one) followed by one write per argument that is not None, to the documented register, at the configured resolution, with the saturated scaled value, then the query if any; nothing else.", "quantifier": "all subsets of arguments given, all values, all resolution settings, all queries", "why_tests_cant": "4096 argument subsets x 4^12 resolutions x all values", "anchors": ["lib/python/moteus/moteus.py:Controller.make_position", "lib/python/moteus/moteus.py:Controller.make_stay_within", "lib/python/moteus/moteus.py:Controller.make_vfoc", "lib/python/moteus/moteus.py:Controller.make_aux_pwm", "lib/python/moteus/multiplex.py:WriteCombiner"]}
{"id": "C15", "title": "make_current writes the q and d currents to their own registers", "statement": "make_current(d_A, q_A) sends q_A to register 0x1c at the q resolution and d_A to register 0x1d at the d resolution. (False of the code when the two resolutions differ or exactly one current is None.)", "quantifier": "all currents incl. None, all resolution pairs", "why_tests_cant": "needs all pairs of resolutions and None patterns", "anchors": ["lib/python/moteus/moteus.py:Controller.make_current"]}
{"id": "C16", "title": "command values are decoded by the controller with the unit scale they were encoded with", "statement": "For each command register, the unit scaling the Python side uses to encode equals the one the controller firmware uses to decode that register. (False for ilimit_scale of make_position, encoded as a voltage and decoded as PWM.)", "quantifier": "all registers writable through the API, all integer resolutions", "why_tests_cant": "needs agreement over all values", "anchors": ["lib/python/moteus/moteus.py:Controller.make_position", "fw/moteus_controller.cc:Write"]}
{"id": "C17", "title": "command frames fit in a CAN-FD frame", "statement": "With the default resolutions every command, for any arguments, together with the default query fits in 64 bytes. (False in general for user chosen resolutions.)", "quantifier": "all arguments and argument subsets", "why_tests_cant": "2^12 subsets times queries", "anchors": ["lib/python/moteus/moteus.py:Controller.make_position", "lib/python/moteus/moteus.py:PositionResolution"]}
{"id": "C18", "title": "commands that request a reply carry the query", "statement": "When query=True or query_override is given, the command has reply_required set and its data ends with the query frame. (False for make_require_reindex and make_recapture_position_velocity, which drop the query.)", "quantifier": "all make_* methods and all queries", "why_tests_cant": "all query settings", "anchors": ["lib/python/moteus/moteus.py:Controller.make_require_reindex", "lib/python/moteus/moteus.py:Controller._format_query"]}
{"id": "C19", "title": "diagnostic stream frames round trip", "statement": "For every data of at most 61 bytes and every channel 0..127 make_diagnostic_write yields a frame of at most 64 bytes that the controller decodes to exactly that data on that channel; parse_diagnostic_data returns exactly the data of a server frame with trailing padding removed, and None for another channel or a truncated frame.", "quantifier": "all data, channels, paddings", "why_tests_cant": "all byte strings", "anchors": ["lib/python/moteus/moteus.py:Controller.make_diagnostic_write", "lib/python/moteus/moteus.py:parse_diagnostic_data"]}
{"id": "C20", "title": "Stream.drain sends every byte once, in order", "statement": "For every sequence of write calls and any interleaving of concurrent drain calls on the same Stream, the concatenation of the payloads handed to the controller is exactly the concatenation of the written data, in order, each payload being 1..61 bytes.", "quantifier": "all write/drain schedules", "why_tests_cant": "schedules of concurrent tasks", "anchors": ["lib/python/moteus/moteus.py:Stream.write", "lib/python/moteus/moteus.py:Stream.drain"]}
{"id": "C21", "title": "Stream reads are independent of how the data is fragmented", "statement": "For every way the incoming bytes are split over diagnostic replies (including empty replies), read(n), readline, read_until_OK, read_binary_blob return what a function of the concatenated byte stream alone gives, and leave exactly the remaining bytes for later.", "quantifier": "all byte streams, all fragmentations, all sequences of read operations", "why_tests_cant": "unbounded fragmentations", "anchors": ["lib/python/moteus/moteus.py:Stream.read", "lib/python/moteus/moteus.py:Stream.readline", "lib/python/moteus/moteus.py:Stream.read_until_OK", "lib/python/moteus/moteus.py:Stream.read_binary_blob"]}
{"id": "C22", "title": "set_position_wait_complete returns only on a complete trajectory after two replies", "statement": "set_position_wait_complete returns exactly at the first cycle whose reply is at least the second non-empty reply and reports trajectory_complete non-zero, returning that reply; it never returns otherwise.", "quantifier": "all infinite sequences of replies and missed replies", "why_tests_cant": "unbounded histories", "anchors": ["lib/python/moteus/moteus.py:Controller.set_position_wait_complete"]}
{"id": "C23", "title": "transport selection", "statement": "get_singleton_transport returns the first factory that constructs successfully in stable PRIORITY order among those forced by name, else those with arguments set, else all; later calls return the same transport; an error is raised exactly when none constructs.", "quantifier": "all factory lists, priorities, argument sets, failure patterns", "why_tests_cant": "all subsets of failures", "anchors": ["lib/python/moteus/moteus.py:get_singleton_transport"]}
{"id": "C24", "title": "fdcanusb payload hex coding round trips", "statement": "For every byte string, the hex text sent to the fdcanusb decodes to it, the bus id text decodes to destination, reply flag and prefix, and a 'rcv' line for any id and payload is parsed back to that id and payload.", "quantifier": "all payloads, ids, prefixes", "why_tests_cant": "all byte strings", "anchors": ["lib/python/moteus/fdcanusb.py:_hexify", "lib/python/moteus/fdcanusb.py:_dehexify", "lib/python/moteus/fdcanusb.py:Fdcanusb.write"]}
{"id": "C25", "title": "padding to a legal CAN-FD length does not change meaning", "statement": "For every command of at most 64 bytes the frame sent is the data followed only by NOP bytes and its length is the least legal CAN-FD length; the padded frame decodes to the same registers operations as the unpadded one.", "quantifier": "all data", "why_tests_cant": "all byte strings", "anchors": ["lib/python/moteus/fdcanusb.py:_round_up_dlc", "lib/python/moteus/pythoncan.py:PythonCan.write"]}
{"id": "C26", "title": "fdcanusb line reader is fragmentation independent", "statement": "For every byte stream from the device and every way reads split it, the sequence of lines returned is the sequence of non-empty lines of the stream, none lost, duplicated or merged.", "quantifier": "all streams and fragmentations", "why_tests_cant": "unbounded", "anchors": ["lib/python/moteus/fdcanusb.py:Fdcanusb._readline"]}
{"id": "C27", "title": "cycle pairs each command with its own reply", "statement": "With a device that answers every request in order, for every list of cycle calls made concurrently and every schedule, result i of a call is the parse of the reply to its command i (None where no reply is required). With a cancelled cycle this fails: a late reply is attributed to a later command.", "quantifier": "all command lists, all schedules, all fragmentations", "why_tests_cant": "schedules", "anchors": ["lib/python/moteus/fdcanusb.py:Fdcanusb.cycle", "lib/python/moteus/fdcanusb.py:Fdcanusb._do_command"]}
{"id": "C28", "title": "Router.cycle sends each command to the transports owning its id", "statement": "For every partition of ids over transports each command whose id is owned reaches exactly its owner, commands for one transport keep their order, and results are concatenated in destination order; commands with an unowned id are silently dropped.", "quantifier": "all destination tables and command lists", "why_tests_cant": "unbounded", "anchors": ["lib/python/moteus/router.py:Router.cycle"]}
{"id": "C29", "title": "serial reads neither lose nor duplicate bytes", "statement": "For every arrival pattern of bytes and every sequence of read calls on the posix AioSerial, the concatenation of the returned data and the buffered data is the arrived data; a blocking read returns exactly the requested size, a non-blocking one between 1 and size bytes.", "quantifier": "all arrivals, read sizes, schedules", "why_tests_cant": "schedules", "anchors": ["lib/python/moteus/posix_aioserial.py:AioSerial.read", "lib/python/moteus/posix_aioserial.py:AioSerial._handle_read"]}
{"id": "C30", "title": "telemetry schema and data decode to what was encoded", "statement": "For every telemetry type (any nesting of objects, enums, arrays, fixed arrays, maps, unions and scalars) and every value of it, decoding the binary schema gives that type, reading encoded data with it gives that value, and exactly the encoded bytes are consumed, whatever follows.", "quantifier": "all types and values", "why_tests_cant": "unbounded nesting", "anchors": ["lib/python/moteus/reader.py:Type.from_binary", "lib/python/moteus/reader.py:ObjectType"]}
{"id": "C31", "title": "flash blocks cover the image exactly", "statement": "For every list of sections sorted by address and non-overlapping, the blocks get_next_block yields from the start are non-empty, at most 32 bytes, and their concatenation is the concatenation of the sections byte for byte with the right addresses; the iteration terminates.", "quantifier": "all section lists", "why_tests_cant": "unbounded images", "anchors": ["lib/python/moteus/moteus_tool.py:FlashContext", "lib/python/moteus/moteus_tool.py:Stream.write_flash"]}
{"id": "C32", "title": "flashing with verification is sound", "statement": "If the write_flash and verify steps complete without error against any device, then the bytes that device returned on read back equal the image at every section address; against the bootloader model the flash then holds the image.", "quantifier": "all images, all device behaviours", "why_tests_cant": "adversarial devices", "anchors": ["lib/python/moteus/moteus_tool.py:_verify_blocks", "fw/can_bootloader.cc"]}
{"id": "C33", "title": "target list expansion", "statement": "expand_targets returns the sorted list without repetitions of exactly the ids named by the comma separated items and inclusive ranges.", "quantifier": "all target lists", "why_tests_cant": "unbounded", "anchors": ["lib/python/moteus/moteus_tool.py:expand_targets"]}
{"id": "C34", "title": "serial number text is injective", "statement": "Two devices with different 96-bit serial numbers get different 16-character serial strings and the string determines the number.", "quantifier": "all triples of 32 bit words", "why_tests_cant": "2^96", "anchors": ["lib/python/moteus/moteus_tool.py:_base64_serial_number"]}
{"id": "C35", "title": "configuration migration preserves unrelated settings", "statement": "fix_config from ABI version a to b (both <= 0x010a) leaves every setting not named by the migration rules between a and b unchanged, is the identity (up to line format) when a = b, and is refused for versions above 0x010a.", "quantifier": "all configurations, all version pairs", "why_tests_cant": "all configurations", "anchors": ["lib/python/moteus/moteus_tool.py:FirmwareUpgrade"]}
{"id": "C36", "title": "configuration upgrade renames are complete", "statement": "After upgrading from <= 0x0105 to >= 0x0106 every I2C poll period setting present in the old configuration is carried over to the new setting in microseconds. (False of the code: the test looks for the new key.) Upgrading in one step equals upgrading through intermediate versions. (False for 0x0100 to 0x0102.)", "quantifier": "all configurations", "why_tests_cant": "all configurations", "anchors": ["lib/python/moteus/moteus_tool.py:FirmwareUpgrade.fix_config"]}
{"id": "C37", "title": "angle wrapping is modular", "statement": "_wrap_neg_pi_to_pi returns an angle in [-pi, pi] equal to the input modulo whole turns: for every real number, and on floats for every finite input up to 2^56 in magnitude, with a rounding error of at most 2^-53 of the input per turn and none at all up to one and a half turns. Larger and infinite inputs never return; NaN stays NaN.", "quantifier": "all real / float angles", "why_tests_cant": "all reals", "anchors": ["lib/python/moteus/moteus_tool.py:_wrap_neg_pi_to_pi", "lib/python/moteus/calibrate_encoder.py"]}
{"id": "C38", "title": "unwrap preserves angles and bounds steps", "statement": "_unwrap keeps the first angle and the number of angles, changes each by whole turns only, and leaves no step longer than half a turn. If the true angles move by less than half a turn per sample it recovers them exactly.", "quantifier": "all lists of reals", "why_tests_cant": "unbounded lists", "anchors": ["lib/python/moteus/calibrate_encoder.py:_unwrap"]}
{"id": "C39", "title": "linear regression is the least squares line", "statement": "Over the reals linear_regression returns the unique minimiser of the squared error, is exact on collinear data, and divides by zero exactly when all x are equal.", "quantifier": "all data sets", "why_tests_cant": "all reals, any number of points", "anchors": ["lib/python/moteus/regression.py:linear_regression"]}
{"id": "C40", "title": "interpolation stays within the data", "statement": "_interpolate gives, for sample points in ascending order, the value of the piecewise linear curve through the data, level beyond its ends, never outside the range of the data; lerp gives the point on the closed curve through its table for ratios in [-1, 1) and refuses others, and no float in [0, 1) is rounded past the end; _linspace has the requested number of equally spaced points with the right end points.", "quantifier": "all tables and query points", "why_tests_cant": "all reals", "anchors": ["lib/python/moteus/calibrate_encoder.py:_interpolate", "lib/python/moteus/moteus_tool.py:lerp"]}
{"id": "C41", "title": "Fdcanusb.read beside another reader loses messages", "statement": "Fdcanusb.read takes no lock and keeps a partial line in an attribute that is read before and assigned after the await. Two reads in flight at once can lose a complete message that the device sent and the port delivered: it is returned by neither call and is not in the buffer.", "quantifier": "existence of a schedule of two concurrent reads", "why_tests_cant": "depends on how the bytes are split over the two pending reads", "anchors": ["lib/python/moteus/fdcanusb.py:Fdcanusb.read", "lib/python/moteus/fdcanusb.py:Fdcanusb._readline"]}
{"id": "C42", "title": "PythonCan sends the right frames and pairs replies only in sequence", "statement": "PythonCan sends each command as one CAN-FD frame: the command's data padded to the least legal length without changing its meaning, the arbitration id made of destination, reply flag and prefix, extended exactly when it does not fit 11 bits. A single cycle sends the commands in order and parses with each reply-wanting command the next received message. False of the code: a raw command's own id is ignored, results are not aligned with the commands when some want no reply, and two concurrent cycles can get each other's replies because there is no lock.", "quantifier": "all commands, received messages and schedules", "why_tests_cant": "all ids, sizes and message sequences", "anchors": ["lib/python/moteus/pythoncan.py:PythonCan.cycle", "lib/python/moteus/pythoncan.py:PythonCan.write", "lib/python/moteus/pythoncan.py:PythonCan._do_command"]}
{"id": "C43", "title": "sixteen bit wrapping is modular", "statement": "_wrap_uint16 returns the value modulo 65536 in [0, 65535], and _wrap_int16 the congruent value in [-32768, 32767], for every integer.", "quantifier": "all integers", "why_tests_cant": "unbounded integers and loop counts", "anchors": ["lib/python/moteus/calibrate_encoder.py:_wrap_uint16", "lib/python/moteus/calibrate_encoder.py:_wrap_int16"]}
{"id": "C44", "title": "circular smoothing adds no offset", "statement": "_window_average replaces every value by the mean of the window around it on the circle; the outputs stay within the range of the data and have the same sum; a window below two divides by zero.", "quantifier": "all data sets and window sizes up to about twice their length", "why_tests_cant": "all reals, any length", "anchors": ["lib/python/moteus/calibrate_encoder.py:_window_average"]}
{"id": "C45", "title": "encoder calibration derives direction and pole count from the true motion", "statement": "Given the 16 bit samples of a spin in which the encoder and the phase move less than half a turn between samples, the result of calibrate inverts the encoder exactly when the wanted direction is negative, inverts the phases exactly when the encoder then turns against them, never inverts phases when that is not allowed, reports the true distance travelled, flags it as an error exactly when it is more than 5000 counts off one turn, and reports twice the nearest number of phase turns per encoder turn as the pole count. Too few samples, no travel, no direction, or a needed but disallowed inversion raise RuntimeError.", "quantifier": "all recordings, any length, any wrap-around points, any arithmetic (pole count: reals and doubles)", "why_tests_cant": "all motions and all places where the 16 bit counters wrap", "anchors": ["lib/python/moteus/calibrate_encoder.py:calibrate"]}
{"id": "C46", "title": "a good spin gives a calibration that commutates", "statement": "When the phase follows the encoder within eps counts, one turn is covered with gaps of at most g, and eps and n*g are small against a turn of phase, calibrate succeeds with no error, reports 2n poles and a 64 entry table such that at every recorded sample the phase computed from the encoder with any value interpolated from the table is the recorded one up to whole turns and 2(eps+n*g). False of the code: when the optimiser fails, calibrate does not report an error but raises AttributeError.", "quantifier": "all good spins, pole counts up to 2500, both directions, any optimiser", "why_tests_cant": "all real-valued motions and lengths", "anchors": ["lib/python/moteus/calibrate_encoder.py:calibrate", "lib/python/moteus/calibrate_encoder.py:_window_average", "lib/python/moteus/calibrate_encoder.py:_interpolate"]}
{"id": "C47", "title": "hall calibration finds the right offset and sign", "statement": "When all six hall states were seen, calibrate_hall returns as offset the position in the hall sequence of the sample nearest to phase zero; if the recorded states step through the sequence in one direction, the sign is that direction, turned when the wanted direction is negative; missing states or a needed but disallowed phase inversion raise RuntimeError.", "quantifier": "all recordings of 3 bit states, any length and angles", "why_tests_cant": "all angle values and sequences", "anchors": ["lib/python/moteus/calibrate_encoder.py:calibrate_hall"]}
{"id": "C48", "title": "a calibration recording is read exactly, and a truncated one is refused", "statement": "parse_file accepts a file exactly when its first line starts and its last line ends a recording and every line between is a sample; the samples it returns are those lines, in order, split by direction, with currents in amperes. A recording cut off at any byte is refused or gives the same samples. The loop that records a calibration returns everything up to the done line when the device reports samples, leaves later lines unread, waits while neither done nor an error has come, and raises RuntimeError at the first ERR or unexpected CAL line; what it returns for a whole session parses back to the device's samples.", "quantifier": "all byte contents, all truncation points, all sequences of lines", "why_tests_cant": "all files and all cut points", "anchors": ["lib/python/moteus/calibrate_encoder.py:parse_file", "lib/python/moteus/calibrate_encoder.py:_parse_entry", "lib/python/moteus/moteus_tool.py:Stream.calibrate_encoder_mapping_absolute"]}
{"id": "C49", "title": "restoring a configuration sends every setting once, in order, and stores after the last", "statement": "Restoring a captured configuration sends one 'conf set' per line that is not blank, in the order of the lines, then stores once and resets; it succeeds exactly when each setting is accepted or refused with a command error, and returns the refused ones. Nothing is stored before every setting was tried, whatever the device answers and wherever the run stops. The same holds for --restore-config, which drops comments, does not reset, and stores nothing if a line holds a character that cannot be sent; and for --write-config, which sends the lines as they are and stores nothing of itself.", "quantifier": "all configuration texts, all answers of the device, all points at which the run is cut off", "why_tests_cant": "all files, all device behaviours and all crash points", "anchors": ["lib/python/moteus/moteus_tool.py:Stream.restore_config", "lib/python/moteus/moteus_tool.py:Stream.do_restore_config", "lib/python/moteus/moteus_tool.py:Stream.write_config_stream"]}
{"id": "C50", "title": "a calibration is stored only if all of it went well", "statement": "--calibrate makes settings permanent ('conf write') only after every request before it was answered without failure or fault, apart from refusals that only show that the firmware is old; afterwards it sends nothing. If it succeeds it has stored, and then saved the report. With --cal-no-update what is stored is not the calibration: between the measurements and 'conf write' every line of the configuration captured at the start is set again.", "quantifier": "all devices, options, float libraries, optimizers, and all points at which the run is cut off", "why_tests_cant": "every failure of every one of about a thousand requests", "anchors": ["lib/python/moteus/moteus_tool.py:Stream.do_calibrate", "lib/python/moteus/moteus_tool.py:Stream.check_for_fault", "lib/python/moteus/moteus_tool.py:Stream.restore_config"]}
{"id": "C51", "title": "a calibration touches no other parameter", "statement": "Whatever the device answers, --calibrate sends only: reads of the configuration, commands that move or stop the motor, 'conf set' of a fixed list of parameters (motor.*, the current loop, the encoder filter, the position limits, the encoder's sign and offset, the hall polarity), and a final 'conf write'.", "quantifier": "all devices, options and points at which the run is cut off", "why_tests_cant": "all devices and all branches", "anchors": ["lib/python/moteus/moteus_tool.py:Stream.do_calibrate", "lib/python/moteus/moteus_tool.py:Stream.calibrate_encoder_mapping", "lib/python/moteus/moteus_tool.py:Stream.calibrate_kv_rating"]}
{"id": "C52", "title": "the calibration report says what the device was told", "statement": "If --calibrate succeeds, then at the moment it stores, the device has last accepted, for every quantity in the report (resistance, current loop gains, encoder filter, Kv or the voltage per turn of older firmware, sign, phase inversion, poles, all offsets, hall polarity), exactly the value in the report, and nothing later tried to change it; the two exceptions are parameters the device said it does not have, and the number of poles if the device itself read back zero. The encoder part is the result without errors of the calibration algorithm on exactly the lines the device sent after the start of the spin, and the number of poles is the one given, if one was given.", "quantifier": "all devices, options, float libraries and optimizers", "why_tests_cant": "all devices; a later step may overwrite an earlier one only in some branches", "anchors": ["lib/python/moteus/moteus_tool.py:Stream.do_calibrate", "lib/python/moteus/moteus_tool.py:Stream.calibrate_encoder_mapping_absolute", "lib/python/moteus/moteus_tool.py:Stream.calibrate_encoder_mapping_hall", "lib/python/moteus/moteus_tool.py:Stream.calibrate_kv_rating"]}
{"id": "C53", "title": "calibration leaves the motor stopped and its limits as they were", "statement": "If --calibrate succeeds, every command that puts a voltage on the motor is followed by a \"d stop\" the device accepted. Whether it succeeds or fails, the spin of the encoder calibration is followed by \"d stop\", and motor_position.output.sign, once set to 1, is set back to the value read before, unless the device refuses \"d stop\". If it succeeds and Kv is measured, servopos.position_min and position_max end with the value read before anything set them. Refuted: that the motor is stopped, the limits are restored, or only values read before are written to servo.voltage_mode_control, when calibration fails elsewhere.", "quantifier": "all devices, options and points of failure", "why_tests_cant": "any request can fail; the motor left energised is only seen for particular points of failure", "anchors": ["lib/python/moteus/moteus_tool.py:Stream.do_calibrate", "lib/python/moteus/moteus_tool.py:Stream.calibrate_encoder_mapping", "lib/python/moteus/moteus_tool.py:Stream.calibrate_kv_rating", "lib/python/moteus/moteus_tool.py:Stream.calibrate_encoder_mapping_hall"]}
{"id": "C54", "title": "moteus_tool talks to the chosen devices only, one after another", "statement": "With -t, requests go only to the devices named, behind the prefix given, in ascending order, and each device sees exactly one run of the action; the first failure ends it and later devices hear nothing; if it ends well the action ended well on each. A list that cannot be read sends nothing. Without -t the ids 1..126 are queried in order, and once all were, exactly those that answered are served likewise. --stop sends only \"d stop\", and on success each device named accepted it. --info and --dump-config send only \"tel stop\" and \"conf enumerate\". Refuted: that devices are looked for behind the prefix they are then talked to; that --set-offset 0 is an action; that --cal-kv-voltage works for more than one device.", "quantifier": "all lists of targets, prefixes, options, answers of devices and points of failure", "why_tests_cant": "any device can fail at any request; which devices are then talked to depends on the whole history", "anchors": ["lib/python/moteus/moteus_tool.py: Runner.start, find_targets, default_tel_stop, run_action, calculate_calibration_parameters"]}
{"id": "C55", "title": "flashing saves the configuration first and restores it only onto verified firmware", "statement": "--flash sends nothing but \"conf enumerate\" before \"d flash\", and \"d flash\" only when the versions of the image and of the device are ones it knows and, unless told not to restore, the configuration has been read and saved. Wherever it breaks off or fails, a parameter is set or stored only after every byte of the image was written and read back as it should be, and never with --bootloader-active or --no-restore-config. If it ends well, exactly the saved configuration, migrated from the old version and family to the new version, was set line by line, stored, and the device reset. Refuted: that a device whose firmware was replaced gets its configuration back; one that cannot be migrated is only noticed after flashing.", "quantifier": "all images, versions, options, configurations, answers of the device and points of failure", "why_tests_cant": "any request can fail or be answered by anything; the order matters at each of these points", "anchors": ["lib/python/moteus/moteus_tool.py: Stream.do_flash, write_flash, restore_config, FirmwareUpgrade.fix_config"]}
{"id": "C56", "title": "restoring a calibration puts back exactly the report, or stores nothing", "statement": "--restore-cal sends nothing but reads to a device whose serial number is not the one in the report. It sets only parameters in the report, to the values there, and stores them only when every value in the report that the device knows a parameter for has been accepted; nothing follows. Restoring the report of a calibration leaves the resistance, offsets, poles, signs, current loop gains, Kv and encoder filter as the calibration had stored them. Refuted: that every report can be restored. A report on hall sensors never can, and a report of this version never can on firmware with motor.v_per_hz (it stops with some values set and none stored).", "quantifier": "all reports, devices, answers and points of failure", "why_tests_cant": "which parameters a device knows and which request fails are unbounded combinations", "anchors": ["lib/python/moteus/moteus_tool.py: Stream.do_restore_calibration, get_device_info, do_calibrate, set_encoder_filter"]}
{"id": "C57", "title": "what each change of firmware version does to the settings", "statement": "Moving a saved configuration to the next firmware version, or back to the one before, gives exactly the settings that version needs: the encoder, filter, offset and PWM settings of 0x0105, the polling periods of 0x0106, the compensation tables (scaled, stretched to 256 integers or back to 32 numbers), commutation offsets and thermistor of 0x0109, the Kv and power limit of 0x010a, and the changed defaults of the other versions. A setting is changed only when it had the old default or the condition named in the table.", "quantifier": "all configuration texts, all ten pairs of neighbouring versions in both directions, all board families", "why_tests_cant": "the numbers in the configuration, and which settings are in it, are unbounded", "anchors": ["lib/python/moteus/moteus_tool.py: FirmwareUpgrade.fix_config"]}
{"id": "C58", "title": "the voltages and currents calibration puts on the motor", "statement": "Calibration puts nothing on the motor before it has read the supply voltage. After that each drive command it sends is one of these. For the winding resistance: 10 mV, or 10 % more than the last voltage, and only when the power measured there, the mean of 20 readings, was not above the power asked for and that voltage was not above 40 % of the supply; always at least 0 and less than 20 V. For the inductance: a voltage tried before, limited to 15 % and 20 % of the supply on new firmware. For the encoder: at most 40 % of the supply, or the current this causes in the resistance that was set. For Kv: 0 to less than 20 V, going up by 10 % from 10 mV as long as it is not above 20 % of the supply, then fixed fractions of the voltage found or asked for. While Kv is measured, an overload of a motor that hardly turns is followed by a stop and an error.", "quantifier": "all options, all answers and failures of the device, all points of a run, also one that is broken off", "why_tests_cant": "which voltage comes next depends on every measurement before", "anchors": ["lib/python/moteus/moteus_tool.py: Stream.do_calibrate, calibrate_winding_resistance2, find_current_and_print, calibrate_inductance, calibrate_encoder_mapping, find_kv_cal_voltage, find_speed"]}
{"id": "C59", "title": "setting the position of the output", "statement": "--set-offset succeeds exactly when the device took the position, stored its configuration and took the position over, in this order and with nothing else sent. Firmware that does not know the command gets its raw position negated as its offset, only for position 0 and only when it is not in fault mode; for another position the action fails and sends nothing more. However a run ends, nothing is stored before the position was taken.", "quantifier": "all positions, all answers and failures of the device, all points where a run is broken off", "why_tests_cant": "every answer or failure at each request leads to another run", "anchors": ["lib/python/moteus/moteus_tool.py: Stream.do_set_offset"]}
{"id": "C60", "title": "what calibration needs before it changes anything", "statement": "Calibration sends only commands that read until the firmware is known not to be newer than the tool, the device is known to commutate from source 0 (or is too old to say), no option is given under two names, the configuration was read if it is to be left alone, and two seconds have passed. A run that succeeds had all this. Options that the tool accepts cannot always be used: with --cal-speed or --cal-voltage nothing starts, and with a voltage for the encoder (--cal-ll-encoder-voltage, --cal-power) no run succeeds, though the motor is driven first. When the inductance could not be measured, no run succeeds without --encoder-bw-hz, unless the device has no encoder filter.", "quantifier": "all options, all answers and failures of the device, all points where a run is broken off", "why_tests_cant": "which commands are sent depends on all answers before, and that no run succeeds is about all of them", "anchors": ["lib/python/moteus/moteus_tool.py: Stream.do_calibrate, find_encoder_cal_voltage, set_encoder_filter, calibrate_encoder_mapping"]}
{"id": "C61", "title": "reading telemetry", "statement": "A call of read_data sends the request for the schema of its name, the request for binary data and the request for the value, or only the last when the schema is known; a call that does not return has sent the first few of them. In a sequence of calls that return, the schema of each name is asked for once, before its first value. The value returned is that of the blob the device sent last, read with the schema it sent for this name, wherever the replies are cut, and what follows is left for later reads. Not so: that values are always asked for in binary; when the device refuses that, the call fails and the next one does not ask again.", "quantifier": "all names, all sequences of names, all answers and failures, all ways the replies are cut, any schema decoder", "why_tests_cant": "unbounded sequences of calls and all cuts of the replies", "anchors": ["lib/python/moteus/moteus.py:Stream.read_data", "lib/python/moteus/moteus.py:Stream.read_binary_blob"]}
{"id": "C62", "title": "reading a firmware file", "statement": "Of an ELF file, flashing takes the first section of each of the names .text, .ARM.extab, .ARM.exidx, .data, .ccmram and .isr_vector, each at the physical address that the first segment holding it gives it. If those sections are not empty and do not overlap, then flashing them puts each of their bytes at its physical address, and flashing that ends well has read each of them back from there. The file is refused when such a section lies in no segment. The version is what the symbol kMoteusFirmwareVersion holds, or 0x0100. Not so: that a missing section is noticed; that no byte is lost when two sections have the same physical address; that a version symbol outside its section is refused.", "quantifier": "all ELF files (as lists of segments, sections and symbols), all contents, all contents of the flash before, all answers of the device", "why_tests_cant": "unbounded files; the tests have no ELF file", "anchors": ["lib/python/moteus/moteus_tool.py:_read_elf", "lib/python/moteus/moteus_tool.py:ElfMappings.logical_to_physical", "lib/python/moteus/moteus_tool.py:Stream.do_flash", "fw/can_bootloader.cc"]}
{"id": "C63", "title": "streams read and written through threads", "statement": "The stream through which the tool's console, and on Windows the serial port, is read and written: the bytes given to write since the drain before go to the file whole and in the order of the drains; once a drain has returned, its bytes and those of all drains before it that were not cancelled have been handed over, and where none was cancelled the file has been given exactly a prefix of what was written that includes all of it up to that drain. What a read returns is the bytes that the file gave for it, in order: exactly as many as asked for, or with block=False at most as many; where reads follow one another nothing is missing between them. Not so: that the bytes of a cancelled drain are surely written, or surely not; that nothing is lost when the file takes only a part of a write; that a cancelled read leaves its bytes to the next one; that a blocking read ends at the end of the file; that a drain or a read after the file has failed ends with an error instead of waiting for ever.", "quantifier": "all schedules of the event loop and the two threads, all sequences of calls and cancellations, all answers of the file", "why_tests_cant": "unbounded interleavings of three threads of control and cancellation at every point", "anchors": ["lib/python/moteus/aiostream.py:AioStream.read", "lib/python/moteus/aiostream.py:AioStream.write", "lib/python/moteus/aiostream.py:AioStream.drain", "lib/python/moteus/win32_aioserial.py:AioSerial"]}
{"id": "C64", "title": "a query tells what the controller holds", "statement": "A query frame, or the query carried by a command, asks for exactly the registers chosen; and whatever way the controller lays out its reply to it, parse_reply returns a dictionary with exactly those registers. Each integer register has the controller's value. Each quantity asked for as a float has the controller's binary32 value, and asked for as an integer is within one count of it, plus the rounding of binary32; NaN and the infinities read as NaN; a quantity above the range of the resolution reads as the end of the range, and below it as the other end. Not so for int32: there, below the range, it reads as NaN.", "quantifier": "all queries and resolutions, all states of the controller, all orders, groupings and paddings of the reply", "why_tests_cant": "all queries times all binary32 states times all layouts of a reply", "anchors": ["lib/python/moteus/moteus.py:Controller.make_query", "lib/python/moteus/moteus.py:Controller.make_custom_query", "lib/python/moteus/moteus.py:Controller.make_position", "lib/python/moteus/moteus.py:parse_reply", "fw/moteus_controller.cc:ScaleSaturate"]}
{"id": "C65", "title": "decoding a frame by hand shows what the controller sees", "statement": "decode_can_frame.py prints every byte of a frame once and in order, and ends, for every frame. For a frame made of the documented subframes whose registers have names it prints, for each, the kind, the type, the count, the register numbers with their names, and each value with the name of the mode, the mark for not-a-number, or the quantity in its documented unit; so for a frame the controller understands, the lines tell exactly the register accesses the controller sees. Not so for registers without a name: the program then ends with ValueError. Not every quantity is shown in its unit: the registers for which it is not are listed, among them the upper bound of stay-within.", "quantifier": "all byte strings; all sequences of documented subframes", "why_tests_cant": "frames are arbitrary byte strings, of any number of subframes, with numbers in several encodings", "anchors": ["utils/decode_can_frame.py:main", "utils/decode_can_frame.py:Stream", "utils/decode_can_frame.py:format_value", "utils/decode_can_frame.py:format_reg"]}
{"id": "C66", "title": "tview shows what the controller sends, under every schedule", "statement": "For every way the stream of a controller is cut into messages, mixed with other messages, and interleaved with the task that reads it, tview has done exactly what it would do with the bytes arrived so far if they were all there from the beginning, in this order, and does all of it once the controller is polled often enough. From its start it asks for each element of the configuration and each channel of telemetry, shows each with the type and value the controller holds, and afterwards every line and every emitted value, once and in order. A line that is not text makes it drop the stream; after at most two empty answers it goes on as if just started. Not so when the controller emits a value while it answers a command, and an error in answer to 'conf data' leaves tview waiting with edits of the configuration disabled.", "quantifier": "all streams, all ways to cut them into messages, all schedules of the reading task; all configurations, channels and emitted values of a controller", "why_tests_cant": "the cuts and the schedules are unbounded and decided by the bus and the event loop", "anchors": ["utils/gui/moteus_gui/tview.py:DeviceStream", "utils/gui/moteus_gui/tview.py:Device"]}
{"id": "C67", "title": "tview serves every device, in turn, with its own bytes", "statement": "For any devices with distinct numbers, any writes of the user, any schedule of the tasks, any messages and any timeouts: the loop of tview never ends and never stands still; in every pass each device has its turn, in order. What is written to a device is sent to it and to no other, in frames of at most 61 bytes that ask for no reply, in order, without loss or repetition, 61 bytes in every pass. A device that answers is polled in every pass; after n timeouts in a row it is left out for n passes, never for more than 1000. The session of a device begins after it was told to stop its telemetry and polled five times, sees the messages of this device alone, and shows what this device sends whatever the others send.", "quantifier": "all lists of devices with distinct numbers, all sequences of user writes, task runs, messages with any identifier and content, and timeouts", "why_tests_cant": "the interleavings of tasks, messages and timeouts, and the numbers of devices, are unbounded", "anchors": ["utils/gui/moteus_gui/tview.py:TviewMainWindow._run_transport", "utils/gui/moteus_gui/tview.py:TviewMainWindow._dispatch_until", "utils/gui/moteus_gui/tview.py:DeviceStream", "utils/gui/moteus_gui/tview.py:Device.start"]}
{"id": "C68", "title": "tview does what a line of commands says, up to the next line", "statement": "A line entered in tview, made of commands separated by && with any blanks around them, does exactly what the reference describes, in order: text goes to the first device, to all devices after \"A>\", to the device with that number after a number and \">\" (to none if there is none), each as one line; \":n\" waits n milliseconds; \"?\" and \"?n\" wait for the end of a trajectory. Text that has no latin1 form ends the line. For every interleaving of entered lines, arriving telemetry and task runs, the commands of each line are done completely, or up to a wait during which another line was entered, or not at all, never mixed with those of another line. A wait for a trajectory ends only with a value that says it is done, that arrived after the wait began and was not the first such. If such values keep arriving and nothing else is entered, every line is done to its end.", "quantifier": "all devices with distinct numbers, all lines of commands, all sequences of entered lines, arriving records, gaps in telemetry and task runs", "why_tests_cant": "the lines and the interleavings of input, telemetry and tasks are unbounded", "anchors": ["utils/gui/moteus_gui/tview.py:TviewMainWindow._handle_user_input", "utils/gui/moteus_gui/tview.py:TviewMainWindow._run_user_command_line", "utils/gui/moteus_gui/tview.py:TviewMainWindow._run_user_command", "utils/gui/moteus_gui/tview.py:TviewMainWindow._wait_user_query", "utils/gui/moteus_gui/tview.py:Device.wait_for_data"]}
{"id": "C69", "title": "The trees of tview show what the controller sent, and an edit sets the parameter it was made to", "statement": "For every type a controller can describe without keywords of Python as field names, and every value of it, the configuration tree has one row for each single value, under the names of the fields and indices that lead to it, with the text of the value: decimal numbers, True and False, name and number of an enum. Rows of telemetry do the same for the last packet of every sequence of packets in which no array becomes shorter (in particular if all have a fixed size), with hexadecimal numbers exactly in the rows the user last set to them. No two rows of the configuration have the same name. Entering the text of a row again sends conf set with the name of this row and its value as a number; the choices offered for an enum are its values, each once, and a choice sends its number; other text is sent as entered, and nothing while tview fills the tree. For a controller without schemas, the tree shows the last value of each key, and entering it again sends back the line of the controller. A shorter array leaves old rows and an IndexError; a field named like a keyword stops the update with an AttributeError (refuted).", "quantifier": "all schemas, all values of them, all sequences of packets and format changes, all lines of a configuration, all texts entered", "why_tests_cant": "the schemas, values and lines are unbounded and nested", "anchors": ["utils/gui/moteus_gui/tview.py:_add_schema_item", "utils/gui/moteus_gui/tview.py:_set_tree_widget_data", "utils/gui/moteus_gui/tview.py:EditDelegate", "utils/gui/moteus_gui/tview.py:_get_item_name", "utils/gui/moteus_gui/tview.py:Device.config_item_changed", "utils/gui/moteus_gui/tview.py:Device.add_config_line", "utils/gui/moteus_gui/tview.py:TviewMainWindow._handle_config_item_changed"]}
{"id": "C70", "title": "A plot of tview shows the values it was asked for", "statement": "For every sequence of packets, plots added, plots removed, pauses and changes of the window, a plot of a single value below a record gets exactly one sample for each packet that arrives while the plot is there and tview is not paused: the value at that place, or the deviation or mean of the values there in the last 100 packets. What it shows is the end of these samples; only samples before the window are taken away, and with a clock that does not go back and a constant window it shows all samples in the window and at most two before it. No packet that has all plotted values leads to an exception, and plots do not affect each other. Not true: that at most one sample before the window is left, as a comment says; that a plot can be removed before its first sample; that a packet without a plotted value leaves the other plots alone; that a name which contains the mark of deviations can be plotted as one.", "quantifier": "all record types, all sequences of packets and user actions, all clocks", "why_tests_cant": "histories and the interleaving of user actions and packets are unbounded", "anchors": ["utils/gui/moteus_gui/tview.py:_get_data", "utils/gui/moteus_gui/tview.py:RecordSignal", "utils/gui/moteus_gui/tview.py:PlotItem", "utils/gui/moteus_gui/tview.py:Record", "utils/gui/moteus_gui/tview.py:TviewMainWindow._handle_telemetry_context_menu", "utils/gui/moteus_gui/tview.py:TviewMainWindow._handle_plot_item_remove"]}
{"id": "C71", "title": "The compensation of cogging torque is what was recorded, within one step", "statement": "For every device and every set of options: a run of compensate_cogging.py that ends well has sent exactly the documented sequence of commands; what it saves are the values of the histograms in order, the first half for one direction and the second for the other; each of the 1024 entries is the mean of an equal share of both directions; what is stored, times the stored scale, is within one step of that mean and fits 8 bits, and the greatest entry uses the range. Such a run leaves the position limits as they were and the motor stopped. Without --store no run, however it ends, changes a parameter of the motor or writes the configuration. Recordings of equal length of 1024 values or more always have an average; shorter or unequal ones never. Nothing is recorded unless the device said that the commutating encoder is active and of a type that can be compensated. Not true: that a run which gives up restores the limits; that a failed run leaves the motor stopped; that a motor without cogging can be stored; that tiny values fit.", "quantifier": "all devices and their answers, all options, all recordings, all ways to sum and to print numbers", "why_tests_cant": "recordings, answers and points of failure are unbounded, and the rounding error must be bounded for all floating point values", "anchors": ["utils/compensate_cogging.py:main", "utils/compensate_cogging.py:read_data", "utils/histogram.py:capture_histogram", "utils/histogram.py:read_config_double", "utils/histogram.py:can_compensate_encoder"]}
{"id": "C72", "title": "The compensation of an encoder is what was measured, and the device is left as it was otherwise", "statement": "For every device and every set of options: a run of compensate_encoder.py that ends well has sent exactly the documented sequence of commands; each new entry is less the measured deviation, or the entry as it was less a part of it, and what is stored times the stored scale is within one step of it. --zero sends zeros for each entry listed, and nothing else but the configuration. Once both position limits are off, every run that ends, however it ends, has put back the values it was told and stopped the motor, or ended because a request to do so failed. With --analyze, or with --no-store and no reference, no run changes a parameter of the motor or of its encoders or writes the configuration. In exact numbers: the deviation changes between places by the mean excess of speed, ends after a turn where it began, is zero on average, and is zero for a constant speed; with a reference it is the difference to the reference less the mean difference. With a reference, what is stored comes from the readings after the initial time, of a motor without fault, until the time for all revolutions is over. No encoder is measured unless the device said that it is active and of a type that can be compensated. The remainder is computed on floats without rounding. Not true: that --no-store with a reference writes nothing; that an encoder without deviation can be stored; that a refused limit leaves the other as it was; that a lost link leaves the motor stopped; that differences around zero are averaged to zero.", "quantifier": "all devices and their answers, all options, all recordings of any length, all ways to sum, sample and print numbers", "why_tests_cant": "recordings, answers and points of failure are unbounded, and the closing of the integral and the rounding error must hold for all values", "anchors": ["utils/compensate_encoder.py:main", "utils/compensate_encoder.py:run_inertial_compensation", "utils/compensate_encoder.py:run_reference_compensation", "utils/compensate_encoder.py:integrate", "utils/compensate_encoder.py:parse_config", "utils/compensate_encoder.py:find_compensation_size", "utils/compensate_encoder.py:wrap_half", "utils/compensate_encoder.py:wrap_zero_one"]}
{"id": "C73", "title": "A clock kept at the time of the host counts what the device counted, settles, and leaves a device on time alone", "statement": "For every history of calls of ServoClock.update_second (examples/synchronized_movement.py): the difference of two counts is given exactly when the counter went on by at most 100 s; after calls that all were answered and ended well, the clock counts from the first of them or from the last one before which the counter did not go on, and the error shown is what the device counted since then more than the host. A trim is sent only when not only measuring and when the counter went on, and it changes the rate, within half a step, to the rate that removes the error in 5 s. A device that keeps the time of the host and always answers gets the trim it has. A device that obeys the trim up to eps is brought, by a fixed factor per call, to within 5*(0.00125+eps) s. Waiting for an event returns only right after the condition held on data just asked for, raises once the time is over, asks for nothing but the time then, sleeps until each next hundredth of a second, and updates the clocks only when a second is over. Not true: that a count that wraps around is measured; that one lost answer leaves the error right; that waiting works without a time limit, which is the default; that the clocks are updated at most once a second.", "quantifier": "all histories of answers, lost answers, failures and times, all devices, all arithmetic of numbers (exact numbers for the error and the settling)", "why_tests_cant": "the settling is over unboundedly many calls, the wrap around of the counter takes 25 days, and answers can be lost at any call", "anchors": ["lib/python/examples/synchronized_movement.py:_calculate_ms_delta", "lib/python/examples/synchronized_movement.py:ServoClock.update_second", "lib/python/examples/synchronized_movement.py:Poller.wait_for_event"]}
{"id": "C74", "title": "The search for the bias current trim ends with the best value measured, and the motor's poles and limits are put back", "statement": "Of utils/measure_ma732_bct.py: when every measurement succeeds, the search tries the coarse grid from -248 to 248, then the fine grid between the neighbours of the best value, and ends with the value of the fine grid that measured least, the lower one of equals. Once the limits are switched off, however the search ends, a stop is sent first and then, unless one of these requests fails, the poles and limits read at the start are put back. A run that ends well stores a value that was measured, with its axis, puts the poles and limits back and writes the configuration last. The voltage is the first of 0.01, 0.011, ... at which the measured power is more than asked for, and each test ends with a stop. Not true: that the value stored is the best of all values measured; that it is the amount that was tried (a negative one is stored with its sign); that a measurement without finite values never makes the program fail; that the poles are put back when switching off a limit fails; that the bias current trim is put back when the search fails; that the number of voltage tests is bounded.", "quantifier": "all answers and failures of the device at every request, all measured values, all orders of metrics, all powers and forced voltages", "why_tests_cant": "any of the requests can fail or break off, the measured values are arbitrary, and the growth of the voltage has no bound", "anchors": ["utils/measure_ma732_bct.py:Searcher", "utils/measure_ma732_bct.py:BctDetector.run", "utils/measure_ma732_bct.py:BctDetector.find_open_loop_voltage", "utils/measure_ma732_bct.py:BctDetector.find_best_bct"]}
