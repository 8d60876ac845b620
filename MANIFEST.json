{
 "claims": [
  {
   "property": "C01",
   "status": "proved",
   "theorems": [
    "C01_checksum_is_the_protocol_crc",
    "C01_table_index_in_bounds"
   ],
   "note": "The checksum is characterised as the remainder of the polynomial division."
  },
  {
   "property": "C02",
   "status": "proved",
   "theorems": [
    "C02_checksum_piecewise"
   ],
   "note": ""
  },
  {
   "property": "C03",
   "status": "proved",
   "theorems": [
    "C03_detects_odd_number_of_flips",
    "C03_detects_two_flips",
    "C03_detects_bursts",
    "C03_two_flips_bound_is_exact",
    "C03_exactly_overlooked",
    "C03_two_flips_exactly",
    "C03_bursts_of_17"
   ],
   "note": ""
  },
  {
   "property": "C04",
   "status": "partial",
   "theorems": [
    "C04_stuffing_refuted",
    "C04_stuffing_partial"
   ],
   "note": "False as stated: parameters FF FF FF FD go out unstuffed. Proved: the exact condition (length of FF runs before FD) under which the body is as prescribed."
  },
  {
   "property": "C05",
   "status": "partial",
   "theorems": [
    "C05_no_header_in_body_refuted",
    "C05_no_header_in_body_partial",
    "C05_exactly_when_header_in_body"
   ],
   "note": "False as stated: parameters FF FF FF FD 00. Proved under the condition of C04, and the exact condition: which headers in the data go out as they are."
  },
  {
   "property": "C06",
   "status": "partial",
   "theorems": [
    "C06_unstuff_stuff_refuted",
    "C06_unstuff_stuff_partial",
    "C06_misses_first_suffices",
    "C06_runs_ok_suffices",
    "C06_short_suffices",
    "C06_short_sharp"
   ],
   "note": "False as stated: FF FF FD 00 FF FF FF FD. Proved: the exact condition (which patterns go out bare, and which of them the receiver counts), and two simpler sufficient ones; any data of up to seven bytes (eight can fail)."
  },
  {
   "property": "C07",
   "status": "partial",
   "theorems": [
    "C07_conforming_peer_refuted",
    "C07_conforming_peer_partial"
   ],
   "note": "False as stated. Proved: a conforming packet is always read, and its data is right exactly when the FF runs are of recognised lengths."
  },
  {
   "property": "C08",
   "status": "partial",
   "theorems": [
    "C08_packet_on_wire_refuted",
    "C08_packet_on_wire_partial",
    "C08_every_call_writes_packets"
   ],
   "note": "False as stated (C04, C10). Proved: the exact condition, and what is sent otherwise."
  },
  {
   "property": "C09",
   "status": "partial",
   "theorems": [
    "C09_no_panic_refuted",
    "C09_outcome_partial",
    "C09_enough_room_never_panics"
   ],
   "note": "False as stated: a write buffer with room for the stuffed data but not the CRC makes the call panic. Proved: the exact outcome for all data whose packet fits the 16-bit length field; no panic when there is room for the worst case."
  },
  {
   "property": "C10",
   "status": "partial",
   "theorems": [
    "C10_length_field_refuted",
    "C10_length_field_modulo",
    "C10_length_field_partial"
   ],
   "note": "False as stated for packets over 65535 bytes, in debug and release builds. Proved modulo 2^16, and exactly for write buffers up to 65542 bytes."
  },
  {
   "property": "C11",
   "status": "proved",
   "theorems": [
    "C11_as_if_not_called",
    "C11_status_as_if_not_called",
    "C11_rejected_write_changes_nothing",
    "C11_rejected_status_changes_nothing"
   ],
   "note": ""
  },
  {
   "property": "C12",
   "status": "proved",
   "theorems": [
    "C12_discard_once_before_write",
    "C12_port_failure_decides",
    "C12_every_call"
   ],
   "note": ""
  },
  {
   "property": "C13",
   "status": "proved",
   "theorems": [
    "C13_stale_input_dropped"
   ],
   "note": ""
  },
  {
   "property": "C14",
   "status": "proved",
   "theorems": [
    "C14_bookkeeping",
    "C14_sizes_never_change"
   ],
   "note": ""
  },
  {
   "property": "C15",
   "status": "proved",
   "theorems": [
    "C15_never_reads_into_empty_buffer",
    "C15_reads_fit_the_buffer"
   ],
   "note": ""
  },
  {
   "property": "C16",
   "status": "partial",
   "theorems": [
    "C16_read_never_panics_refuted",
    "C16_exactly_when_read_panics",
    "C16_exactly_when_status_read_panics",
    "C16_exactly_when_device_read_panics"
   ],
   "note": "False as stated: a message with length field 2 and valid CRC. Proved: the exact set of inputs on which reading panics."
  },
  {
   "property": "C17",
   "status": "proved",
   "theorems": [
    "C17_chunking_does_not_matter",
    "C17_scripts"
   ],
   "note": ""
  },
  {
   "property": "C18",
   "status": "partial",
   "theorems": [
    "C18_write_then_read_refuted",
    "C18_write_then_read_partial",
    "C18_accessors",
    "C18_short_messages"
   ],
   "note": "False as stated (C06). Proved: the packet is always read, and is the one written exactly under the condition of C06. Messages with up to seven bytes of parameters always arrive unchanged."
  },
  {
   "property": "C19",
   "status": "proved",
   "theorems": [
    "C19_back_to_back"
   ],
   "note": ""
  },
  {
   "property": "C20",
   "status": "proved",
   "theorems": [
    "C20_io_error_loses_nothing",
    "C20_interrupted_packet_arrives"
   ],
   "note": ""
  },
  {
   "property": "C21",
   "status": "proved",
   "theorems": [
    "C21_bad_checksum_skipped"
   ],
   "note": ""
  },
  {
   "property": "C22",
   "status": "proved",
   "theorems": [
    "C22_corruption_detected",
    "C22_exactly_overlooked",
    "C22_burst_into_checksum"
   ],
   "note": ""
  },
  {
   "property": "C23",
   "status": "proved",
   "theorems": [
    "C23_oversized",
    "C23_reading_resumes",
    "C23_header_alone_waits"
   ],
   "note": ""
  },
  {
   "property": "C24",
   "status": "proved",
   "theorems": [
    "C24_garbage_does_not_matter",
    "C24_split_exists",
    "C24_only_garbage_dropped",
    "C24_only_packet_consumed"
   ],
   "note": ""
  },
  {
   "property": "C25",
   "status": "proved",
   "theorems": [
    "C25_transfer_single",
    "C25_transfer_single_outcome",
    "C25_ping",
    "C25_ping_outcome",
    "C25_read_bytes",
    "C25_read_bytes_outcome",
    "C25_read",
    "C25_read_outcome"
   ],
   "note": ""
  },
  {
   "property": "C26",
   "status": "partial",
   "theorems": [
    "C26_acknowledged_refuted",
    "C26_acknowledged_partial",
    "C26_acknowledged_outcome"
   ],
   "note": "False as stated: the status packet of any motor is accepted as the acknowledgement (the response does carry that motor's id). Proved: the call succeeds only with a packet without error and without parameters, and the exact outcome for every answer."
  },
  {
   "property": "C27",
   "status": "proved",
   "theorems": [
    "C27_broadcast"
   ],
   "note": ""
  },
  {
   "property": "C28",
   "status": "proved",
   "theorems": [
    "C28_error_and_alert",
    "C28_client_reports",
    "C28_no_false_motor_error"
   ],
   "note": ""
  },
  {
   "property": "C29",
   "status": "partial",
   "theorems": [
    "C29_parameters_on_the_wire",
    "C29_clear_error_refuted",
    "C29_clear_error_partial"
   ],
   "note": "False for clear_error: it sends 01 45 52 43 4C, the protocol prescribes 02 45 52 43 4C. Proved for every other instruction, and the bytes clear_error sends."
  },
  {
   "property": "C30",
   "status": "partial",
   "theorems": [
    "C30_reg_write_refuted",
    "C30_one_byte_partial",
    "C30_wider_always_fails"
   ],
   "note": "False as stated: reg_write always announces one byte of data. Proved for one-byte types; every wider type always fails without sending anything."
  },
  {
   "property": "C31",
   "status": "partial",
   "theorems": [
    "C31_sync_write_refuted",
    "C31_one_byte_partial",
    "C31_wider_always_fails"
   ],
   "note": "False as stated: sync_write always announces one byte per motor. Proved for one-byte types; every wider type always fails without sending anything."
  },
  {
   "property": "C32",
   "status": "partial",
   "theorems": [
    "C32_bulk_read",
    "C32_bulk_write_refuted",
    "C32_bulk_write_too_much_data",
    "C32_bulk_write_partial"
   ],
   "note": "False for bulk_write: duplicate motors are not checked. Proved for bulk_read, for oversized data, and that bulk_write does not panic otherwise."
  },
  {
   "property": "C33",
   "status": "proved",
   "theorems": [
    "C33_sync_read_bytes_item",
    "C33_sync_read_item",
    "C33_bulk_read_item",
    "C33_sync_read_bytes",
    "C33_sync_read",
    "C33_bulk_read",
    "C33_sync_read_bytes_outcome",
    "C33_sync_read_outcome",
    "C33_bulk_read_outcome",
    "C33_size_hint_bytes",
    "C33_size_hint",
    "C33_size_hint_bulk"
   ],
   "note": ""
  },
  {
   "property": "C34",
   "status": "proved",
   "theorems": [
    "C34_sync_read_bytes",
    "C34_sync_read",
    "C34_bulk_read",
    "C34_line_is_drained_sync_bytes",
    "C34_line_is_drained_sync",
    "C34_line_is_drained_bulk"
   ],
   "note": ""
  },
  {
   "property": "C35",
   "status": "partial",
   "theorems": [
    "C35_ends_at_timeout",
    "C35_timeout_is_never_an_item",
    "C35_item",
    "C35_complete_scan",
    "C35_drop_reads_up_to_timeout",
    "C35_drop_ends_partial",
    "C35_drop_ends_refuted",
    "C35_small_buffer_never_ends",
    "C35_errors_do_not_end_it"
   ],
   "note": "False as stated: with a read buffer under 10 bytes the drop of a scan never ends. Proved: it ends otherwise (for every finite port script), and what a scan reports."
  },
  {
   "property": "C36",
   "status": "proved",
   "theorems": [
    "C36_representation",
    "C36_encode",
    "C36_too_small",
    "C36_round_trip",
    "C36_decode_encode"
   ],
   "note": ""
  },
  {
   "property": "C37",
   "status": "partial",
   "theorems": [
    "C37_refuted",
    "C37_numbers_partial",
    "C37_array_ignores_rest",
    "C37_short_array_panics"
   ],
   "note": "False for arrays: short buffers panic, longer ones are accepted. Proved for integers, and exactly what happens for arrays."
  },
  {
   "property": "C38",
   "status": "partial",
   "theorems": [
    "C38_refuted",
    "C38_failed_decode_partial",
    "C38_successful_decode_drops_everything"
   ],
   "note": "False as stated: a successful decode also drops the elements it returns. Proved: the failure case, and that on success every element is dropped once too often."
  },
  {
   "property": "C39",
   "status": "proved",
   "theorems": [
    "C39_transfer_time",
    "C39_monotone",
    "C39_faster_line"
   ],
   "note": "Stated as: the shortest whole number of nanoseconds in which the bytes can pass the line."
  },
  {
   "property": "C40",
   "status": "partial",
   "theorems": [
    "C40_exact",
    "C40_scan_exact",
    "C40_timeout_refuted",
    "C40_timeout_partial",
    "C40_stuffing_uses_up_allowance",
    "C40_instant_answer_times_out",
    "C40_scan_timeout"
   ],
   "note": "False as stated: stuffing bytes in the response are not accounted for (at 9600 baud even an instant answer can time out). Proved for responses without stuffing, how much stuffing the 34 ms allowance absorbs, the scan timeout, and that the timeouts are exactly these."
  },
  {
   "property": "C41",
   "status": "proved",
   "theorems": [
    "C41_status_response_timeout",
    "C41_status_response",
    "C41_device_read"
   ],
   "note": ""
  },
  {
   "property": "C42",
   "status": "proved",
   "theorems": [
    "C42_returns_the_instruction",
    "C42_reports_errors",
    "C42_only_instructions"
   ],
   "note": ""
  },
  {
   "property": "C43",
   "status": "partial",
   "theorems": [
    "C43_understood_partial",
    "C43_understood_exactly",
    "C43_understood_refuted",
    "C43_clear_error_refuted",
    "C43_clear_error_misread",
    "C43_short_instructions"
   ],
   "note": "False for data with unrecognised FF runs (C04) and for clear_error. Proved under the condition of C06 for every other instruction; clear_error is always read as clearing the revolution counter. Instructions with up to seven bytes of parameters are always understood."
  },
  {
   "property": "C44",
   "status": "proved",
   "theorems": [
    "C44_malformed_rejected",
    "C44_meaning_is_unique"
   ],
   "note": ""
  },
  {
   "property": "C45",
   "status": "partial",
   "theorems": [
    "C45_read_owned_refuted",
    "C45_read_owned_exactly"
   ],
   "note": "False as stated: BulkWrite becomes BulkRead. Proved: that is the only difference."
  },
  {
   "property": "C46",
   "status": "partial",
   "theorems": [
    "C46_status_arrives_refuted",
    "C46_status_arrives_partial",
    "C46_short_answers"
   ],
   "note": "False as stated (C06). Proved: motor errors always arrive, and the parameters are right exactly under the condition of C06. Up to seven bytes of parameters always arrive unchanged."
  },
  {
   "property": "C47",
   "status": "proved",
   "theorems": [
    "C47_at_most_once",
    "C47_one_gets_it",
    "C47_panic_only_after_another",
    "C47_never_waits"
   ],
   "note": ""
  },
  {
   "property": "C48",
   "status": "proved",
   "theorems": [
    "C48_rate_follows_port",
    "C48_rate_is_last_accepted",
    "C48_later_timeouts",
    "C48_set_baud_rate"
   ],
   "note": ""
  },
  {
   "property": "C49",
   "status": "proved",
   "theorems": [
    "C49_construction",
    "C49_default_buffers",
    "C49_small_read_buffer"
   ],
   "note": ""
  },
  {
   "property": "C50",
   "status": "proved",
   "theorems": [
    "C50_accepted",
    "C50_raw_id",
    "C50_reads_reject_broadcast"
   ],
   "note": "A leading plus sign and leading zeros are accepted too; the theorem says exactly what is accepted."
  },
  {
   "property": "C51",
   "status": "partial",
   "theorems": [
    "C51_leftovers_refuted",
    "C51_history_has_no_effect",
    "C51_every_program_runs",
    "C51_crate_types"
   ],
   "note": "False as stated: reg_write of an empty array sends a stale byte of the write buffer. Proved for all other calls, including closures and Data implementations of the user that do not look at the old bytes."
  },
  {
   "property": "C52",
   "status": "partial",
   "theorems": [
    "C52_finished_scan_refuted",
    "C52_drop_waits_again",
    "C52_drop_only_listens_partial"
   ],
   "note": "False: the drop always waits for the whole timeout of a scan again, and discards what arrives. Proved: exactly that, and that it does nothing but listen."
  },
  {
   "property": "C53",
   "status": "proved",
   "theorems": [
    "C53_command_sends",
    "C53_reading_reports",
    "C53_changing_reports",
    "C53_scan_reports"
   ],
   "note": "Acknowledgements may come from another motor (C26). Responses to a broadcast ping that arrive after the first timeout are read and thrown away (C52)."
  },
  {
   "property": "C54",
   "status": "partial",
   "theorems": [
    "C54_remote_memory_refuted",
    "C54_remote_memory_partial",
    "C54_sync_write_refuted",
    "C54_sessions_exist",
    "C54_short_operations"
   ],
   "note": "False as stated because of the byte stuffing (finding 1), and for synchronous writes because the simulated motor searches its id among all bytes. Proved when the messages miss the overlooked pattern and no data byte of a synchronous write equals a motor's id; bulk and synchronous reads are not part of the operations (the simulated motor cannot follow the answers of earlier motors). Existence of such executions is proved. Without condition for operations that write up to five and read up to seven bytes."
  },
  {
   "property": "C55",
   "status": "partial",
   "theorems": [
    "C55_write_then_read_refuted",
    "C55_write_then_read_partial",
    "C55_registered_write_waits_partial",
    "C55_others_untouched_partial",
    "C55_broadcast_reaches_all_partial",
    "C55_scan_during_a_session_partial",
    "C55_short_write_then_read",
    "C55_short_registered_write",
    "C55_short_others_untouched",
    "C55_short_broadcast"
   ],
   "note": "False without the condition of C54 on the messages (no pattern overlooked by the byte stuffing), proved under it. Without that condition when at most five bytes are written and at most seven read."
  },
  {
   "property": "C56",
   "status": "partial",
   "theorems": [
    "C56_value_round_trip_refuted",
    "C56_value_read_partial",
    "C56_value_round_trip_partial",
    "C56_short_values"
   ],
   "note": "False without the condition of C54 on the messages (no pattern overlooked by the byte stuffing), proved under it; without condition for values of up to five bytes."
  },
  {
   "property": "C57",
   "status": "proved",
   "theorems": [
    "C57_call_duration",
    "C57_reads_are_bounded",
    "C57_status_response",
    "C57_single_motor",
    "C57_sync_read_bytes",
    "C57_sync_read",
    "C57_bulk_read"
   ],
   "note": "The behaviour of the operating system and of the crate serial2 is a hypothesis (punctual)."
  },
  {
   "property": "C58",
   "status": "proved",
   "theorems": [
    "C58_wrong_length",
    "C58_right_length"
   ],
   "note": ""
  },
  {
   "property": "C59",
   "status": "partial",
   "theorems": [
    "C59_profiles_agree_refuted",
    "C59_profiles_agree_partial",
    "C59_only_overflow_differs",
    "C59_programs",
    "C59_exactly_for_messages"
   ],
   "note": "False as stated for packets too long for the length field (finding 3): a debug build panics, a release build sends them. Proved: the same behaviour with write buffers up to 65540 bytes, and that such a panic is the only difference otherwise. For sending a message the difference is characterised exactly."
  },
  {
   "property": "C60",
   "status": "proved",
   "theorems": [
    "C60_larger_buffers_only_help",
    "C60_listening",
    "C60_enough_room"
   ],
   "note": ""
  },
  {
   "property": "C61",
   "status": "proved",
   "theorems": [
    "C61_scan_finds_the_motors",
    "C61_scans_exist"
   ],
   "note": "Stated with the simulated motors of the integration tests, which answer one after the other in the order of the list; on a real bus the order is given by the ids. The condition 'every buffer has 16 bytes or more' is part of connected."
  },
  {
   "property": "C62",
   "status": "proved",
   "theorems": [
    "C62_write_error",
    "C62_invalid_message",
    "C62_read_error",
    "C62_transfer_error",
    "C62_says",
    "C62_small_buffer",
    "C62_expected_count",
    "C62_read_lines"
   ],
   "note": "core::fmt is modelled (digits, widths), not part of the repository. The error of the serial port is printed by its own Display, a parameter assumed injective."
  },
  {
   "property": "C63",
   "status": "partial",
   "theorems": [
    "C63_actual_size_refuted",
    "C63_needed_size_refuted",
    "C63_write_sizes_exact",
    "C63_write_sizes_partial",
    "C63_read_sizes",
    "C63_needed_size_suffices"
   ],
   "note": "False for writes of data that needs stuffing. Proved: the exact sizes reported in every case, and that they are right for all other writes and for reads."
  },
  {
   "property": "C64",
   "status": "partial",
   "theorems": [
    "C64_write_unchanged",
    "C64_read_unchanged",
    "C64_transfer_unchanged",
    "C64_scan_unchanged",
    "C64_write",
    "C64_read",
    "C64_garbage_refuted",
    "C64_garbage_partial",
    "C64_garbage_late",
    "C64_session",
    "C64_transfer",
    "C64_texts",
    "C64_scan_timeout"
   ],
   "note": "False for the bytes shown as skipped garbage when the previous read returned a packet (the log shows that packet's bytes). Everything else is proved, also their number."
  },
  {
   "property": "C65",
   "status": "proved",
   "theorems": [
    "C65_same",
    "C65_main_same",
    "C65_outcome",
    "C65_refused",
    "C65_exit",
    "C65_open",
    "C65_shown",
    "C65_marked",
    "C65_announced",
    "C65_told",
    "C65_scan_told",
    "C65_unambiguous",
    "C65_scan_unambiguous"
   ],
   "note": "Proved for the lines given to the log macros; the text of a time and of an I/O error are parameters."
  },
  {
   "property": "C66",
   "status": "partial",
   "theorems": [
    "C66_confined_refuted",
    "C66_sync_read_bytes_partial",
    "C66_sync_read_partial",
    "C66_bulk_read_partial",
    "C66_lost_sync_read_bytes",
    "C66_lost_sync_read",
    "C66_lost_bulk_read"
   ],
   "note": "False as stated: if the answer of a motor is missing and the next motor answers at once, every item from the missing motor on is an error (proved in general). Proved for errors, damaged, foreign and wrong answers and for timeouts; an answer that breaks off can also take the next with it."
  },
  {
   "property": "C67",
   "status": "partial",
   "theorems": [
    "C67_finds_back_refuted",
    "C67_finds_back_partial",
    "C67_second_header",
    "C67_never_finds_back",
    "C67_never_finds_back_pauses"
   ],
   "note": "False as stated: packets that end in FF FF FD 00 (the last two bytes are the CRC) can keep the reader out of step for ever. Proved for packets without a second header, and that these are exactly the packets (under 65024 bytes) that end in one."
  },
  {
   "property": "C68",
   "status": "partial",
   "theorems": [
    "C68_takes_turns_refuted",
    "C68_only_first_sync_partial",
    "C68_only_first_bulk_partial",
    "C68_deaf",
    "C68_waits_forever"
   ],
   "note": "False as stated: a device cannot see the answers of other devices (Device::read drops status packets), so only the first motor of the list ever answers. Proved: exactly that, with a timeout for each other motor."
  },
  {
   "property": "C69",
   "status": "partial",
   "theorems": [
    "C69_unambiguous",
    "C69_remote_control_refuted",
    "C69_clear_error_reaches_nobody",
    "C69_remote_control_partial",
    "C69_possible",
    "C69_session_partial"
   ],
   "note": "False as stated: a write of FF FF FF FD FD stores FF FF FF FD in a motor that follows the protocol while the client reports success (finding 1), and clear_error reaches no motor (finding 6). Proved for all other calls whose message has no ill-stuffed run of FF bytes, for any behaviour of the motors, single calls and sessions; and that what goes over the line means at most one thing."
  },
  {
   "property": "C70",
   "status": "partial",
   "theorems": [
    "C70_bookkeeping",
    "C70_contents_have_no_effect",
    "C70_panic_while_writing",
    "C70_panic_while_answering",
    "C70_panic_while_reading",
    "C70_panic_of_a_device",
    "C70_still_in_control",
    "C70_unwinding_refuted",
    "C70_unwinding_sync_partial",
    "C70_unwinding_bulk_partial",
    "C70_unwinding_scan_partial",
    "C70_unwinding_typed_refuted",
    "C70_unwinding_typed_partial"
   ],
   "note": "All of it proved except that the panic can always be caught: if next of a sync or bulk read or a scan panics on a malformed message, the iterator is dropped during unwinding and reads on; a second such message makes it panic again, which aborts the process. Proved that this is so only if there is another such message on the line (for a typed sync read: or if the decode function of the user panics for another answer)."
  },
  {
   "property": "C71",
   "status": "proved",
   "theorems": [
    "C71_memory_safe",
    "C71_no_array_no_leak",
    "C71_array_complete",
    "C71_decodable_unique"
   ],
   "note": "Proved. (That a successful decode also drops the elements it returns is C38.)"
  },
  {
   "property": "C72",
   "status": "partial",
   "theorems": [
    "C72_any_timeout_refuted",
    "C72_exactly",
    "C72_own_timeouts_fit",
    "C72_scan_timeouts_fit",
    "C72_linux"
   ],
   "note": "False as stated: Duration::MAX (every sum beyond the last representable Instant) makes make_deadline panic. Proved: exactly when, and that the timeouts the crate computes never do."
  },
  {
   "property": "C73",
   "status": "partial",
   "theorems": [
    "C73_read",
    "C73_sync_read",
    "C73_sync_read_next",
    "C73_sync_read_drop_refuted",
    "C73_sync_read_drop_partial",
    "C73_crate_types_decode",
    "C73_write",
    "C73_crate_types_encode",
    "C73_reg_write_refuted",
    "C73_reg_write_one_byte_partial",
    "C73_sync_write_refuted",
    "C73_sync_write_one_byte_partial"
   ],
   "note": "Proved for read, write and iterating a sync_read. False for reg_write and sync_write of types that are not one byte long, and for dropping a sync_read whose decoder may panic; proved for one-byte types and for decoders that do not panic, in particular those of the crate."
  },
  {
   "property": "C74",
   "status": "partial",
   "theorems": [
    "C74_reaches_all_refuted",
    "C74_sent_partial",
    "C74_first_motor_partial",
    "C74_unnamed_motor_stops"
   ],
   "note": "False: the loop in which the simulated motor looks for its entry advances by the length of the data only, so only the motor of the first entry is written, and a motor that is not mentioned panics or hangs. Proved: the client has sent the message, the first motor obeys, what becomes of motors whose id does not occur."
  },
  {
   "property": "C75",
   "status": "proved",
   "theorems": [
    "C75_answer",
    "C75_sync_read_bytes",
    "C75_sync_read",
    "C75_bulk_read",
    "C75_scan",
    "C75_device"
   ],
   "note": "Proved for every call that waits for one answer (typed reg_write apart), sync and bulk reads, scans and devices. The echo costs the call its answer: the crate offers no way to skip an echo."
  },
  {
   "property": "C76",
   "status": "partial",
   "theorems": [
    "C76_own_answer_refuted",
    "C76_own_answer_partial",
    "C76_race_refuted",
    "C76_first_after_discard",
    "C76_shifted",
    "C76_backlog",
    "C76_same_motor",
    "C76_same_read_heals",
    "C76_any_call"
   ],
   "note": "False on a port whose discard_input_buffer is a no-op (which the trait documentation allows): one late answer shifts the answers of all later calls, and with a fixed motor and length every call succeeds with the previous value. Also false for an answer that arrives while the next call is transmitting. Proved: with a working discard each call reports the first status packet after its discard; without one the exact shift, for any number of calls; when it ends (for read_bytes); every other call that waits for one answer likewise takes the late one and leaves its own."
  },
  {
   "property": "C77",
   "status": "partial",
   "theorems": [
    "C77_delivery",
    "C77_same_order_refuted",
    "C77_same_order_partial",
    "C77_never_stuck",
    "C77_panic_cause",
    "C77_panic_spreads",
    "C77_same_id"
   ],
   "note": "False for the common order when two endpoints write at the same time (proved otherwise, with the order of the writes). The rest is proved. A read into too small a buffer panics with the mutex locked, after which every write of another endpoint panics."
  },
  {
   "property": "C78",
   "status": "partial",
   "theorems": [
    "C78_threads_agree_partial",
    "C78_impatient_client_refuted",
    "C78_for_all_motors_refuted",
    "C78_no_deadlock_partial",
    "C78_room_for_answers_partial",
    "C78_room_for_motors_refuted",
    "C78_scan",
    "C78_patient_client",
    "C78_patient_no_deadlock",
    "C78_room_for_scan_refuted"
   ],
   "note": "Proved for calls for one motor and sync writes, with a client that waits as long as it takes (motors may time out). False if the client gives up: on the test bus, where discard_input_buffer does nothing, a late answer passes for the answer to a later call. Also false: a slow motor may find more bytes waiting than fit, which panics (C77). False for writes to all motors, which the simulated motors acknowledge. A scan on its own is covered with arbitrary timeouts. Sequences that mix scans, sync writes and calls for motors that may be missing are covered for a client that gives up only when nothing goes on any more. The answers to a scan need not fit in the client's buffer (refuted)."
  },
  {
   "property": "C79",
   "status": "partial",
   "theorems": [
    "C79_conversions",
    "C79_conversions_commute",
    "C79_checks",
    "C79_header_check_refuted",
    "C79_header_check_partial"
   ],
   "note": "InvalidHeaderPrefix::check panics when the slice differs from the prefix and has fewer than four bytes (the crate itself does not call it); everything else is proved."
  },
  {
   "property": "C80",
   "status": "proved",
   "theorems": [
    "C80_orderly",
    "C80_read",
    "C80_as_delivered",
    "C80_honest",
    "C80_overrun",
    "C80_recovers"
   ],
   "note": "The read function with a port that fills in some bytes and reports any count (FaultyPort.v: its own model of the loop, with the overflow of read_len; the rest shared with Bus.v). Counts that overflow usize: only the bookkeeping theorem (C80_read) applies. The other functions read only through this one."
  },
  {
   "property": "C81",
   "status": "proved",
   "theorems": [
    "C81_no_panics",
    "C81_never",
    "C81_crate_types",
    "C81_conditions_needed",
    "C81_exactly_when_giving_up_panics",
    "C81_exactly_when_giving_up_a_scan_panics",
    "C81_exactly_when_sending_panics",
    "C81_exactly_when_a_message_goes_out",
    "C81_exactly_when_telling_panics",
    "C81_exactly_when_a_call_panics",
    "C81_exactly_when_waiting_panics"
   ],
   "note": "All functions of the API, ports with errors and timeouts, any buffer sizes. For any sequence of calls: sufficient conditions; each is shown to be needed by a witness. For single calls that send one message and wait for at most one answer, for one step of each iterator and for dropping it: an exact condition in terms of the bytes of the message, the buffers and the line (typed reg_write/sync_write are not in the exact part; the exact condition for a device reading is in C16). Iterator states are those with index at most the length, as the crate produces. Ports that violate their contract: C80."
  },
  {
   "property": "C82",
   "status": "proved",
   "theorems": [
    "C82_stdout",
    "C82_file"
   ],
   "note": "The script made by clap_complete, the texts of shells, paths and errors are parameters. The standard output is a LineWriter with an empty buffer; std's silent acceptance of a closed stdout (EBADF) is not modelled. Unix paths."
  },
  {
   "property": "C83",
   "status": "partial",
   "theorems": [
    "C83_commands_refuted",
    "C83_commands_partial",
    "C83_runs_exist",
    "C83_small_commands",
    "C83_small_commands_mean",
    "C83_number_round_trip"
   ],
   "note": "False as stated for long writes whose message the byte stuffing does not protect (finding 1). Proved without condition for pings, scans, numbers of 8, 16 and 32 bits, up to five bytes written and up to seven read; for longer ones under the condition of C06. Reboot (not supported by the simulated motor) and refused commands are in C53 and C65."
  },
  {
   "property": "C84",
   "status": "proved",
   "theorems": [
    "C84_request",
    "C84_write",
    "C84_read_bytes",
    "C84_read",
    "C84_read_number",
    "C84_sync_write",
    "C84_bulk_write",
    "C84_sync_write_numbers",
    "C84_sync_read_bytes",
    "C84_sync_read",
    "C84_bulk_read"
   ],
   "note": "Exact. Addresses from FF00 up are excluded for numbers: there FF bytes of the address join those of the value. For many motors the ids are those of motors (up to 252)."
  },
  {
   "property": "C85",
   "status": "partial",
   "theorems": [
    "C85_damage",
    "C85_not_obeyed",
    "C85_truthful",
    "C85_session",
    "C85_exactly_once_refuted",
    "C85_try_again_partial"
   ],
   "note": "Exactly-once under retries is refuted (no sequence numbers in the protocol; the client cannot know); true for idempotent commands. Answers that arrive after the call has timed out are the subject of C76 and excluded here. Requests with ill-stuffed FF runs are excluded as in C69."
  },
  {
   "property": "C86",
   "status": "proved",
   "theorems": [
    "C86_truthful",
    "C86_session",
    "C86_acknowledged"
   ],
   "note": "A scan needs two timeouts to end (errors other than timeouts do not end it: C35). Answers left over from an earlier call are the subject of C76 and excluded by the assumption on the line. Requests and answers with ill-stuffed FF runs are excluded as in C69 and C84; clear_error as in C29."
  },
  {
   "property": "C87",
   "status": "proved",
   "theorems": [
    "C87_read",
    "C87_until_next_use",
    "C87_session"
   ],
   "note": "The memory of the bus is one piece with one stack of permissions (the worst case: the buffer lies inside the bus). The references made by AsMut/AsRef of the buffer and by the serial port are those of the code; what user-supplied implementations of these traits do with them is not modelled. Protectors of function arguments are not modelled (nothing is popped while a callee runs)."
  },
  {
   "property": "C88",
   "status": "partial",
   "theorems": [
    "C88_asks_first",
    "C88_given_up",
    "C88_nothing_read_ahead",
    "C88_listens_first_refuted"
   ],
   "note": "True for programs that send before they listen, and for all programs if nothing has been read ahead. False for a device that has read two instructions at once and returned the first: into_serial_port loses the second (so does sending an answer)."
  },
  {
   "property": "C89",
   "status": "proved",
   "theorems": [
    "C89_sync_write",
    "C89_bulk_write",
    "C89_sync_read",
    "C89_bulk_read",
    "C89_sync_write_shorter",
    "C89_bulk_write_not_longer",
    "C89_typed_sync_read",
    "C89_typed_sync_write_one_byte"
   ],
   "note": "Counts the bytes the client sends; the answers of the motors are the same for reads, and separate writes are acknowledged in addition."
  },
  {
   "property": "C90",
   "status": "partial",
   "theorems": [
    "C90_honest",
    "C90_only_what_was_given_refuted",
    "C90_fewer_than_announced",
    "C90_old_messages_come_back",
    "C90_more_than_announced",
    "C90_wrong_size",
    "C90_typed_sync_write",
    "C90_bulk_same_size",
    "C90_bulk_more_than_counted",
    "C90_bulk_fewer_than_counted",
    "C90_unfilled_write",
    "C90_unfilled_reg_write",
    "C90_unfilled_instruction",
    "C90_unfilled_status"
   ],
   "note": "False for iterators whose length is wrong (ExactSizeIterator is a safe trait); what is sent then is given exactly."
  },
  {
   "property": "C91",
   "status": "proved",
   "theorems": [
    "C91_same",
    "C91_told_anyway",
    "C91_traffic",
    "C91_order",
    "C91_answer",
    "C91_request",
    "C91_reading",
    "C91_changing",
    "C91_garbage",
    "C91_broadcast",
    "C91_scan",
    "C91_scan_each"
   ],
   "note": ""
  }
 ]
}