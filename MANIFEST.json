{
 "claims": [
  {
   "property": "C01",
   "status": "proved",
   "theorems": [
    "C01_line_framing"
   ],
   "note": ""
  },
  {
   "property": "C02",
   "status": "proved",
   "theorems": [
    "C02_no_partial_line",
    "C02_line_was_there"
   ],
   "note": ""
  },
  {
   "property": "C03",
   "status": "proved",
   "theorems": [
    "C03_request",
    "C03_response",
    "C03_interruptions"
   ],
   "note": ""
  },
  {
   "property": "C04",
   "status": "proved",
   "theorems": [
    "C04_chunked_decode",
    "C04_chunked_drain"
   ],
   "note": ""
  },
  {
   "property": "C05",
   "status": "proved",
   "theorems": [
    "C05_wire",
    "C05_encodes",
    "C05_read_back",
    "C05_succeeds"
   ],
   "note": ""
  },
  {
   "property": "C06",
   "status": "proved",
   "theorems": [
    "C06_truncated_is_error"
   ],
   "note": ""
  },
  {
   "property": "C07",
   "status": "proved",
   "theorems": [
    "C07_exact_language",
    "C07_accepts_iff",
    "C07_bad_size_line"
   ],
   "note": ""
  },
  {
   "property": "C08",
   "status": "proved",
   "theorems": [
    "C08_chunked_stays_finished"
   ],
   "note": ""
  },
  {
   "property": "C09",
   "status": "proved",
   "theorems": [
    "C09_empty_read_harmless",
    "C09_empty_read_in_chunk",
    "C09_empty_read_refuted"
   ],
   "note": "Unconditional claim false: C09_empty_read_refuted. The positive part holds for the other body kinds."
  },
  {
   "property": "C10",
   "status": "proved",
   "theorems": [
    "C10_error_reported_once",
    "C10_covers_all_cuts",
    "C10_interrupted_copy_truncates"
   ],
   "note": "is_retry: the std build retries Interrupted when reading framing; there the error is invisible."
  },
  {
   "property": "C11",
   "status": "proved",
   "theorems": [
    "C11_limited_exact",
    "C11_limited_items",
    "C11_limited_finished"
   ],
   "note": ""
  },
  {
   "property": "C12",
   "status": "proved",
   "theorems": [
    "C12_content_length",
    "C12_short_body_is_clean_eof"
   ],
   "note": ""
  },
  {
   "property": "C13",
   "status": "proved",
   "theorems": [
    "C13_request",
    "C13_response",
    "C13_bad_length"
   ],
   "note": ""
  },
  {
   "property": "C14",
   "status": "proved",
   "theorems": [
    "C14_request",
    "C14_response"
   ],
   "note": ""
  },
  {
   "property": "C15",
   "status": "proved",
   "theorems": [
    "C15_expect",
    "C15_parse_until",
    "C15_parse_token",
    "C15_parse_token_total",
    "C15_parse_remaining",
    "C15_parse_char",
    "C15_parse_digit",
    "C15_parse_number",
    "C15_parse_until_any"
   ],
   "note": ""
  },
  {
   "property": "C16",
   "status": "proved",
   "theorems": [
    "C16_ascii_never_panics",
    "C16_peer_can_panic",
    "C16_no_input_panics_refuted",
    "C16_request_panics_iff",
    "C16_response_panics_iff",
    "C16_header_line_panics_iff",
    "C16_version_panics_iff"
   ],
   "note": "Unconditional claim false; exact conditions for header lines, version tokens and whole requests and responses (any transport, any failures), and ASCII messages never panic."
  },
  {
   "property": "C17",
   "status": "proved",
   "theorems": [
    "C17_number_syntax",
    "C17_otherwise_error",
    "C17_value_unique",
    "C17_print_parse",
    "C17_print_is_numeral"
   ],
   "note": ""
  },
  {
   "property": "C18",
   "status": "proved",
   "theorems": [
    "C18_from_to",
    "C18_to_from",
    "C18_show_parse"
   ],
   "note": ""
  },
  {
   "property": "C19",
   "status": "proved",
   "theorems": [
    "C19_categories"
   ],
   "note": ""
  },
  {
   "property": "C20",
   "status": "proved",
   "theorems": [
    "C20_show_parse",
    "C20_parse_iff",
    "C20_has_body",
    "C20_unicode_refuted"
   ],
   "note": ""
  },
  {
   "property": "C21",
   "status": "proved",
   "theorems": [
    "C21_show_parse",
    "C21_parse_iff",
    "C21_two_digits_refuted"
   ],
   "note": ""
  },
  {
   "property": "C22",
   "status": "proved",
   "theorems": [
    "C22_insert",
    "C22_latest_wins"
   ],
   "note": ""
  },
  {
   "property": "C23",
   "status": "proved",
   "theorems": [
    "C23_sorted_unique",
    "C23_order_is_lexicographic",
    "C23_extensional",
    "C23_same_gets",
    "C23_insert_order"
   ],
   "note": ""
  },
  {
   "property": "C24",
   "status": "proved",
   "theorems": [
    "C24_block",
    "C24_bad_line"
   ],
   "note": ""
  },
  {
   "property": "C25",
   "status": "proved",
   "theorems": [
    "C25_round_trip"
   ],
   "note": ""
  },
  {
   "property": "C26",
   "status": "proved",
   "theorems": [
    "C26_collect_keeps_keys",
    "C26_get_on_collected",
    "C26_upper_case_lost_refuted"
   ],
   "note": "Case-insensitive lookup is false for collected sets; exact condition given."
  },
  {
   "property": "C27",
   "status": "proved",
   "theorems": [
    "C27_safe",
    "C27_injected_header",
    "C27_injected_body",
    "C27_response_splitting",
    "C27_never_received"
   ],
   "note": ""
  },
  {
   "property": "C28",
   "status": "proved",
   "theorems": [
    "C28_request_round_trip"
   ],
   "note": ""
  },
  {
   "property": "C29",
   "status": "proved",
   "theorems": [
    "C29_response_round_trip"
   ],
   "note": ""
  },
  {
   "property": "C30",
   "status": "proved",
   "theorems": [
    "C30_request",
    "C30_response",
    "C30_request_accepts",
    "C30_response_accepts",
    "C30_request_accepts_retries",
    "C30_response_accepts_retries"
   ],
   "note": ""
  },
  {
   "property": "C31",
   "status": "proved",
   "theorems": [
    "C31_take_delivers",
    "C31_take_first_bytes",
    "C31_take_limit",
    "C31_take_zero_untouched"
   ],
   "note": ""
  },
  {
   "property": "C32",
   "status": "proved",
   "theorems": [
    "C32_short",
    "C32_interrupted",
    "C32_read_exact"
   ],
   "note": ""
  },
  {
   "property": "C33",
   "status": "proved",
   "theorems": [
    "C33_nothing_taken",
    "C33_interrupted",
    "C33_write_all",
    "C33_copy",
    "C33_copy_succeeds"
   ],
   "note": ""
  },
  {
   "property": "C34",
   "status": "proved",
   "theorems": [
    "C34_bufreader_transparent",
    "C34_builds_agree"
   ],
   "note": ""
  },
  {
   "property": "C35",
   "status": "proved",
   "theorems": [
    "C35_bufwriter_write",
    "C35_bufwriter_flush",
    "C35_bufwriter_drop",
    "C35_bufwriter_starts_empty"
   ],
   "note": "Per write from any invariant state; a caller that goes on after an error is outside the claim (see C39)."
  },
  {
   "property": "C36",
   "status": "proved",
   "theorems": [
    "C36_slice",
    "C36_slice_read_exact",
    "C36_cursor"
   ],
   "note": ""
  },
  {
   "property": "C37",
   "status": "proved",
   "theorems": [
    "C37_head",
    "C37_query_and_port_dropped",
    "C37_parsed"
   ],
   "note": ""
  },
  {
   "property": "C38",
   "status": "proved",
   "theorems": [
    "C38_methods",
    "C38_write_fails",
    "C38_only_head"
   ],
   "note": ""
  },
  {
   "property": "C39",
   "status": "proved",
   "theorems": [
    "C39_sent_anyway",
    "C39_prefix",
    "C39_write_after_error_refuted"
   ],
   "note": "C39_write_after_error_refuted is the witness for callers that go on after an error."
  },
  {
   "property": "C40",
   "status": "proved",
   "theorems": [
    "C40_complete",
    "C40_no_read_before",
    "C40_exchange"
   ],
   "note": ""
  },
  {
   "property": "C41",
   "status": "proved",
   "theorems": [
    "C41_exchange",
    "C41_codes",
    "C41_get",
    "C41_put"
   ],
   "note": ""
  },
  {
   "property": "C42",
   "status": "proved",
   "theorems": [
    "C42_isolation",
    "C42_never_evicted",
    "C42_stored_stream_used",
    "C42_connect_fails",
    "C42_dead_stream",
    "C42_connect_once"
   ],
   "note": ""
  },
  {
   "property": "C43",
   "status": "proved",
   "theorems": [
    "C43_no_address",
    "C43_right_stream",
    "C43_one_shot",
    "C43_separate",
    "C43_plain_build_refuted"
   ],
   "note": "Claim refuted for the build without ssl: C43_plain_build_refuted. TLS itself is an oracle."
  },
  {
   "property": "C44",
   "status": "proved",
   "theorems": [
    "C44_left_over",
    "C44_after_length",
    "C44_after_chunks",
    "C44_segments",
    "C44_segments_chunked"
   ],
   "note": "Position of the stream after a body, for every segmentation; loss of read-ahead bytes is part of the statement."
  },
  {
   "property": "C45",
   "status": "proved",
   "theorems": [
    "C45_conversion",
    "C45_crate_urls",
    "C45_scheme"
   ],
   "note": "crate_url states what the url crate guarantees; it is a hypothesis, not proved of the crate."
  },
  {
   "property": "C46",
   "status": "proved",
   "theorems": [
    "C46_dispatch",
    "C46_body",
    "C46_limited_body",
    "C46_broken_body"
   ],
   "note": ""
  },
  {
   "property": "C47",
   "status": "proved",
   "theorems": [
    "C47_refused",
    "C47_called"
   ],
   "note": ""
  },
  {
   "property": "C48",
   "status": "proved",
   "theorems": [
    "C48_only_requests",
    "C48_malformed"
   ],
   "note": ""
  },
  {
   "property": "C49",
   "status": "proved",
   "theorems": [
    "C49_refuses"
   ],
   "note": "Requests without a length are the subject of C47."
  },
  {
   "property": "C50",
   "status": "proved",
   "theorems": [
    "C50_wire",
    "C50_served",
    "C50_complete"
   ],
   "note": ""
  },
  {
   "property": "C51",
   "status": "proved",
   "theorems": [
    "C51_history",
    "C51_writes_do_not_matter",
    "C51_bad_connections_do_not_matter",
    "C51_panic_ends_loop",
    "C51_survives_refuted"
   ],
   "note": "C51_survives_refuted: one malformed request can end the loop."
  },
  {
   "property": "C52",
   "status": "proved",
   "theorems": [
    "C52_client_sends",
    "C52_upload",
    "C52_download",
    "C52_end_to_end",
    "C52_reading_to_the_end"
   ],
   "note": "Server run on what the client wrote and client on what the server wrote; C58 is the interleaving. C52_client_sends gives success of the sending side on a reliable stream."
  },
  {
   "property": "C53",
   "status": "proved",
   "theorems": [
    "C53_client",
    "C53_server",
    "C53_errors",
    "C53_closing_is_an_error",
    "C53_terminates"
   ],
   "note": "rustls is an oracle; `sane` and the never-idle condition are hypotheses."
  },
  {
   "property": "C54",
   "status": "proved",
   "theorems": [
    "C54_request",
    "C54_response",
    "C54_counter_harmless",
    "C54_body_read",
    "C54_recursion",
    "C54_empty_buffer_recursion"
   ],
   "note": ""
  },
  {
   "property": "C55",
   "status": "proved",
   "theorems": [
    "C55_client_flushes",
    "C55_flush",
    "C55_server_never_flushes",
    "C55_response_delivered_refuted"
   ],
   "note": "C55_response_delivered_refuted: a stream that holds back unflushed output never carries the response."
  },
  {
   "property": "C56",
   "status": "proved",
   "theorems": [
    "C56_request",
    "C56_response",
    "C56_body",
    "C56_exchange",
    "C56_serve"
   ],
   "note": ""
  },
  {
   "property": "C57",
   "status": "proved",
   "theorems": [
    "C57_accept",
    "C57_failed_handshakes_invisible",
    "C57_zero_write_ends_the_server",
    "C57_listener_new",
    "C57_client"
   ],
   "note": "TLS library, key and certificate parsing are oracles."
  },
  {
   "property": "C58",
   "status": "proved",
   "theorems": [
    "C58_progress",
    "C58_bounded",
    "C58_result",
    "C58_ends",
    "C58_deadlock_refuted",
    "C58_put"
   ],
   "note": "C58_put is the theorem for the top-level get and put of the client (after the connection is made). Sockets that block, do not fail and are not reset; a write after the peer has ended is accepted and lost. The step bound counts socket reads and writes that return."
  },
  {
   "property": "C59",
   "status": "proved",
   "theorems": [
    "C59_second_request"
   ],
   "note": "That the server sends one answer and closes is C50 and C51; the theorem starts where that answer is on its way to the client."
  },
  {
   "property": "C60",
   "status": "proved",
   "theorems": [
    "C60_request",
    "C60_response",
    "C60_framing_lost"
   ],
   "note": ""
  },
  {
   "property": "C61",
   "status": "proved",
   "theorems": [
    "C61_no_body_no_reset",
    "C61_upload_reset"
   ],
   "note": ""
  },
  {
   "property": "C62",
   "status": "proved",
   "theorems": [
    "C62_first_blocks_all",
    "C62_partial_request_blocks_all",
    "C62_progress",
    "C62_bounded",
    "C62_result",
    "C62_ends"
   ],
   "note": ""
  },
  {
   "property": "C63",
   "status": "proved",
   "theorems": [
    "C63_request",
    "C63_response",
    "C63_second_hop",
    "C63_always_same_refuted"
   ],
   "note": ""
  },
  {
   "property": "C64",
   "status": "proved",
   "theorems": [
    "C64_other_methods",
    "C64_get",
    "C64_put",
    "C64_put_short",
    "C64_put_broken",
    "C64_missing",
    "C64_put_refused",
    "C64_directory",
    "C64_nul",
    "C64_stored_refuted"
   ],
   "note": ""
  },
  {
   "property": "C65",
   "status": "proved",
   "theorems": [
    "C65_no_dot_files",
    "C65_dots",
    "C65_confined",
    "C65_always_confined_refuted"
   ],
   "note": ""
  },
  {
   "property": "C66",
   "status": "proved",
   "theorems": [
    "C66_share",
    "C66_last_upload"
   ],
   "note": ""
  },
  {
   "property": "C67",
   "status": "proved",
   "theorems": [
    "C67_takes",
    "C67_eats_next",
    "C67_interim",
    "C67_waits",
    "C67_keep_alive",
    "C67_server_sends",
    "C67_no_body_refuted"
   ],
   "note": ""
  },
  {
   "property": "C68",
   "status": "proved",
   "theorems": [
    "C68_bounded",
    "C68_result",
    "C68_in_step",
    "C68_in_turn",
    "C68_progress",
    "C68_ends",
    "C68_steady",
    "C68_pool",
    "C68_chunked_refuted"
   ],
   "note": "C68_steady shows that the assumption about the peer (responsive) is met by a server that reads each request and then writes its answer. C68_chunked_refuted: with chunked answers the same system has runs that succeed and runs that fail. Sockets as in C58."
  },
  {
   "property": "C69",
   "status": "proved",
   "theorems": [
    "C69_prints",
    "C69_refuses",
    "C69_short_succeeds",
    "C69_cut_fails",
    "C69_methods",
    "C69_sends",
    "C69_advance",
    "C69_upload",
    "C69_advance_sends",
    "C69_no_std"
   ],
   "note": "C69_refuses, C69_short_succeeds and C69_cut_fails are about client.rs. The head of the answer is a good_head (what C44 calls readable); the stream takes all writes and writing does not change what is read. Debug output of the examples is not modelled."
  },
  {
   "property": "C70",
   "status": "proved",
   "theorems": [
    "C70_like_example",
    "C70_get",
    "C70_failing_body",
    "C70_directory",
    "C70_missing",
    "C70_program",
    "C70_directory_looks_empty"
   ],
   "note": "File system as in C64 (a tree; reading an opened directory fails with EISDIR, as on Unix). C70_program is the network of C58; the directory case is stated for the server and for the client on the bytes the server sent."
  },
  {
   "property": "C71",
   "status": "proved",
   "theorems": [
    "C71_ends",
    "C71_always_deadlock",
    "C71_deadlock_iff",
    "C71_resets",
    "C71_answer_lost"
   ],
   "note": "unread: the handler answers without a read of the body (a method without body argument, or one that returns at once). `resets` and still_writing are the states of C61; what a failed write does to the client is stated for every error and for everything it could still read, as: it does not return a response (C71_lost_case shows the error)."
  },
  {
   "property": "C72",
   "status": "proved",
   "theorems": [
    "C72_not_chunked",
    "C72_own_headers",
    "C72_same_for_both_refuted"
   ],
   "note": "The handler that passes an answer on is user code written with the crate's public interface (passed_on); /repo has none. Both connections as streams (C44, C50), not as concurrent processes. C72_same_for_both_refuted: what the first client reads in full, the second may not."
  },
  {
   "property": "C73",
   "status": "proved",
   "theorems": [
    "C73_request",
    "C73_response",
    "C73_no_line_end",
    "C73_serve",
    "C73_client",
    "C73_decided",
    "C73_accepts",
    "C73_body",
    "C73_chunks"
   ],
   "note": "`Fuel` for every bound means that the code does not return. That the bytes read so far are kept in memory is not part of the statement (memory is not modelled). C73_chunks says that no reader of an endless chunked body sees an end or an error; what the chunks contain is C04 for the finite beginnings."
  },
  {
   "property": "C74",
   "status": "proved",
   "theorems": [
    "C74_streams",
    "C74_request",
    "C74_response",
    "C74_shows",
    "C74_readable",
    "C74_tells",
    "C74_answer",
    "C74_reflects",
    "C74_same",
    "C74_valid_up_to",
    "C74_error_len"
   ],
   "note": "ErrText.v models the messages; C74_same ties it to the model that all other theorems are about, and `head_text` is one instance of the arbitrary `etext` of those. C74_request/C74_response: a message is reported if and only if the lines and the end of the stream (C74_streams: every stream has them) call for it. C74_valid_up_to and C74_error_len say what the two numbers of a UTF-8 error are, C74_shows how each character of a message is shown. The text of a transport's error is an arbitrary function, which non-ASCII characters Rust's Debug escapes an arbitrary predicate; C74_readable and C74_tells are for the other errors. Messages of errors in bodies are not modelled (no answer shows them)."
  },
  {
   "property": "C75",
   "status": "proved",
   "theorems": [
    "C75_head",
    "C75_body",
    "C75_server",
    "C75_told_refuted"
   ],
   "note": "C75_server joins C50_wire (any failure at the server) to C75_head and C75_body (what the client makes of it). Framing of the response: Content-Length equal to the body's length, or none; not chunked (the server sends a body as the handler encoded it; a handler that encodes chunks itself is C06/C72). C75_told_refuted: a run in which the server fails and the client sees nothing."
  },
  {
   "property": "C76",
   "status": "proved",
   "theorems": [
    "C76_request",
    "C76_response",
    "C76_accepted",
    "C76_same_refuted"
   ],
   "note": "http_framing is the standard as we read it (RFC 7230 3.3.3; identical repeated Content-Length allowed, as a MAY there; commas in quoted strings of coding parameters are not treated specially). C76_accepted states the same with the fields given and says which requests are accepted. Unsized is a request without body or a response until close; responses without body are C67. That a request without length and with a body method is answered 411 is C47."
  },
  {
   "property": "C77",
   "status": "proved",
   "theorems": [
    "C77_request",
    "C77_response",
    "C77_all_taken_refuted"
   ],
   "note": "The grammar is the RFC's as we read it: tokens, visible characters, obs-text; any visible characters are a request target. Continued lines (obs-fold) are C24. Refusals are errors, except that a value which starts with a non-ASCII character right after the colon makes the parser panic (last line of C77_case, C16)."
  },
  {
   "property": "C78",
   "status": "proved",
   "theorems": [
    "C78_plain",
    "C78_refused",
    "C78_all_read_refuted",
    "C78_only_valid_refuted"
   ],
   "note": "Exact for the grammar without the inner syntax of extensions (anything without CR behind a semicolon); continued trailer lines are left out. Which error a refused size line gives is C07."
  },
  {
   "property": "C79",
   "status": "proved",
   "theorems": [
    "C79_request",
    "C79_response",
    "C79_client",
    "C79_server",
    "C79_every_status_refuted",
    "C79_every_header_refuted"
   ],
   "note": "Targets are any visible characters and field values any field characters, as in C77. Unconditional claims false: C79_every_status_refuted, C79_every_header_refuted."
  },
  {
   "property": "C80",
   "status": "proved",
   "theorems": [
    "C80_effective",
    "C80_same",
    "C80_no_query",
    "C80_repaired",
    "C80_every_url_refuted"
   ],
   "note": "User information and fragment are not part of the URL here (they are not to be sent). Unconditional claim false: C80_every_url_refuted."
  },
  {
   "property": "C81",
   "status": "proved",
   "theorems": [
    "C81_waits_for_ever",
    "C81_such_a_client",
    "C81_continue_refuted"
   ],
   "note": "Over the network of C58. What this crate's client makes of a 100 Continue is C67. Unconditional claim false: C81_continue_refuted."
  },
  {
   "property": "C82",
   "status": "proved",
   "theorems": [
    "C82_upper",
    "C82_method",
    "C82_method_ascii",
    "C82_name",
    "C82_name_ascii",
    "C82_framing_names",
    "C82_ascii_refuted",
    "C82_sigma"
   ],
   "note": "For the case tables of Unicode 14. Unconditional claims false: C82_ascii_refuted."
  },
  {
   "property": "C83",
   "status": "proved",
   "theorems": [
    "C83_request",
    "C83_response",
    "C83_server",
    "C83_sent",
    "C83_interrupted_refuted",
    "C83_any_handler_refuted"
   ],
   "note": "Error texts are taken to be the same function of the error in both builds. Unconditional claims false: C83_interrupted_refuted, C83_any_handler_refuted."
  },
  {
   "property": "C84",
   "status": "proved",
   "theorems": [
    "C84_plain",
    "C84_body",
    "C84_host_refuted"
   ],
   "note": "The claim of RFC 7230 about Host is false: C84_host_refuted."
  },
  {
   "property": "C85",
   "status": "proved",
   "theorems": [
    "C85_one",
    "C85_survives",
    "C85_ends"
   ],
   "note": "C85_survives and C85_ends together say exactly when the loop ends; the handler's assumptions are the record careful."
  },
  {
   "property": "C86",
   "status": "proved",
   "theorems": [
    "C86_request_head",
    "C86_response_head",
    "C86_request",
    "C86_connection",
    "C86_sent",
    "C86_response",
    "C86_target_refuted",
    "C86_header_refuted",
    "C86_unannounced_refuted"
   ],
   "note": "Proved on the bytes, without the parsers; the three refuted theorems show that the conditions are needed."
  },
  {
   "property": "C87",
   "status": "proved",
   "theorems": [
    "C87_owned",
    "C87_lent",
    "C87_queue_one",
    "C87_queue",
    "C87_lost_refuted"
   ],
   "note": "Lent.v models bodies that change the handler by being read; C87_owned shows that it agrees with Server.v on handlers that lend nothing. C87_lost_refuted shows that the loss of at most one buffer can happen."
  },
  {
   "property": "C88",
   "status": "proved",
   "theorems": [
    "C88_apart",
    "C88_same",
    "C88_pooled",
    "C88_stops",
    "C88_always_refuted"
   ],
   "note": "Turns.v models a caller that goes on after errors; C88_pooled relates it to Session.pooled. C88_always_refuted shows that a panic caused by one server ends the program before its other requests."
  },
  {
   "property": "C89",
   "status": "proved",
   "theorems": [
    "C89_one",
    "C89_reactive",
    "C89_body",
    "C89_reliable"
   ],
   "note": "The counterpart of C85 for the client. In C89_one, C89_reliable and C89_body the peer's bytes do not depend on what is written (peer_sends); C89_reactive drops that. Fuel must exceed the lengths of the request head, chunks, body and answer."
  }
 ]
}