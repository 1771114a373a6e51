{
 "claims": [
  {
   "property": "C01",
   "status": "proved",
   "theorems": [
    "ws_encode_layout",
    "ws_header_round_trip"
   ],
   "note": ""
  },
  {
   "property": "C02",
   "status": "proved",
   "theorems": [
    "ws_mask_is_xor",
    "ws_mask_pieces",
    "ws_mask_involutive"
   ],
   "note": ""
  },
  {
   "property": "C03",
   "status": "partial",
   "theorems": [
    "ws_header_split_partial",
    "ws_header_split_errors",
    "ws_header_split_breaks",
    "ws_header_split_refuted"
   ],
   "note": "The property is false of the code: headers that start or end a fragmented message are refused when cut after their second byte (ws_header_split_breaks, for every such header and cut). Proved for all other headers, and for refused ones."
  },
  {
   "property": "C04",
   "status": "proved",
   "theorems": [
    "ws_frame_acceptance",
    "ws_all_octets",
    "ws_receive_partial"
   ],
   "note": ""
  },
  {
   "property": "C05",
   "status": "partial",
   "theorems": [
    "ws_receive_partial",
    "ws_receive_any_pieces",
    "ws_receive_harmless_partial",
    "ws_split_payload_refuted",
    "ws_fragmented_compressed_refuted",
    "ws_close_one_octet"
   ],
   "note": "False of the code when the payload of a TEXT or BINARY frame arrives in several pieces and for fragmented compressed messages (refuted by witnesses). For uncompressed frames it is proved exactly what arrives for every division of the stream, and that everything arrives unless a cut falls inside such a payload or tears the header of a frame that starts or ends a message of several frames."
  },
  {
   "property": "C06",
   "status": "proved",
   "theorems": [
    "ws_close_once"
   ],
   "note": ""
  },
  {
   "property": "C07",
   "status": "proved",
   "theorems": [
    "ws_shut_down_server",
    "ws_shut_down_client",
    "ws_shut_down_status"
   ],
   "note": ""
  },
  {
   "property": "C08",
   "status": "proved",
   "theorems": [
    "uuid_print",
    "uuid_round_trip",
    "uuid_parse_iff",
    "uuid_construct_iff",
    "uuid_fields"
   ],
   "note": "Note: the header documents upper-case output, the code prints lower case."
  },
  {
   "property": "C09",
   "status": "proved",
   "theorems": [
    "uuid_compare",
    "uuid_total_order",
    "uuid_nil",
    "uuid_extremes",
    "uuid_hash",
    "uuid_hash_group"
   ],
   "note": ""
  },
  {
   "property": "C10",
   "status": "partial",
   "theorems": [
    "uuid_v4_fields",
    "uuid_v7_fields",
    "uuid_v7_version",
    "uuid_v7_sorted_partial",
    "uuid_v7_processes",
    "uuid_v7_sorted_refuted_clock",
    "uuid_v7_sorted_refuted_burst"
   ],
   "note": "Fields proved for every call. The creation order is false of the code if the clock steps back or more than 4096 UUIDs are made in a millisecond (refuted); proved otherwise."
  },
  {
   "property": "C100",
   "status": "partial",
   "theorems": [
    "hostname_partial",
    "hostname_refuted"
   ],
   "note": "Names of up to 63 octets; that names of 64 octets are accepted is refuted. gethostname is that of the GNU C library"
  },
  {
   "property": "C101",
   "status": "proved",
   "theorems": [
    "value_destroyed",
    "value_destroyed_naive"
   ],
   "note": "value_destroyed_naive shows that the loop is necessary. Containers that are referred to twice from within one value, threads and exhausted memory are outside the quantifier"
  },
  {
   "property": "C11",
   "status": "proved",
   "theorems": [
    "address_class",
    "address_v4mapped",
    "address_constants"
   ],
   "note": ""
  },
  {
   "property": "C12",
   "status": "proved",
   "theorems": [
    "subnet_match",
    "subnet_match_bits"
   ],
   "note": ""
  },
  {
   "property": "C13",
   "status": "proved",
   "theorems": [
    "address_compare",
    "address_total_order"
   ],
   "note": ""
  },
  {
   "property": "C14",
   "status": "proved",
   "theorems": [
    "query_round_trip",
    "query_encoded_legal",
    "query_encoded_exact",
    "query_parse"
   ],
   "note": "An empty list of pairs encodes to the empty text, which parses as one pair with an empty name and no value."
  },
  {
   "property": "C15",
   "status": "partial",
   "theorems": [
    "path_canonicalize",
    "path_canonical_fixed",
    "path_canonical_refuted",
    "path_canonical_partial"
   ],
   "note": "Proved for all text with well-formed escapes. Refuted after a malformed escape: the last segment may stay '.' or '..'."
  },
  {
   "property": "C16",
   "status": "proved",
   "theorems": [
    "path_round_trip",
    "path_round_trip_exact",
    "path_encoded_legal",
    "path_encoded_exact"
   ],
   "note": ""
  },
  {
   "property": "C17",
   "status": "partial",
   "theorems": [
    "explode_fields_partial",
    "explode_segments",
    "explode_round_trip_partial",
    "implode_text",
    "explode_blank_delimiter",
    "explode_blank_field",
    "explode_total_refuted",
    "explode_round_trip_refuted"
   ],
   "note": "A blank field before a delimiter makes explode fail and a leading delimiter yields a wrong first segment; proved for all other texts."
  },
  {
   "property": "C18",
   "status": "proved",
   "theorems": [
    "netref_parse",
    "netref_views",
    "netref_complete",
    "netref_whole"
   ],
   "note": ""
  },
  {
   "property": "C19",
   "status": "proved",
   "theorems": [
    "timer_schedule",
    "timer_not_early",
    "timer_order",
    "timer_abandoned",
    "timer_complete",
    "timer_progress",
    "timer_insert",
    "timer_no_overflow"
   ],
   "note": ""
  },
  {
   "property": "C20",
   "status": "partial",
   "theorems": [
    "fiber_life",
    "fiber_reason",
    "fiber_kept",
    "fiber_progress",
    "fiber_starts",
    "fiber_abandoned",
    "fiber_wakeup",
    "fiber_woken",
    "fiber_noticed",
    "fiber_sleeps",
    "fiber_no_assertion",
    "fiber_starts_refuted_zero_warning"
   ],
   "note": "Proved for every execution; the promise that every launched fiber starts needs positive timeouts and is refuted for fiber.warn_timeout = 0, which the configuration accepts. A future waited for is taken to stay alive during the wait."
  },
  {
   "property": "C21",
   "status": "partial",
   "theorems": [
    "sock_safe",
    "sock_found",
    "sock_only",
    "sock_gone",
    "sock_bounded",
    "sock_event_partial",
    "sock_event_refuted"
   ],
   "note": "Lookup is exact. Delivery of events is not: an event that waits in the buffer can reach a newer socket at the same address (finding, with witness)."
  },
  {
   "property": "C22",
   "status": "proved",
   "theorems": [
    "logger_order",
    "logger_drop",
    "logger_written",
    "logger_file",
    "logger_sync",
    "logger_progress"
   ],
   "note": "file open/write failures are not modelled"
  },
  {
   "property": "C23",
   "status": "proved",
   "theorems": [
    "logger_one_line",
    "logger_no_control",
    "logger_breaks",
    "logger_unescape_partial",
    "logger_escape_refuted",
    "logger_c1_refuted"
   ],
   "note": "decoding is proved for messages without backslashes; backslashes make the escaping ambiguous and UTF-8 C1 controls pass (findings)"
  },
  {
   "property": "C24",
   "status": "partial",
   "theorems": [
    "future_once_partial",
    "future_once_refuted",
    "future_stays",
    "future_wakes_all",
    "future_not_early",
    "future_successful"
   ],
   "note": "Proved when the callback returns or throws a std::exception; refuted if it throws anything else, which is not caught: the callback then runs again. All other parts hold always."
  },
  {
   "property": "C25",
   "status": "partial",
   "theorems": [
    "future_rethrow_partial",
    "future_check_not_ready",
    "future_rethrow_refuted"
   ],
   "note": "False of the code: check_success only consults the saved exception if the future is not initialized. Proved for the out-of-line function it should call."
  },
  {
   "property": "C26",
   "status": "proved",
   "theorems": [
    "task_once",
    "task_not_lost",
    "task_exclusive",
    "task_available",
    "task_no_starvation",
    "task_taken_begins",
    "task_relaunch_blocks"
   ],
   "note": "task_relaunch_blocks is a finding: relaunching a task while it executes locks the queue until that execution ends."
  },
  {
   "property": "C27",
   "status": "partial",
   "theorems": [
    "task_order_partial",
    "task_batches",
    "task_order_idle",
    "task_fifo_refuted"
   ],
   "note": "First in, first out is false of the code: within one batch the last launch is taken first. Proved: the exact order, and that batches are in order."
  },
  {
   "property": "C28",
   "status": "proved",
   "theorems": [
    "pool_exclusive",
    "pool_suited",
    "pool_clear",
    "pool_newest",
    "pool_size",
    "pool_put",
    "pool_idle",
    "pool_refused",
    "pool_idle_refuted",
    "pool_password_refuted"
   ],
   "note": "all of the statement; the pool is searched before it is purged so an idle-expired connection may be handed out, and the password is not compared (refuted parts are findings)"
  },
  {
   "property": "C29",
   "status": "proved",
   "theorems": [
    "tcp_order",
    "tcp_prefix",
    "tcp_false_closed",
    "tcp_calls",
    "tcp_no_stall",
    "tcp_drains"
   ],
   "note": "The results of send are arbitrary; memory allocation failures are not modelled."
  },
  {
   "property": "C30",
   "status": "proved",
   "theorems": [
    "tcp_forward",
    "tcp_refused",
    "tcp_shut",
    "tcp_flush",
    "tcp_closed_silent",
    "tcp_stays_open",
    "tcp_late_send_refuted"
   ],
   "note": "tcp_late_send_refuted is a finding about sends that race with a shutdown: they may return true for data that are never sent."
  },
  {
   "property": "C31",
   "status": "partial",
   "theorems": [
    "tcp_received",
    "tcp_accumulate_partial",
    "tcp_accumulate_refuted"
   ],
   "note": "Every byte is presented once, but bytes left unconsumed are discarded before the next read, against the documentation (finding)."
  },
  {
   "property": "C32",
   "status": "partial",
   "theorems": [
    "config_path",
    "config_unique",
    "config_found",
    "config_missing",
    "config_malformed_refuted"
   ],
   "note": "a malformed path is reported unless the part before the mistake is already missing (config_malformed_refuted, finding)"
  },
  {
   "property": "C33",
   "status": "proved",
   "theorems": [
    "config_getters"
   ],
   "note": "what the path leads to is C32; as_real of an integer is a parameter"
  },
  {
   "property": "C34",
   "status": "partial",
   "theorems": [
    "file_read_partial",
    "file_before",
    "file_collected",
    "file_error",
    "file_behind_refuted",
    "file_limit_refuted"
   ],
   "note": "holds for offsets within the file and limits below 2^63; outside, the operation fails with an exception instead of yielding the empty range or the whole file (findings)"
  },
  {
   "property": "C35",
   "status": "partial",
   "theorems": [
    "easy_order",
    "easy_complete",
    "easy_progress",
    "easy_close_last",
    "easy_not_dangling",
    "easy_stopped",
    "easy_careful",
    "easy_exclusive_partial",
    "easy_stream_partial",
    "easy_exclusive_refuted",
    "easy_dangling_refuted"
   ],
   "note": "order, exactly-once and progress hold for every interleaving; one fiber at a time holds unless the address of a closed socket is reused before its fiber has looked at the table again (easy_exclusive_refuted, finding)"
  },
  {
   "property": "C36",
   "status": "proved",
   "theorems": [
    "redis_scan_and_get"
   ],
   "note": "the result is a hash map whose iteration order erase() does not change (assumed); the server's replies are arbitrary"
  },
  {
   "property": "C37",
   "status": "partial",
   "theorems": [
    "redis_fetch",
    "redis_fetch_status",
    "redis_fetch_any",
    "redis_nested_status_refuted",
    "redis_print",
    "mongo_execute",
    "mongo_refused",
    "mongo_fetch_partial",
    "mongo_fetch_exact",
    "mongo_fetch_loses",
    "mongo_fetch_refuted",
    "mongo_print"
   ],
   "note": "Redis replies and printing, MongoDB commands and printing: proved at any depth. Replies of MongoDB: false (finding): elements that follow a non-empty array or document end up inside of it; proved faithful for all replies where this does not occur, and the exact result is given for the others. Statuses nested in Redis arrays become null (finding)."
  },
  {
   "property": "C38",
   "status": "partial",
   "theorems": [
    "sql_literal",
    "sql_integer",
    "sql_datetime",
    "sql_mode_refuted",
    "sql_charset_refuted"
   ],
   "note": "holds for servers in the default mode with a character set where backslash and quote are never trailing bytes; false with NO_BACKSLASH_ESCAPES or GBK (refuted). print_to is not used for sending arguments."
  },
  {
   "property": "C39",
   "status": "partial",
   "theorems": [
    "chunked_roundtrip",
    "responses_received",
    "requests_received",
    "chunked_close_refuted"
   ],
   "note": "proved for every sequence of chunks; false for a response with `Connection: close`, which shuts the connection down before its first chunk (finding)"
  },
  {
   "property": "C40",
   "status": "partial",
   "theorems": [
    "hv_clean",
    "hv_print",
    "hv_quoted",
    "hv_no_overrun",
    "hv_roundtrip",
    "hv_parse",
    "hv_exact",
    "hv_exact_refuted",
    "hv_token",
    "hv_unquoted",
    "hvn_print_partial",
    "hvn_number_partial",
    "hvn_number_text_refuted"
   ],
   "note": "exact round trip for text without control characters and adjacent spaces that is neither a number nor a date; sequences of blanks become one space, and a text that is a number is printed in another notation, 007 as 7 (both refuted); the number survives. Dates: C42 and hvn_date."
  },
  {
   "property": "C41",
   "status": "proved",
   "theorems": [
    "name_equal",
    "name_equivalence",
    "name_order",
    "name_hash",
    "name_canonical"
   ],
   "note": "asteria's case-insensitive comparison and hash are modelled, their source is not in the repository"
  },
  {
   "property": "C42",
   "status": "partial",
   "theorems": [
    "date_calendar",
    "date_fields",
    "date_roundtrip",
    "date_unique",
    "date_printed",
    "date_rfc1123",
    "date_asctime",
    "date_cookie",
    "date_git",
    "date_rfc850",
    "date_parse",
    "date_whole",
    "date_early_refuted",
    "date_overflow_refuted",
    "date_rfc850_refuted",
    "date_view_refuted",
    "date_lenient_refuted"
   ],
   "note": "calendar conversion for all second counts; every format round-trips for all times since 1900 (two-digit years: 1969-2068); refuted before 1900, beyond the range of a two-digit year, and for years after 2262 which overflow. The C library functions are modelled, not taken from the repository."
  },
  {
   "property": "C43",
   "status": "partial",
   "theorems": [
    "timespec_nanos",
    "timespec_exact_partial",
    "timespec_refuted"
   ],
   "note": "false only within the first second that an int64_t nanosecond count can represent"
  },
  {
   "property": "C44",
   "status": "partial",
   "theorems": [
    "geo_reduce360_partial",
    "geo_reduce180_partial",
    "geo_reduce360_refuted",
    "geo_reduce180_refuted"
   ],
   "note": "holds for all t >= -2147483160 (reduce360), t >= -2147483339 (reduce180); the code's result is wrong for every smaller t (finding)"
  },
  {
   "property": "C45",
   "status": "partial",
   "theorems": [
    "check_established",
    "check_unchanged",
    "check_twice_partial",
    "check_accepted",
    "check_created",
    "check_frame",
    "check_boolean_refuted",
    "check_primary_refuted",
    "check_nullable_refuted",
    "check_spelling_refuted"
   ],
   "note": "a second check alters nothing except in four cases that are refuted with witnesses (findings): boolean columns on servers that show display widths, a primary key requested not to be unique, a nullable column in the primary key, names spelled in another case. The server's ALTER TABLE and SHOW are represented by their documented behaviour."
  },
  {
   "property": "C46",
   "status": "partial",
   "theorems": [
    "time_stored",
    "time_stored_partial",
    "time_stored_refuted",
    "time_foreign"
   ],
   "note": "exact result for all zones; equal instants for all zones whose offset is a multiple of 30 minutes; false for quarter-hour zones (finding)"
  },
  {
   "property": "C47",
   "status": "proved",
   "theorems": [
    "appt_exclusive",
    "appt_live",
    "appt_try",
    "appt_lower",
    "appt_alone"
   ],
   "note": "fewer than 2^31 enrolments; a process that forks and keeps the description is not modelled"
  },
  {
   "property": "C48",
   "status": "proved",
   "theorems": [
    "stack_safe",
    "stack_exclusive",
    "stack_given",
    "stack_not_lost",
    "stack_reused",
    "stack_freed"
   ],
   "note": "Sequentially consistent memory; block addresses may be reused by the system, so that the ABA situation is part of the model."
  },
  {
   "property": "C49",
   "status": "partial",
   "theorems": [
    "ws_client_to_server_partial",
    "ws_server_to_client_partial",
    "ws_client_to_server_any_pieces",
    "ws_server_to_client_any_pieces"
   ],
   "note": "Compressed messages: see C74. For transports that cut frames it is proved exactly what arrives, and that all messages are whole unless a cut falls inside the payload of a TEXT or BINARY message (see C05 for the refutation)."
  },
  {
   "property": "C50",
   "status": "partial",
   "theorems": [
    "address_text_round_trip",
    "address_text_fits",
    "address_text_accepted_partial",
    "address_text_strict_refuted"
   ],
   "note": "inet_ntop/inet_pton enter as functions with stated laws (instantiated by sample functions). Text followed by an empty query or fragment is also accepted."
  },
  {
   "property": "C51",
   "status": "proved",
   "theorems": [
    "hdr_attribute",
    "hdr_element",
    "hdr_skip",
    "hdr_last",
    "hdr_all",
    "hdr_plain",
    "hdr_quoted",
    "hdr_end",
    "hdr_empty_refuted"
   ],
   "note": "empty list elements, which RFC 9110 wants ignored, end the usual loop (hdr_empty_refuted is a finding)"
  },
  {
   "property": "C52",
   "status": "proved",
   "theorems": [
    "responses_received",
    "response_last",
    "response_closes",
    "response_after",
    "page_received",
    "request_host",
    "requests_received",
    "injection_refuted"
   ],
   "note": "headers whose values contain line breaks are excluded: they are written as they are (injection_refuted is a finding)"
  },
  {
   "property": "C53",
   "status": "partial",
   "theorems": [
    "json_quote",
    "json_quote_utf8",
    "json_ascii",
    "json_prefix_refuted"
   ],
   "note": "holds if the number writer of asteria (not in the repository) writes eight digits; it writes a 0x prefix according to its other uses in this repository, and then no string with an escaped character is read (json_prefix_refuted, finding)"
  },
  {
   "property": "C54",
   "status": "partial",
   "theorems": [
    "mongo_print",
    "mongo_base64",
    "mongo_date",
    "mongo_date_refuted"
   ],
   "note": "milliseconds are within one of the right value; exactness is refuted (finding). How strings are quoted is C53; how doubles are printed belongs to asteria."
  },
  {
   "property": "C55",
   "status": "partial",
   "theorems": [
    "geo_circle",
    "geo_period",
    "geo_values",
    "geo_arctan",
    "geo_reflections",
    "geo_axes",
    "geo_total",
    "geo_full_turn_refuted",
    "geo_infinite_refuted"
   ],
   "note": "the decimal digits of the float literals are modelled, not their rounding to float; directions may be 360 instead of 0, and (inf,inf) gives 44 (findings); the far negative angles of C44 are excluded"
  },
  {
   "property": "C56",
   "status": "proved",
   "theorems": [
    "statement_arguments",
    "row_fetched"
   ],
   "note": "the MySQL client library is represented by its documented binding behaviour"
  },
  {
   "property": "C57",
   "status": "proved",
   "theorems": [
    "queue_order",
    "queue_complete",
    "queue_progress",
    "queue_exclusive",
    "queue_stopped"
   ],
   "note": ""
  },
  {
   "property": "C58",
   "status": "proved",
   "theorems": [
    "requests_arrive",
    "requests_prompt"
   ],
   "note": "the octets are represented by the calls that the library http_parser makes for them; requests whose Host is empty are excluded (see C61)"
  },
  {
   "property": "C59",
   "status": "proved",
   "theorems": [
    "target_told",
    "target_wrong",
    "target_unique",
    "target_round_trip",
    "target_forms_refuted",
    "userinfo_of_query_refuted",
    "ipv6_target_refuted"
   ],
   "note": "the two forms are specified as the server reads them; CONNECT and OPTIONS * are always rejected, and so are targets in origin form that contain a URI; two more oddities are shown with witnesses (findings)"
  },
  {
   "property": "C60",
   "status": "proved",
   "theorems": [
    "reception_limits"
   ],
   "note": ""
  },
  {
   "property": "C61",
   "status": "partial",
   "theorems": [
    "errors_final_partial",
    "errors_final_refuted",
    "switched_all"
   ],
   "note": "the rejection of an empty host is not final: the rejected request is delivered when more data arrives (finding)"
  },
  {
   "property": "C62",
   "status": "proved",
   "theorems": [
    "responses_arrive",
    "responses_complete"
   ],
   "note": "the octets are represented by the calls that the library http_parser makes for them"
  },
  {
   "property": "C63",
   "status": "partial",
   "theorems": [
    "response_limits_partial",
    "reason_limit_refuted"
   ],
   "note": "header fields and payloads stay within the limits; the reason phrase has no limit (finding)"
  },
  {
   "property": "C64",
   "status": "proved",
   "theorems": [
    "response_errors_final",
    "response_switch_final"
   ],
   "note": ""
  },
  {
   "property": "C65",
   "status": "partial",
   "theorems": [
    "server_handshake",
    "server_options",
    "server_accepts_any",
    "handshake_defined",
    "calm_without_colon",
    "negotiation_unique",
    "handshake_overflow_refuted"
   ],
   "note": "exact for headers that can be read as lists; for others, that acceptances are justified and in range; SHA-1 and the conversion of numbers are arguments; a header with a far date overflows (finding)"
  },
  {
   "property": "C66",
   "status": "proved",
   "theorems": [
    "client_request",
    "client_handshake",
    "client_accepts_any"
   ],
   "note": "exact for headers that can be read as lists; for others, that acceptances are justified; SHA-1 and the conversion of numbers are arguments; the status of the response does not matter (finding, C68)"
  },
  {
   "property": "C67",
   "status": "partial",
   "theorems": [
    "handshake_agreement",
    "agreement_level_zero_refuted"
   ],
   "note": "the client must not have a compression level of zero: it offers compression nevertheless and ignores that it has been accepted (finding)"
  },
  {
   "property": "C68",
   "status": "partial",
   "theorems": [
    "server_session",
    "server_closed_once",
    "client_session",
    "server_ready_after_closure_refuted",
    "server_switch_without_ready_refuted",
    "client_status_refuted",
    "client_ready_after_closure_refuted"
   ],
   "note": "a session may be opened after it has been closed (findings)"
  },
  {
   "property": "C69",
   "status": "partial",
   "theorems": [
    "net_refines",
    "net_connected_once",
    "net_over_last",
    "net_over_told",
    "net_bytes",
    "net_eof",
    "net_connected_first",
    "net_eof_once_refuted",
    "net_connected_first_refuted",
    "net_over_told_refuted"
   ],
   "note": "the end of the stream is told twice if the peer ends first; bytes may come without a notice of the connection if the user has shut it down before; memory exhaustion loses the notice of closure (findings)"
  },
  {
   "property": "C70",
   "status": "proved",
   "theorems": [
    "net_paused",
    "net_input_owed",
    "net_resumes"
   ],
   "note": "what the system owes is its contract for edge-triggered events"
  },
  {
   "property": "C71",
   "status": "partial",
   "theorems": [
    "accept_all",
    "accept_returns_refuted"
   ],
   "note": "an error that persists keeps the network thread in the loop (finding)"
  },
  {
   "property": "C72",
   "status": "partial",
   "theorems": [
    "udp_packets",
    "udp_reply",
    "udp_sent",
    "udp_send_result",
    "udp_returns_refuted"
   ],
   "note": "an error that persists keeps the network thread in the loop (finding)"
  },
  {
   "property": "C73",
   "status": "partial",
   "theorems": [
    "dns_query",
    "dns_query_order",
    "dns_connects",
    "dns_connect_expired",
    "dns_prefers_ipv4_refuted",
    "dns_failure_told_refuted"
   ],
   "note": "IPv4 addresses are not preferred, and a failure is not told (findings)"
  },
  {
   "property": "C74",
   "status": "partial",
   "theorems": [
    "ws_compressed_exact",
    "ws_compressed_delivered",
    "ws_compressed_client_to_server",
    "ws_compressed_server_to_client",
    "ws_compressed_final_block_refuted",
    "ws_compressed_growth_refuted",
    "ws_compressed_cut_refuted",
    "ws_compressed_pieces"
   ],
   "note": "zlib is assumed to obey its documentation (contracts in DeflSpec); messages that end with a final block, and messages that grow beyond the limit, are refused (findings), and so are messages whose frames are cut by the transport anywhere after the header, or they are corrupted (ws_compressed_cut_refuted)"
  },
  {
   "property": "C75",
   "status": "partial",
   "theorems": [
    "deflator_round_trip",
    "deflator_flush",
    "inflator_stops",
    "inflator_cut",
    "deflator_calls_end",
    "deflator_small_buffers",
    "deflator_after_finish_refuted"
   ],
   "note": "zlib is assumed to obey its documentation (contracts in DeflSpec); deflate after finish throws, although it is documented to return zero (finding)"
  },
  {
   "property": "C76",
   "status": "partial",
   "theorems": [
    "events_in_turn",
    "fibers_settle",
    "http_server_serves",
    "http_server_errors",
    "http_kinds",
    "http_client_receives",
    "http_client_responses",
    "callback_exceptions",
    "http_closure_lost_refuted",
    "http_proxy_refused_refuted"
   ],
   "note": "A closure may be lost after an error because the type of an event is not set, and requests to proxies are both refused and served (findings)"
  },
  {
   "property": "C77",
   "status": "partial",
   "theorems": [
    "ws_server_conversation",
    "hws_server_conversation",
    "ws_client_conversation",
    "ws_server_hears_partial",
    "ws_client_hears_partial",
    "ws_server_hears_any_pieces",
    "ws_client_hears_any_pieces",
    "hws_plain_requests",
    "callback_exceptions",
    "hws_replies_in_order_refuted"
   ],
   "note": "What the callback is told of uncompressed messages sent after the handshake is determined for all pieces in which the stream may arrive; of a text or binary message that is cut inside its payload the beginning is lost (finding, see C05); errors may overtake earlier replies (finding)"
  },
  {
   "property": "C78",
   "status": "partial",
   "theorems": [
    "mysql_pooled_as_new_partial",
    "redis_pooled_as_new_partial",
    "mongo_pooled_as_new",
    "mysql_nothing_left_partial",
    "redis_nothing_left_partial",
    "mongo_nothing_left",
    "mysql_statement_left_refuted",
    "mysql_database_leaks_refuted",
    "mysql_broken_pooled_refuted",
    "redis_selection_leaks_refuted",
    "redis_replies_leak_refuted"
   ],
   "note": "False for statements that change the current database (MySQL), for connections that broke in prepare and are put back without reset (MySQL), and for commands that change the session or have several replies (Redis); proved otherwise, and without restriction for MongoDB"
  },
  {
   "property": "C79",
   "status": "partial",
   "theorems": [
    "mysql_query_complete",
    "mysql_query_all_or_error",
    "redis_query_complete",
    "redis_query_all_or_error",
    "mongo_query_complete",
    "mongo_query_all_or_error",
    "mysql_partial_result_refuted",
    "mysql_no_result_refuted",
    "mysql_stale_metadata_refuted",
    "redis_error_fetched_refuted"
   ],
   "note": "Proved of the initializers; but an exception is not reported by the future (C25), so that a partial result can not be told from a complete one"
  },
  {
   "property": "C80",
   "status": "partial",
   "theorems": [
    "service_uris",
    "service_defaults",
    "service_uris_refuted"
   ],
   "note": "A database without a host is refused, and an at sign in the query is taken for the end of the user if there is no path"
  },
  {
   "property": "C81",
   "status": "partial",
   "theorems": [
    "launcher_status_partial",
    "launcher_reports_failure",
    "launcher_returns_partial",
    "launcher_ignored_refuted",
    "launcher_inherited_refuted"
   ],
   "note": "Proved unless SIGCHLD is ignored when the program is started or somebody kills the processes that wait; that it returns, unless another process has inherited the pipe; both exceptions are refuted with witnesses"
  },
  {
   "property": "C82",
   "status": "partial",
   "theorems": [
    "one_instance_partial",
    "lock_decides",
    "pid_file_text",
    "pid_file_exact_partial",
    "pid_line_readable",
    "lone_start",
    "pid_file_emptied_refuted",
    "one_instance_refuted",
    "pid_reader_refuted",
    "pid_file_remains_refuted"
   ],
   "note": "One instance: proved if locks are converted atomically, which flock does not guarantee (refuted otherwise). The text: a second start empties the file of a running instance (refuted); proved exact while no other is started and without mishaps"
  },
  {
   "property": "C83",
   "status": "proved",
   "theorems": [
    "command_line_meaning",
    "command_line_invalid",
    "command_line_forms",
    "command_line_posix",
    "start_up",
    "ready_iff",
    "exit_status"
   ],
   "note": "getopt of the GNU C library is modelled from its documentation"
  },
  {
   "property": "C84",
   "status": "proved",
   "theorems": [
    "requests_end_to_end",
    "responses_end_to_end",
    "closing_response_end_to_end"
   ],
   "note": "Rests on a contract of the library http_parser about well-formed messages (HtripSpec), which is a premise, not an axiom; two libraries that meet it are exhibited. Bodies of methods other than POST, PUT and PATCH are not taken by the server, and the statement says so"
  },
  {
   "property": "C85",
   "status": "partial",
   "theorems": [
    "ssl_write_repeats",
    "ssl_write_nonempty",
    "ssl_in_order",
    "ssl_notify_last",
    "ssl_notify_after_fatal_partial",
    "ssl_notify_after_fatal_refuted"
   ],
   "note": "All but the last part is proved for every history. SSL_shutdown after a fatal error is excluded if calls of ssl_shut_down do not overlap with other calls, and refuted if they do"
  },
  {
   "property": "C86",
   "status": "partial",
   "theorems": [
    "ssl_write_resumed",
    "ssl_read_resumed_refuted",
    "ssl_client_begins_refuted"
   ],
   "note": "Writes are resumed. Refuted for reads that wait for the socket to be writable, and for clients that have nothing to send"
  },
  {
   "property": "C87",
   "status": "partial",
   "theorems": [
    "ssl_isolated_partial",
    "ssl_bytes_own",
    "ssl_isolated_refuted",
    "ssl_isolated_shut_refuted"
   ],
   "note": "Proved as long as no call leaves an error in the queue of the thread; bytes are never mixed up in any history. Refuted otherwise: the error queue of OpenSSL is not emptied"
  },
  {
   "property": "C88",
   "status": "partial",
   "theorems": [
    "conn_connects",
    "conn_tcp_exact",
    "conn_exact_partial",
    "conn_ws_request",
    "conn_empty_refuted",
    "conn_fragment_refuted"
   ],
   "note": "What is accepted is treated as stated. TCP and SSL clients accept exactly what is documented; the others also accept the empty text and fragments (refuted)"
  },
  {
   "property": "C89",
   "status": "partial",
   "theorems": [
    "conn_host_partial",
    "conn_verify_partial",
    "conn_host_refuted",
    "conn_verify_v6_refuted",
    "conn_verify_ssl_refuted"
   ],
   "note": "Proved for hosts that are not in brackets, of at most 253 characters, for HTTPS and secure WebSockets. Refuted for IPv6 addresses in brackets, and for SSL clients"
  },
  {
   "property": "C90",
   "status": "partial",
   "theorems": [
    "hvn_last",
    "hvn_text",
    "hvn_text_total",
    "hvn_int",
    "hvn_dbl",
    "hvn_date",
    "hvn_read_date",
    "hvn_stale_refuted",
    "hvn_date_null_refuted"
   ],
   "note": "What a value is said to be depends only on what was assigned last. as_integer(), as_double() and as_datetime() of a text that is none may be what they were before (refuted), and a date that was read is said to be null (refuted). Reading and writing of numbers is external (arguments)"
  },
  {
   "property": "C91",
   "status": "partial",
   "theorems": [
    "rel_last",
    "rel_last_fiber_partial",
    "rel_last_logger",
    "rel_log_open",
    "rel_log_exact_partial",
    "rel_log_refuted"
   ],
   "note": "All or nothing for every component, except that after a rejected file all levels of the logger are enabled (refuted; the files of levels are unaffected). Arrays of files have less than 10^20 elements"
  },
  {
   "property": "C92",
   "status": "partial",
   "theorems": [
    "rel_settings",
    "rel_settings_fiber_partial",
    "rel_stack_refuted",
    "rel_request_default_refuted",
    "rel_empty_uri_refuted",
    "rel_stack_multiple_refuted"
   ],
   "note": "What is accepted, and what the settings are then, for every file. The documentation is refuted for the default limit of requests, for empty URIs, and for sizes of stacks; limits of the system of 4 GiB or more are truncated (refuted)"
  },
  {
   "property": "C93",
   "status": "proved",
   "theorems": [
    "rel_ctx_live",
    "rel_ctx_freed",
    "rel_ctx_current"
   ],
   "note": ""
  },
  {
   "property": "C94",
   "status": "partial",
   "theorems": [
    "name_sequence",
    "name_shared_partial",
    "name_kept",
    "name_errno",
    "name_torn_refuted",
    "name_race_refuted"
   ],
   "note": "Calls one after another are settled. With several threads, addresses are right if the system never reports two different ones with ports; otherwise a mixture of two can be read (refuted), and the member is written while others read it even with a single address (refuted)"
  },
  {
   "property": "C95",
   "status": "partial",
   "theorems": [
    "listening",
    "adopted",
    "deferred",
    "group_joined",
    "group_left",
    "group_not_joined_partial",
    "group_atomic_refuted"
   ],
   "note": "All of it, except that join_multicast_group() may throw an exception after the socket has joined the group (refuted)"
  },
  {
   "property": "C96",
   "status": "partial",
   "theorems": [
    "life_started",
    "life_start_failed",
    "life_stopped_partial",
    "life_restarted",
    "life_ended",
    "life_accepts",
    "life_connected",
    "life_owns",
    "life_released",
    "life_start_same",
    "life_stop_callback_refuted",
    "life_stop_listener_refuted",
    "life_unwatched_refuted"
   ],
   "note": "start() and what is open while the server runs are settled. stop() closes everything only if no callback is in progress and nobody keeps references (life_stopped_partial); otherwise connections stay open, callbacks are still called and the port stays in use (refuted). A running server cannot be started at its own address again (life_start_same), and a connection that the scheduler refuses to watch is never closed (life_unwatched_refuted)"
  },
  {
   "property": "C97",
   "status": "proved",
   "theorems": [
    "log_message_trimmed",
    "throw_text",
    "throw_defined",
    "log_line",
    "log_colours",
    "logger_appearance"
   ],
   "note": "Hexadecimal numbers (asteria) and the stack (libunwind) are arbitrary. log_colours is about messages that are not empty: with colours, an empty message leaves a space after the tag"
  },
  {
   "property": "C98",
   "status": "partial",
   "theorems": [
    "create_statement",
    "alter_statement",
    "show_statements",
    "backtick_refuted"
   ],
   "note": "For names without backticks, a table with at least one column, integers of 64 bits, times since 1900, and doubles whose texts (asteria) consist of digits, letters, signs and points. For names with backticks it is refuted. The tokens and the grammar are those of the manual of MySQL with default modes; values outside the enumerations are not represented"
  },
  {
   "property": "C99",
   "status": "partial",
   "theorems": [
    "vec_rotate_length",
    "vec_rotate_products",
    "vec_rotate_back",
    "vec_rotate_turns",
    "vec_rotate_linear",
    "vec_points",
    "vec_polar",
    "vec_polar_negative",
    "vec_rotate_angle",
    "deg_reduced",
    "deg_arithmetic",
    "deg_mul_nearest",
    "deg_div_truncates",
    "deg_halves_refuted",
    "vec_unit",
    "vec_unit_axes",
    "vec_magnitude"
   ],
   "note": "Coordinates are exact, so the rounding of floats is not covered; quotients of coordinates have nine decimals; angles from -2147483160 to 2147483287 (see C44). That division is multiplication by the reciprocal is refuted. The square root of the processor and the approximation of its reciprocal are arguments with given errors"
  }
 ]
}