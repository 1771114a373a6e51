{"id": "C01", "title": "WebSocket frame header wire round trip", "statement": "Encoding any frame header (flags, opcode, optional mask key, payload length) and parsing the produced bytes yields the same header and consumes exactly those bytes, whatever follows them; and the bytes are the RFC 6455 layout with the shortest length form.", "quantifier": "every FIN/RSV combination, every accepted opcode, every 64-bit payload length, masked or not, every mask key, every trailing byte string", "why_tests_cant": "2^64 lengths x 2^32 keys x flags x arbitrary trailing data cannot be enumerated; the length form switches at 126 and 65536", "anchors": ["poseidon/src/http/websocket_frame_header.cpp:encode", "poseidon/src/http/websocket_frame_parser.cpp:parse_frame_header_from_stream"]}
{"id": "C02", "title": "WebSocket payload masking", "statement": "Masking a payload is byte-wise XOR with the mask key cycled from its first byte, independent of how the payload is split into pieces and of buffer alignment; masking the result again restores the original.", "quantifier": "every key, every payload, every partition into successive pieces, every alignment of the buffer", "why_tests_cant": "alignment x size x split space is unbounded and the SIMD body is only reached for some of it", "anchors": ["poseidon/src/http/websocket_frame_header.cpp:mask_payload"]}
{"id": "C03", "title": "WebSocket header parsing does not depend on how bytes are delivered", "statement": "Delivering a frame header in one piece or in any number of pieces leads to the same accepted header or the same error.", "quantifier": "every frame header and every way to split its bytes over successive calls", "why_tests_cant": "tests deliver whole frames; the defect only shows for a frame split after its second byte", "anchors": ["poseidon/src/http/websocket_frame_parser.cpp:parse_frame_header_from_stream"]}
{"id": "C04", "title": "WebSocket frame acceptance rules", "statement": "A server accepts only masked frames (a client tolerates both); reserved bits, unknown opcodes, oversized or fragmented control frames, a continuation without a started message and a new data frame inside a message are refused, and everything else is accepted.", "quantifier": "every sequence of frames in either role", "why_tests_cant": "rules depend on history over unbounded frame sequences", "anchors": ["poseidon/src/http/websocket_frame_parser.cpp:parse_frame_header_from_stream"]}
{"id": "C05", "title": "WebSocket message reassembly", "statement": "The message handed to the application is the concatenation of the unmasked payloads of its fragments in order, with control frames interleaved anywhere having no effect on it, however the payload bytes were delivered.", "quantifier": "every fragmentation of every message, every interleaving of control frames, every split of the byte stream", "why_tests_cant": "unbounded streams; loss occurs only for particular splits", "anchors": ["poseidon/src/socket/ws_server_session.cpp:do_on_http_upgraded_stream", "poseidon/src/http/websocket_frame_parser.cpp:parse_frame_payload_from_stream"]}
{"id": "C06", "title": "WebSocket close notification is delivered exactly once", "statement": "On every session the close callback is called at most once, and has been called once by the time an established session's socket is reported closed.", "quantifier": "every history of frames, errors, shutdown calls and socket closure", "why_tests_cant": "histories are unbounded", "anchors": ["poseidon/src/socket/ws_server_session.cpp:do_call_on_ws_close_once"]}
{"id": "C07", "title": "WebSocket close frame contents", "statement": "The close frame sent on shutdown always carries a status in 1000..4999 and at most 123 bytes of reason, so it is a legal control frame.", "quantifier": "every status code and reason string", "why_tests_cant": "all reason lengths and codes", "anchors": ["poseidon/src/socket/ws_server_session.cpp:ws_shut_down"]}
{"id": "C08", "title": "UUID text round trip and acceptance", "statement": "Printing and parsing a UUID is the identity; the parser accepts exactly the 36-character 8-4-4-4-12 hexadecimal form, in either letter case, and reports exactly 36 characters consumed.", "quantifier": "all 2^128 UUIDs, all byte strings", "why_tests_cant": "2^128 values and unbounded strings", "anchors": ["poseidon/src/base/uuid.cpp:parse_partial", "poseidon/src/base/uuid.cpp:print_partial"]}
{"id": "C09", "title": "UUID ordering", "statement": "UUID comparison is a total order that agrees with equality and with the lexicographic order of the printed text. A UUID is reported as nil exactly when all of its octets are zero; min() and max() bound all UUIDs; and the hash is a function of the octets that changes whenever just one of the four groups of four octets changes.", "quantifier": "all pairs and triples of UUIDs", "why_tests_cant": "2^256 pairs", "anchors": ["poseidon/src/base/uuid.cpp:compare", "poseidon/base/uuid.hpp: is_nil, hash"]}
{"id": "C10", "title": "Version 7 UUIDs have the right fields and sort by creation", "statement": "A random version 7 UUID carries version 7, variant 2 and its millisecond time stamp, and UUIDs created one after another by the process compare in creation order.", "quantifier": "every clock history and every number of UUIDs created per millisecond", "why_tests_cant": "needs adversarial clocks and more than 4096 creations per millisecond", "anchors": ["poseidon/src/base/uuid.cpp:random"]}
{"id": "C11", "title": "IPv6 address classification", "statement": "An address is classified loopback, private, multicast, reserved, ... exactly according to the documented CIDR blocks, with IPv4-mapped addresses classified by their IPv4 part.", "quantifier": "all 2^128 addresses", "why_tests_cant": "2^128 addresses; errors hide at prefix boundaries", "anchors": ["poseidon/src/socket/ipv6_address.cpp:classify"]}
{"id": "C12", "title": "Subnet matching", "statement": "The subnet test succeeds exactly when the leading n bits of both addresses agree, for every prefix length.", "quantifier": "all address pairs and prefix lengths 0..128", "why_tests_cant": "2^256 pairs", "anchors": ["poseidon/src/socket/ipv6_address.cpp:do_match_subnet"]}
{"id": "C13", "title": "Address ordering and equality", "statement": "Comparison of socket addresses is a total order on (address, port), zero exactly for equal addresses.", "quantifier": "all pairs and triples of socket addresses", "why_tests_cant": "2^288 pairs", "anchors": ["poseidon/src/socket/ipv6_address.cpp:compare"]}
{"id": "C14", "title": "Query string encoding round trip", "statement": "Encoding a sequence of name/value pairs as a URI query and parsing it back yields the same pairs in order; encoded text contains only characters that are legal in a query.", "quantifier": "every sequence of byte-string pairs", "why_tests_cant": "unbounded strings over all 256 byte values", "anchors": ["poseidon/src/utils.cpp:encode_and_append_uri_query", "poseidon/src/http/http_query_parser.cpp:next_element"]}
{"id": "C15", "title": "URI path canonicalization", "statement": "A decoded and canonicalized path starts with '/', contains no empty, '.' or '..' segment, never escapes the root, and equals the stack interpretation of its segments.", "quantifier": "every byte string used as a request path", "why_tests_cant": "path traversal bugs live in unusual inputs (e.g. malformed percent escapes)", "anchors": ["poseidon/src/utils.cpp:decode_and_canonicalize_uri_path"]}
{"id": "C16", "title": "URI path encoding round trip", "statement": "Percent-encoding a canonical path and decoding it again yields the path; the encoded text uses only path-legal characters.", "quantifier": "every canonical path over all byte values", "why_tests_cant": "unbounded strings", "anchors": ["poseidon/src/utils.cpp:encode_and_append_uri_path", "poseidon/src/utils.cpp:decode_and_canonicalize_uri_path"]}
{"id": "C17", "title": "explode/implode", "statement": "Joining segments with a delimiter and exploding the result gives the segments back; exploding yields trimmed segments that are slices of the source, at most `limit` of them.", "quantifier": "every list of segments, delimiter and limit, every source string", "why_tests_cant": "unbounded strings; failures need blank segments", "anchors": ["poseidon/src/utils.cpp:explode", "poseidon/src/utils.cpp:implode"]}
{"id": "C18", "title": "Network reference parsing", "statement": "Parsing `host:port/path?query#fragment` returns how many bytes were consumed, never more than the input, yields sub-ranges that lie inside the input in order without overlap, a port in 0..65535 equal to its digits, and re-assembling the parts gives the consumed text.", "quantifier": "every byte string", "why_tests_cant": "unbounded strings, including truncated and malformed ones", "anchors": ["poseidon/src/utils.cpp:parse_network_reference"]}
{"id": "C19", "title": "Timers never fire early and follow their schedule", "statement": "A timer's callback is never run before its due time, a one-shot timer runs at most once, a periodic timer runs at exactly start+k*period in order, timers are run in order of due time, and abandoned or destroyed timers do not run.", "quantifier": "every set of timers, every history of insertions, clock readings and wakeups", "why_tests_cant": "needs all schedules and clock histories", "anchors": ["poseidon/src/static/timer_scheduler.cpp:thread_loop", "poseidon/src/static/timer_scheduler.cpp:insert_weak"]}
{"id": "C20", "title": "Fibers are not lost and are resumed only for a reason", "statement": "Every launched fiber is eventually started and each resumption of a waiting fiber happens only after its future completed or its deadline passed; a finished fiber is never resumed.", "quantifier": "every schedule of launches, yields, future completions and clock readings", "why_tests_cant": "needs all interleavings", "anchors": ["poseidon/src/static/fiber_scheduler.cpp:thread_loop", "poseidon/src/static/fiber_scheduler.cpp:yield"]}
{"id": "C21", "title": "Socket lookup table is exact", "statement": "Every open socket the scheduler was given is found by its handle until it is removed, removed or expired ones are not confused with live ones, and lookup always terminates, across growth of the table.", "quantifier": "every history of insertions, expiries and lookups and every hash of addresses", "why_tests_cant": "unbounded histories and adversarial hash collisions", "anchors": ["poseidon/src/static/network_scheduler.cpp:insert_weak", "poseidon/src/static/network_scheduler.cpp:thread_loop"]}
{"id": "C22", "title": "Logger keeps every important message, in order", "statement": "Messages are written in the order they were enqueued, each at most once; a message is dropped only if its level is expendable and the batch is congested; when a synchronization returns everything enqueued before it has been written.", "quantifier": "every history of enqueues, writes and synchronizations by any number of threads", "why_tests_cant": "needs all interleavings and batch sizes", "anchors": ["poseidon/src/static/logger.cpp:thread_loop", "poseidon/src/static/logger.cpp:synchronize"]}
{"id": "C23", "title": "Logger output cannot be forged", "statement": "A log message cannot inject control characters or line breaks into the log: every byte below 0x20 (other than TAB) and 0x7F of the message is escaped or expanded, and its record is one line, so one message never looks like several.", "quantifier": "every message byte string", "why_tests_cant": "unbounded strings", "anchors": ["poseidon/src/static/logger.cpp:do_write_nothrow"]}
{"id": "C24", "title": "Futures initialize once", "statement": "The initialization callback of a future runs at most once whatever the calls, once finished it never becomes unfinished, and every waiting fiber registered before completion is woken.", "quantifier": "every interleaving of initialization attempts and waits", "why_tests_cant": "needs all interleavings", "anchors": ["poseidon/src/fiber/abstract_future.cpp:do_abstract_future_initialize_once"]}
{"id": "C25", "title": "Futures rethrow the saved exception", "statement": "Checking a finished future whose initialization failed rethrows the saved exception.", "quantifier": "every future state", "why_tests_cant": "the failing path is never covered by the project's tests", "anchors": ["poseidon/fiber/abstract_future.hpp:check_success", "poseidon/src/fiber/abstract_future.cpp:do_abstract_future_check_success"]}
{"id": "C26", "title": "Asynchronous tasks run exactly once", "statement": "Every launched task that is not abandoned is executed exactly once by some worker; none is lost or run twice.", "quantifier": "every number of workers and every interleaving of launches and workers", "why_tests_cant": "needs all interleavings", "anchors": ["poseidon/src/static/task_scheduler.cpp:thread_loop", "poseidon/src/static/task_scheduler.cpp:launch"]}
{"id": "C27", "title": "Asynchronous tasks run in launch order", "statement": "With one worker, tasks are executed in the order in which they were launched.", "quantifier": "every history of launches and worker steps", "why_tests_cant": "order depends on batching", "anchors": ["poseidon/src/static/task_scheduler.cpp:thread_loop"]}
{"id": "C28", "title": "Connection pools hand out a connection to one user at a time", "statement": "A pooled database connection is never held by two users, only reset connections for the same service are handed out, the pool never exceeds its configured size, and the newest suitable connection is preferred.", "quantifier": "every history of allocations, returns and clock readings", "why_tests_cant": "unbounded histories", "anchors": ["poseidon/src/static/redis_connector.cpp", "poseidon/src/static/mysql_connector.cpp", "poseidon/src/static/mongo_connector.cpp"]}
{"id": "C29", "title": "TCP sends are transmitted in order without loss or duplication", "statement": "While the connection is up, the bytes handed to the kernel followed by the bytes still queued are exactly the concatenation of all accepted sends, for every pattern of partial writes.", "quantifier": "every history of sends, partial writes, would-block results, write notifications and shutdown calls", "why_tests_cant": "needs all partial-write patterns", "anchors": ["poseidon/src/socket/tcp_socket.cpp:tcp_send", "poseidon/src/socket/tcp_socket.cpp:do_abstract_socket_on_writeable"]}
{"id": "C30", "title": "Graceful shutdown flushes", "statement": "After a graceful shutdown request the connection is closed only once all accepted data have been written; later sends are refused; connection states only move forward.", "quantifier": "every history of sends, writes and shutdown requests", "why_tests_cant": "needs all partial-write patterns", "anchors": ["poseidon/src/socket/tcp_socket.cpp:tcp_shut_down", "poseidon/src/socket/abstract_socket.cpp:quick_shut_down"]}
{"id": "C31", "title": "Received stream data are handed over completely", "statement": "The stream callback sees every received byte, and bytes it leaves unconsumed are presented again together with newer ones.", "quantifier": "every sequence of receive sizes and every consumption behaviour of the callback", "why_tests_cant": "depends on how the network splits data", "anchors": ["poseidon/src/socket/tcp_socket.cpp:do_abstract_socket_on_readable"]}
{"id": "C32", "title": "Configuration paths", "statement": "A configuration query `a.b[3].c` resolves to exactly the value reached by following its names and subscripts; a malformed path is reported and never resolves; a missing component gives null.", "quantifier": "every path string and every configuration tree", "why_tests_cant": "unbounded strings and trees", "anchors": ["poseidon/src/base/config_file.cpp:query"]}
{"id": "C33", "title": "Configuration getters", "statement": "Typed getters return only values of the requested type within the requested bounds, report absence for null, and fail otherwise.", "quantifier": "every value and every bound pair", "why_tests_cant": "unbounded integer ranges", "anchors": ["poseidon/src/base/config_file.cpp:get_integer_opt"]}
{"id": "C34", "title": "Asynchronous file reads return the requested range", "statement": "The data returned are exactly the bytes of the file from the requested offset up to the limit or the end of file, however short the individual reads are.", "quantifier": "every file, offset, limit and pattern of short reads", "why_tests_cant": "needs all short-read patterns", "anchors": ["poseidon/src/fiber/read_file_future.cpp:do_on_abstract_task_execute"]}
{"id": "C35", "title": "Easy servers deliver events in order, exactly once", "statement": "Events of a session are delivered to the application in the order they occurred, each exactly once, by one fiber at a time, and no event is left behind without a fiber to deliver it.", "quantifier": "every interleaving of the network thread and the fibers", "why_tests_cant": "needs all interleavings", "anchors": ["poseidon/src/easy/easy_tcp_server.cpp:do_push_event_common"]}
{"id": "C36", "title": "Redis SCAN+GET result", "statement": "The result maps exactly the keys whose replies are strings to those strings.", "quantifier": "every list of keys and replies", "why_tests_cant": "erase-while-iterating depends on the pattern of missing values", "anchors": ["poseidon/src/fiber/redis_scan_and_get_future.cpp:do_on_abstract_future_initialize"]}
{"id": "C37", "title": "Nested replies are converted faithfully", "statement": "Converting or printing a nested reply with the hand-written stack gives the same result as the recursive definition, for any nesting depth.", "quantifier": "every finite reply tree", "why_tests_cant": "unbounded depth and breadth", "anchors": ["poseidon/src/redis/redis_connection.cpp:fetch_reply", "poseidon/src/redis/redis_value.cpp:print_to", "poseidon/src/mongo/mongo_value.cpp:print_to"]}
{"id": "C38", "title": "MySQL string literals cannot be escaped from", "statement": "A blob printed as an SQL literal is a single quoted literal that an SQL lexer reads back as the same bytes.", "quantifier": "every byte string", "why_tests_cant": "injection needs unusual bytes", "anchors": ["poseidon/src/mysql/mysql_value.cpp:print_to"]}
{"id": "C39", "title": "Chunked transfer encoding round trip", "statement": "The bytes produced by chunked responses are decoded by the standard chunk grammar to the concatenation of the chunks, and the message is terminated exactly once.", "quantifier": "every sequence of chunks", "why_tests_cant": "unbounded sequences of chunks of all sizes", "anchors": ["poseidon/src/socket/http_server_session.cpp:http_chunked_response_send", "poseidon/src/socket/http_server_session.cpp:http_chunked_respnse_finish"]}
{"id": "C40", "title": "HTTP header values survive quoting", "statement": "A header value written with quoting and parsed back gives the original text; quoted output never contains a bare quote or a line break it did not have.", "quantifier": "every string", "why_tests_cant": "unbounded strings", "anchors": ["poseidon/src/http/http_value.cpp:print_to", "poseidon/src/http/http_value.cpp:parse_quoted_string_partial"]}
{"id": "C41", "title": "HTTP field names are case-insensitive", "statement": "Field name equality ignores ASCII case, is an equivalence, agrees with the three-way comparison and with hashing, and canonicalization is idempotent and preserves equality.", "quantifier": "every pair of strings", "why_tests_cant": "unbounded strings", "anchors": ["poseidon/src/http/http_field_name.cpp"]}
{"id": "C42", "title": "Calendar dates", "statement": "Converting a second count to calendar fields and back is the identity; printed dates are well-formed and parse back to the same second in every supported format.", "quantifier": "every second in the supported range", "why_tests_cant": "10^11 seconds times formats", "anchors": ["poseidon/src/base/datetime.cpp"]}
{"id": "C43", "title": "Time stamps split into seconds and nanoseconds correctly", "statement": "Converting a clock reading to seconds and nanoseconds gives nanoseconds in 0..999999999 and recombines to the same instant.", "quantifier": "every 64-bit clock value", "why_tests_cant": "2^64 values; the failure is at the far negative end", "anchors": ["poseidon/utils.hpp:timespec_from_system_time"]}
{"id": "C44", "title": "Angles are reduced into range", "statement": "Reducing an angle yields a value in 0..359 (or -179..180) congruent to it modulo 360.", "quantifier": "every 32-bit integer angle", "why_tests_cant": "2^32 values; the failure is at the far negative end", "anchors": ["poseidon/geometry.hpp:reduce360", "poseidon/geometry.hpp:reduce180"]}
{"id": "C45", "title": "Table checking is idempotent", "statement": "After a table check has applied its alterations, checking again applies none; columns and indexes which already match are left alone.", "quantifier": "every table definition and every existing table", "why_tests_cant": "unbounded schemas", "anchors": ["poseidon/src/fiber/mysql_check_table_future.cpp"]}
{"id": "C46", "title": "Database time stamps survive storage", "statement": "A time stamp sent as a statement argument and read back denotes the same instant to the millisecond, whatever the local time zone.", "quantifier": "every instant and every zone offset", "why_tests_cant": "all zone offsets including quarter-hour ones", "anchors": ["poseidon/src/mysql/mysql_connection.cpp:execute", "poseidon/src/mysql/mysql_connection.cpp:fetch_row"]}
{"id": "C47", "title": "Appointments are exclusive", "statement": "Two live appointments on the same file never have the same index, and an index is one of the free slots.", "quantifier": "every history of enrolments, withdrawals and process deaths", "why_tests_cant": "needs all interleavings", "anchors": ["poseidon/src/base/appointment.cpp:enroll"]}
{"id": "C48", "title": "Fiber stacks are not shared", "statement": "A stack from the cache is never handed to two fibers at the same time and none is lost, for any number of concurrent pools and unpools.", "quantifier": "every interleaving of atomic steps", "why_tests_cant": "lock-free interleavings", "anchors": ["poseidon/src/static/fiber_scheduler.cpp"]}
{"id": "C49", "title": "WebSocket messages arrive end to end", "statement": "The messages, pings and pongs sent by one endpoint are delivered by the other endpoint with the same opcodes and contents, in the same order.", "quantifier": "every sequence of messages, every choice of masking keys, both directions", "why_tests_cant": "Unbounded sequences, sizes crossing every length form, all keys.", "anchors": ["poseidon/src/socket/ws_client_session.cpp: do_ws_send_raw_frame, ws_send", "poseidon/src/socket/ws_server_session.cpp: do_on_http_upgraded_stream, ws_send"]}
{"id": "C50", "title": "Socket address text round trip", "statement": "Printing any IPv4 or IPv6 socket address and parsing the text yields the same address and port and consumes all of it; the text fits the documented 48-byte buffer; only text of the documented form is accepted.", "quantifier": "every 128-bit address and 16-bit port, every input text", "why_tests_cant": "2^144 addresses; acceptance ranges over all texts", "anchors": ["poseidon/src/socket/ipv6_address.cpp:parse", "poseidon/src/socket/ipv6_address.cpp:print_partial"]}
{"id": "C51", "title": "Header lists are read attribute by attribute", "statement": "Reading a header with HTTP_Header_Parser finds every attribute of every element, in order, with its name and its value (none, a quoted string, a date, or plain text), whatever blanks surround them; next_attribute() never moves across a comma, next_element() skips exactly the attributes that remain of the current element, and an attribute is accepted only if it is followed by a separator or the end of the header.", "quantifier": "all header texts and all sequences of calls to next_attribute() and next_element()", "why_tests_cant": "The texts are unbounded and nested (quoting, escapes, blanks, separators inside quotes and dates); a test covers a few of them.", "anchors": ["poseidon/src/http/http_header_parser.cpp: HTTP_Header_Parser::do_next_attribute_from_separator", "poseidon/src/http/http_header_parser.cpp: HTTP_Header_Parser::next_attribute", "poseidon/src/http/http_header_parser.cpp: HTTP_Header_Parser::next_element"]}
{"id": "C52", "title": "Messages are delimited correctly", "statement": "Any sequence of responses (or requests) that an application makes on an HTTP session is read by a recipient that follows RFC 9112 as exactly those messages, in order, each with its status or method and target, its headers and its body, with nothing left over; a response with `Connection: close` is the last thing written; a request always has the Host header that was chosen for it.", "quantifier": "all sequences of calls, all headers without line breaks, all bodies, whole or in any number of chunks", "why_tests_cant": "Message boundaries depend on all previous messages and on arbitrary body bytes; request smuggling and response splitting arise from combinations nobody tested.", "anchors": ["poseidon/src/socket/http_server_session.cpp: HTTP_Server_Session::http_response", "poseidon/src/socket/http_client_session.cpp: HTTP_Client_Session::http_request", "poseidon/src/http/http_s_headers.cpp: HTTP_S_Headers::encode", "poseidon/src/http/http_c_headers.cpp: HTTP_C_Headers::encode", "poseidon/src/http/http_c_headers.cpp: HTTP_C_Headers::set_request_host"]}
{"id": "C53", "title": "JSON strings can be read back", "statement": "A string of arbitrary bytes that is written as a JSON string is read by a JSON reader as the characters of its UTF-8 text, with invalid bytes replaced one at a time, and the reader stops exactly behind the closing quote; only printable ASCII characters are written.", "quantifier": "all strings of bytes and everything that may follow them", "why_tests_cant": "Unicode has more than a million characters, and malformed UTF-8 can occur at any place of a string of any length.", "anchors": ["poseidon/src/utils.cpp: quote_json_string"]}
{"id": "C54", "title": "The text of MongoDB values is faithful", "statement": "Printing a MongoDB value yields text with proper brackets and separators at any depth; binary data is printed as base64 which decodes to the same bytes, object identifiers as their hexadecimal digits, time points as their milliseconds.", "quantifier": "all values, nested to any depth, binary data of any length, all time points", "why_tests_cant": "Base64 is written in blocks and has to agree at all lengths; the millisecond is computed with floating point and is wrong for scattered inputs only.", "anchors": ["poseidon/src/mongo/mongo_value.cpp: Mongo_Value::print_to"]}
{"id": "C55", "title": "Trigonometry in degrees is consistent", "statement": "Sines and cosines of integral degrees lie on the unit circle to the precision of the table, repeat after a full turn, are reflected properly, and have a tangent that is their quotient; the direction of any vector is an integral number of degrees whose tangents enclose the slope, reflections of a vector have the reflected directions, and no vector causes a failure.", "quantifier": "all integral angles, all pairs of floating-point coordinates including zeros, infinities and NaN", "why_tests_cant": "The table has 361 hand-written rows that are looked up for 2^32 angles, and pairs of doubles cannot be enumerated.", "anchors": ["poseidon/src/geometry.cpp: do_trig_degrees, do_reduced_arctan, do_arctan_degrees", "poseidon/geometry.hpp: degrees, vector2::direction"]}
{"id": "C56", "title": "Statement arguments and rows are conveyed faithfully", "statement": "Every argument of a MySQL statement is bound to the parameter of its position with its type and value, too few arguments are rejected, and each field of a fetched row gets the value of its column, whatever the length, so that no time stamp or buffer is shared between two of them.", "quantifier": "all statements with any number of parameters and arguments, all rows of any number of columns of any size", "why_tests_cant": "Buffers are allocated while others are referenced; mistakes appear only with certain combinations of types, positions and lengths.", "anchors": ["poseidon/src/mysql/mysql_connection.cpp: execute, fetch_row"]}
{"id": "C57", "title": "Ticks and datagrams reach callbacks in order, once, one at a time", "statement": "The callback of an easy timer or an easy UDP server or client is called for every tick or packet in the order they happen, each exactly once, never for two at the same time, even if the callback suspends its fiber; a tick that has been accepted is never left without a fiber to deliver it, and nothing is delivered once the object has been stopped and the running callback has returned.", "quantifier": "every interleaving of the timer or network thread, the fibers, exceptions and a stop", "why_tests_cant": "needs all interleavings", "anchors": ["poseidon/src/easy/easy_timer.cpp:do_abstract_timer_on_tick", "poseidon/src/easy/easy_timer.cpp:do_on_abstract_fiber_execute", "poseidon/src/easy/easy_udp_server.cpp:do_on_udp_packet", "poseidon/src/easy/easy_udp_client.cpp:do_on_udp_packet"]}
{"id": "C58", "title": "A server is told of every request, in order, however the stream is cut", "statement": "For every sequence of HTTP requests, and however the network cuts the stream into pieces, the handlers of a server session see each request exactly once and in order, with the method, target, headers, trailers and payload that the client sent, as soon as its head and its end have arrived; if something is wrong with a request (syntax, version, method, target, length), the requests before it are seen, then the error with the right status, and then nothing more. What the application takes from the payload while it arrives does not matter.", "quantifier": "all sequences of requests, all ways to cut them, all limits, all behaviours of an application that stays with HTTP", "why_tests_cant": "The cuts can fall within names, values, chunks and between messages in any combination, and several messages can arrive in one piece.", "anchors": ["poseidon/src/socket/http_server_session.cpp: HTTP_Server_Session::do_on_tcp_stream", "poseidon/src/http/http_request_parser.cpp: HTTP_Request_Parser"]}
{"id": "C59", "title": "The target of a request denotes the resource that the application sees", "statement": "The application is told of a host, user information, port, path and query if and only if the request target and the Host headers denote it, in the absolute form or in the origin form with exactly one Host; a target denotes at most one resource; any other target is rejected with status 400. What a client of this library writes for a resource is read as that resource.", "quantifier": "all targets, all lists of headers, all resources", "why_tests_cant": "Targets are arbitrary strings; confusing one part for another is a matter of unforeseen combinations of separators.", "anchors": ["poseidon/src/http/http_request_parser.cpp: on_headers_complete", "poseidon/src/http/http_c_headers.cpp: HTTP_C_Headers::encode"]}
{"id": "C60", "title": "A request never exceeds the configured limits in memory", "statement": "Whatever a client sends and whatever the application does, the head being received, the headers handed out and the payload that is buffered or handed out are never longer than the limits in the configuration.", "quantifier": "all sequences of parser events, well-formed or not, all behaviours of the application, all limits", "why_tests_cant": "The limits must hold at every moment, for every way to split a message and for pieces that only together exceed them.", "anchors": ["poseidon/src/http/http_request_parser.cpp: on_url, on_header_field, on_header_value, on_body", "poseidon/src/socket/http_server_session.cpp: do_on_tcp_stream"]}
{"id": "C61", "title": "Errors and protocol switches are final", "statement": "After a request has been answered with an error that ends the exchange, no handler of the session is called again, whatever arrives; after the protocol has been switched, everything that arrives goes to the handler of the other protocol, in order, and HTTP handlers are not called again.", "quantifier": "all inputs before and after the error or the switch, all applications", "why_tests_cant": "It concerns everything that may follow, and pieces that arrive in one read with the error or the switch.", "anchors": ["poseidon/src/socket/http_server_session.cpp: do_on_tcp_stream, http_response_headers"]}
{"id": "C62", "title": "Every HTTP response reaches the client exactly once and in order, however the stream is cut", "statement": "Whatever the pieces in which the stream from a server arrives and however the application consumes payloads, the client session calls its handlers for the head and the end of every response once, in the order of the stream, with the status, reason, headers, trailers and payload that were sent; it shuts the connection down after a response that closes it; after a response with status 101, or when the application asks for a tunnel, everything that follows goes to the handler of the other protocol; a malformed or oversized response ends the connection.", "quantifier": "all sequences of responses, complete or not, all cuts into pieces, all amounts of payload taken by the application, all limits", "why_tests_cant": "The cuts are chosen by the network, and the states in which a piece may end are unbounded in number.", "anchors": ["poseidon/src/socket/http_client_session.cpp: do_on_tcp_stream", "poseidon/src/http/http_response_parser.cpp: s_settings, parse_headers_from_stream, parse_payload_from_stream"]}
{"id": "C63", "title": "A response never exceeds the configured limits in memory", "statement": "Whatever a server sends and whatever the application does, the head being received, the headers handed out and the payload that is buffered or handed out are never longer than the limits in the configuration.", "quantifier": "all sequences of parser events, well-formed or not, all behaviours of the application, all limits", "why_tests_cant": "The limits must hold at every moment, for every way to split a message and for pieces that only together exceed them.", "anchors": ["poseidon/src/http/http_response_parser.cpp: on_status, on_header_field, on_header_value, on_body"]}
{"id": "C64", "title": "Errors and protocol switches of a client session are final", "statement": "After a client session has shut a connection down because of an error, no handler is called again, whatever arrives; after the protocol has been switched, everything that arrives goes to the handler of the other protocol, in order, and HTTP handlers are not called again.", "quantifier": "all inputs before and after the error or the switch, all applications, all limits", "why_tests_cant": "It concerns everything that may follow, and pieces that arrive in one read with the error or the switch.", "anchors": ["poseidon/src/socket/http_client_session.cpp: do_on_tcp_stream"]}
{"id": "C65", "title": "A WebSocket server answers an opening handshake correctly", "statement": "A request is refused with 400 if it asks to close the connection, with 426 if it does not have Upgrade: websocket, version 13 and a key of 24 characters, and is accepted with 101 otherwise. The reply then has the base64 digest of the key, and the connection uses the first offer of compression that is acceptable, with the parameters it names, which the reply repeats; nothing is undefined.", "quantifier": "all requests, all lists of headers in any order and number, all compression levels, all keys", "why_tests_cant": "The reply depends on every header of a request and the grammar of offers is unbounded.", "anchors": ["poseidon/src/http/websocket_frame_parser.cpp: accept_handshake_request, use_permessage_deflate"]}
{"id": "C66", "title": "A WebSocket client takes only a response that proves its key", "statement": "A client regards a connection as established if and only if the response does not ask to close it, names no unknown extension, has Upgrade: websocket and has the digest of the key that the client has sent; it uses the compression parameters in the response, which are always within range.", "quantifier": "all responses, all lists of headers, all keys, all compression levels", "why_tests_cant": "No test can try all forgeries of a response.", "anchors": ["poseidon/src/http/websocket_frame_parser.cpp: create_handshake_request, accept_handshake_response"]}
{"id": "C67", "title": "Both sides of a WebSocket handshake agree", "statement": "A client takes every reply with which a server accepts a request that has its key, and then the window a side compresses with is the window the other side decompresses with, and the client resets its context if and only if the request offered that.", "quantifier": "all requests with the key of the client, all offers of compression, all compression levels of both sides", "why_tests_cant": "It relates two programs over an unbounded set of offers.", "anchors": ["poseidon/src/http/websocket_frame_parser.cpp: accept_handshake_request, accept_handshake_response"]}
{"id": "C68", "title": "A WebSocket session is opened at most once and closed exactly once", "statement": "A session tells its application at most once that the connection is established, right after a request or response that justifies it; it sends no HTTP response after it has switched protocols; it tells its application exactly once that the connection has been closed, when the socket has been closed, and at most once before.", "quantifier": "all sequences of requests, responses, errors and closures", "why_tests_cant": "Histories are unbounded, and pipelined requests may follow a refused one.", "anchors": ["poseidon/src/socket/ws_server_session.cpp: do_ws_complete_handshake, do_call_on_ws_close_once, do_on_http_request_error", "poseidon/src/socket/ws_client_session.cpp: do_on_http_response_finish"]}
{"id": "C69", "title": "The callbacks of a connection come in order", "statement": "A connection tells its user at most once that it has been established, then gives them exactly the bytes that have arrived, in order and each one once, then the end of the stream, and tells at most once, and last, that it has been closed; a hang-up or an error is always followed by that notice, whichever exceptions the callbacks throw.", "quantifier": "all sequences of system events, of results of system calls, of calls by the user from any thread and of exceptions", "why_tests_cant": "Event combinations, partial reads and concurrent shutdowns have unbounded histories; the kernel decides the order.", "anchors": ["poseidon/src/static/network_scheduler.cpp: thread_loop, insert_weak", "poseidon/src/socket/tcp_socket.cpp: do_abstract_socket_on_readable, do_abstract_socket_on_writeable", "poseidon/src/socket/abstract_socket.cpp: quick_shut_down"]}
{"id": "C70", "title": "Throttling suspends receiving and forgets nothing", "statement": "When more bytes than the configured limit wait to be sent, the user of a connection is given nothing more until a later notification has found the queue within the limit; whatever arrives in the meantime is reported afterwards, and no arrival is ever forgotten.", "quantifier": "all histories of arrivals, sends, partial writes and changes of the limit", "why_tests_cant": "A lost wake-up needs a particular interleaving of an edge-triggered event with a change of the event mask.", "anchors": ["poseidon/src/static/network_scheduler.cpp: thread_loop (m_sched_throttled, EPOLL_CTL_MOD)"]}
{"id": "C71", "title": "Every connection that arrives is either served or closed", "statement": "An acceptor asks its user about each connection that has arrived, in order, with the address of its peer; a connection is put into the network scheduler if the user returns a socket for it, and is closed otherwise; errors and exceptions affect no other connection, and the acceptor returns to the other sockets.", "quantifier": "all sequences of results of the system and of answers by the user", "why_tests_cant": "Leaks and stalls depend on sequences of errors of the system, such as the exhaustion of descriptors.", "anchors": ["poseidon/src/socket/tcp_acceptor.cpp: do_abstract_socket_on_readable"]}
{"id": "C72", "title": "Datagrams are delivered whole with their senders", "statement": "The user of a datagram socket is given each datagram that has arrived once, whole, in order, with the address of its sender, so that an answer goes back there, whatever they do to the arguments; a send returns true if and only if the system has taken the datagram, and false after a shutdown; the socket returns to the others.", "quantifier": "all sequences of datagrams, errors, exceptions, sends and shutdowns", "why_tests_cant": "The buffer and the address are reused from one datagram to the next, so a defect shows only in particular sequences.", "anchors": ["poseidon/src/socket/udp_socket.cpp: do_abstract_socket_on_readable, do_abstract_socket_on_writeable, udp_send"]}
{"id": "C73", "title": "Names are resolved and connected to faithfully", "statement": "A query by name yields each address that the system has found once, in order, with the port; connecting by name tries the addresses in order, IPv4 first, until one does not fail at once; if none is left, the socket is closed and its user is told.", "quantifier": "all answers of the resolver and of connect", "why_tests_cant": "The order and the repetition of the answers, and the failures, are up to the environment.", "anchors": ["poseidon/src/fiber/dns_query_future.cpp: do_on_abstract_future_initialize", "poseidon/src/socket/dns_connect_task.cpp: do_on_abstract_task_execute"]}
{"id": "C74", "title": "Compressed WebSocket messages arrive as they were sent", "statement": "If permessage-deflate has been agreed upon, every text or binary message that is sent, compressed or not, with or without context takeover, and also after failures of the compressor, is received with the same type and the same contents, in order; every message within the receiver's limit is received; pings and pongs in between are not disturbed.", "quantifier": "all sequences of messages, all sizes of buffers and of the portions in which zlib works, all failures of the compressor", "why_tests_cant": "Compression keeps a context across messages, so a defect shows only for particular histories; the loops depend on how much zlib takes and writes in each call.", "anchors": ["poseidon/src/http/websocket_deflator.cpp: deflate_message_stream, deflate_message_finish, inflate_message_stream, inflate_message_finish", "poseidon/src/socket/ws_server_session.cpp: ws_send, do_on_http_upgraded_stream", "poseidon/src/socket/ws_client_session.cpp: ws_send, do_on_http_upgraded_stream"]}
{"id": "C75", "title": "Deflators and inflators neither lose nor make up data", "statement": "What is put into a deflator, in any pieces and with flushes in between, and finished, comes out of an inflator that is given the output in any pieces; after a flush, all that has been put so far can be restored from the output; an inflator takes nothing after the end of a stream and tells a truncated stream from a whole one; the output buffer never contains octets that have not been written; every call ends; a buffer that is too small is refused.", "quantifier": "all data, all divisions into pieces, all sizes of the buffers that a derived class supplies, all portions in which zlib works", "why_tests_cant": "The accounting depends on how much of each buffer zlib uses in each call.", "anchors": ["poseidon/src/base/abstract_deflator.cpp: deflate, sync_flush, full_flush, finish", "poseidon/src/base/abstract_inflator.cpp: inflate, finish"]}
{"id": "C76", "title": "Easy HTTP servers and clients call back once for each message, in order", "statement": "The callback of an easy HTTP server or client is called with the opening of the connection first, then with each request or response in the order of arrival with its headers and payload, then with the closure, at most once each, and not again after the closure; it is never called for two events of a connection at a time, even if it suspends its fiber, and what it sends for one request precedes all that is sent for the next one; after an exception the connection is shut down; a message that cannot be accepted is answered with an error status after the replies to earlier messages.", "quantifier": "all streams of messages, all divisions into pieces, all interleavings of the network thread and fibers, all callbacks", "why_tests_cant": "Whether a new fiber is launched depends on the instant at which the previous one leaves its loop; the order must hold for every interleaving.", "anchors": ["poseidon/src/easy/easy_http_server.cpp: do_push_event_common, do_on_http_request_finish, do_on_http_request_error, do_on_close, Final_Fiber::do_on_abstract_fiber_execute", "poseidon/src/easy/easy_http_client.cpp: do_push_event_common, do_on_http_response_finish, do_on_close", "poseidon/src/socket/http_server_session.cpp: do_on_http_request_headers"]}
{"id": "C77", "title": "Easy WebSocket servers and clients report a well-formed conversation", "statement": "The callback of an easy WebSocket server or client is called with the opening of the connection at most once and before any message, with text, binary and pong messages as the peer has sent them and in that order, and with the closure at most once and last; a server for both HTTP and WebSocket reports plain GET and HEAD requests only before the opening.", "quantifier": "all requests and responses, all octets from the peer, all instants at which the socket is closed, all interleavings of the network thread and fibers", "why_tests_cant": "The handshake, the frame parser and the closing of the socket each can end a connection, and they have to agree on who reports it for every order of events.", "anchors": ["poseidon/src/easy/easy_ws_server.cpp: do_push_event_common, do_on_ws_accepted, do_on_ws_message_finish, do_on_ws_close", "poseidon/src/easy/easy_ws_client.cpp: do_on_ws_connected, do_on_ws_message_finish, do_on_ws_close", "poseidon/src/easy/easy_hws_server.cpp: do_on_http_request_headers, do_on_ws_accepted, do_on_ws_message_finish, do_on_ws_close"]}
{"id": "C78", "title": "A pooled database connection is as good as a new one", "statement": "Whatever has been done with the connections of a pool before, a query on a connection that is allocated from the pool gives the same result, and has the same effect on the database, as on a new connection with the same URI and password; what earlier users have done can not be observed through it.", "quantifier": "all servers, all histories of allocation, use, reset, return and eviction of any number of connections by any number of users, all failures of the network during them, all queries", "why_tests_cant": "State may leak through a connection after any history of statements, failures and lost connections; tests only see the histories they run.", "anchors": ["poseidon/src/mysql/mysql_connection.cpp: reset, execute", "poseidon/src/redis/redis_connection.cpp: reset, execute, fetch_reply", "poseidon/src/mongo/mongo_connection.cpp: reset, execute, fetch_reply", "poseidon/src/static/mysql_connector.cpp: allocate_connection, pool_connection", "poseidon/src/fiber/mysql_query_future.cpp: do_on_abstract_future_finalize"]}
{"id": "C79", "title": "A query future performs its statement at most once, and has all of the result or an error", "statement": "A MySQL, Redis or MongoDB query future connects if it has to, and has its statement performed at most once, with the arguments that were given. If it completes without an exception, it has the numbers, the names of columns and all the rows, or the reply, or all the documents, that the server sent; otherwise it has an exception, and what it has is from the beginning of the result.", "quantifier": "all servers, statements, arguments and results; all points at which the client library fails or the connection is lost, before or after the server has performed the statement", "why_tests_cant": "Failures may happen at each of the calls and at each row; a client that swallows one shows a truncated result as complete.", "anchors": ["poseidon/src/fiber/mysql_query_future.cpp: do_on_abstract_future_initialize", "poseidon/src/fiber/redis_query_future.cpp: do_on_abstract_future_initialize", "poseidon/src/fiber/mongo_query_future.cpp: do_on_abstract_future_initialize", "poseidon/src/mysql/mysql_connection.cpp: execute, fetch_fields, fetch_row", "poseidon/src/redis/redis_connection.cpp: execute, fetch_reply", "poseidon/src/mongo/mongo_connection.cpp: execute, fetch_reply"]}
{"id": "C80", "title": "Service URIs designate what they say", "statement": "A MySQL or Redis connection accepts a service URI if and only if it is an optional user followed by an at sign, and an optional network reference; it then connects as that user to that host and port, and uses the database that is the path; defaults are used for what is absent.", "quantifier": "all texts", "why_tests_cant": "There are unboundedly many texts, and delimiters may occur in any part of them.", "anchors": ["poseidon/src/mysql/mysql_connection.cpp: execute", "poseidon/src/redis/redis_connection.cpp: execute"]}
{"id": "C81", "title": "The launcher of a daemon tells how it went", "statement": "With -d, the process that was started exits with zero only after start-up of the daemon is complete; if the daemon ends before that, it exits with the status of the daemon, or 128 and the number of the signal; and it does not wait once the daemon has told it or has ended.", "quantifier": "all interleavings of the three processes, all failures of fork and pipe, and all ways in which the daemon may end", "why_tests_cant": "The outcome depends on the interleaving of processes and on the crash point of the daemon.", "anchors": ["poseidon/src/main.cpp: do_daemonize_start, do_waitpid_and_exit, do_daemonize_finish"]}
{"id": "C82", "title": "The PID file is that of the only instance", "statement": "At most one process that is configured with a PID file runs at a time; others give up; and while it runs, the file consists of the decimal digits of its PID and a newline.", "quantifier": "all interleavings of any number of processes that are started, quit or crash, and of others that read the file", "why_tests_cant": "The outcome depends on the interleaving of processes and on crash points.", "anchors": ["poseidon/src/main.cpp: do_write_pid_file"]}
{"id": "C83", "title": "The command line, the order of start-up and the status", "statement": "Every command line is understood as documented or refused with status 2; start-up takes place in its documented order and stops at the first failure with status 1; the program is ready if and only if nothing has failed, and then exits with zero if and only if a signal has arrived.", "quantifier": "all command lines, all failures of any step, all sequences of signals", "why_tests_cant": "There are unboundedly many command lines and combinations of failures.", "anchors": ["poseidon/src/main.cpp: do_parse_command_line, do_create_threads, do_load_modules, main"]}
{"id": "C84", "title": "HTTP messages arrive end to end", "statement": "What an application sends on an HTTP client session with http_request, http_chunked_request_start, http_chunked_request_send and http_chunked_request_finish reaches the application of an HTTP server session as the same methods, resources, headers and bodies, each once and in order, however the network divides the stream; likewise for the responses of a server session and the application of a client session. All calls report success.", "quantifier": "all lists of requests and responses in every form, all bodies, all headers in order, all divisions of the stream, every parsing library that reads well-formed messages as documented", "why_tests_cant": "There are unboundedly many messages and ways to divide them.", "anchors": ["poseidon/src/socket/http_client_session.cpp: http_request, http_chunked_request_start, http_chunked_request_send, http_chunked_request_finish, do_on_tcp_stream", "poseidon/src/socket/http_server_session.cpp: http_response, http_chunked_response_start, http_chunked_response_send, http_chunked_response_finish, do_on_tcp_stream", "poseidon/src/http/http_request_parser.cpp", "poseidon/src/http/http_response_parser.cpp"]}
{"id": "C85", "title": "TLS writes follow the rules of the TLS library", "statement": "Whatever threads call ssl_send and ssl_shut_down on a TLS socket while the network thread serves it: a write that the TLS library wants repeated is repeated with the same bytes, possibly followed by more; the library is never asked to write nothing; the bytes that it takes are those of the calls of ssl_send, in order, each once; the closing alert is sent only when everything accepted has been taken, nothing is written after it, and it is not sent after a fatal error.", "quantifier": "all interleavings of calls from all threads and of the network thread, all data, all results of the TLS library", "why_tests_cant": "A violation needs a particular interleaving and a particular partial write; there are unboundedly many.", "anchors": ["poseidon/src/socket/ssl_socket.cpp: ssl_send, ssl_shut_down, do_abstract_socket_on_readable, do_abstract_socket_on_writeable", "poseidon/src/socket/abstract_socket.cpp: quick_shut_down"]}
{"id": "C86", "title": "TLS calls that have to wait are resumed", "statement": "When the TLS library can go on only after the socket has become writable (or readable), it is called again when the network thread is told that the socket is so; in particular handshakes begin and finish.", "quantifier": "all histories of a TLS socket and all results of the TLS library", "why_tests_cant": "A stalled connection shows only for a particular state of the buffers of the system, and that nothing will ever happen cannot be observed.", "anchors": ["poseidon/src/socket/ssl_socket.cpp: ssl_send, ssl_shut_down, do_abstract_socket_on_readable, do_abstract_socket_on_writeable", "poseidon/src/socket/abstract_socket.cpp: quick_shut_down"]}
{"id": "C87", "title": "TLS connections do not affect each other", "statement": "What do_on_ssl_stream of a TLS connection is given, and whether the connection is shut down, depend only on what the peer and the user of this connection do, not on other connections of the network thread.", "quantifier": "all numbers of connections, all histories of them, all levels of logging", "why_tests_cant": "A failure of one connection becomes visible in another one only in some orders of events; tests look at a few connections.", "anchors": ["poseidon/src/socket/ssl_socket.cpp: ssl_send, ssl_shut_down, do_abstract_socket_on_readable, do_abstract_socket_on_writeable", "poseidon/src/socket/abstract_socket.cpp: quick_shut_down", "poseidon/utils.hpp: POSEIDON_LOG_"]}
{"id": "C88", "title": "Clients connect to what the address says", "statement": "connect of a client accepts exactly the addresses that its documentation allows and throws an exception for all others. The host of the address is what is looked up, and connections are attempted only to the addresses that the look-up has found, with the port of the address, or 80 or 443 if it has none. A WebSocket client asks for the path and the query of the address, and its open event has all parts of it.", "quantifier": "all texts, all six kinds of clients, all results of look-ups and of the system", "why_tests_cant": "There are unboundedly many texts; which parts are present, empty or malformed combine freely.", "anchors": ["poseidon/src/easy/easy_tcp_client.cpp: connect", "poseidon/src/easy/easy_ssl_client.cpp: connect", "poseidon/src/easy/easy_http_client.cpp: connect", "poseidon/src/easy/easy_https_client.cpp: connect", "poseidon/src/easy/easy_ws_client.cpp: connect, do_on_ws_connected", "poseidon/src/easy/easy_wss_client.cpp: connect", "poseidon/src/socket/dns_connect_task.cpp: do_on_abstract_task_execute"]}
{"id": "C89", "title": "Clients name and verify the host that they connect to", "statement": "The Host header that an HTTP or WebSocket client sends by default is a reference to the host and the port of the address that was connected to, and a TLS client accepts only certificates for the host of the address.", "quantifier": "all addresses that are allowed, all kinds of clients, all requests without a host of their own", "why_tests_cant": "Tests use a few host names; that a certificate for another host is accepted for some addresses is not seen unless it is looked for.", "anchors": ["poseidon/src/easy/easy_tcp_client.cpp: connect", "poseidon/src/easy/easy_ssl_client.cpp: connect", "poseidon/src/easy/easy_http_client.cpp: connect", "poseidon/src/easy/easy_https_client.cpp: connect", "poseidon/src/easy/easy_ws_client.cpp: connect, do_on_ws_connected", "poseidon/src/easy/easy_wss_client.cpp: connect", "poseidon/src/socket/dns_connect_task.cpp: do_on_abstract_task_execute", "poseidon/src/socket/https_client_session.cpp: HTTPS_Client_Session", "poseidon/src/http/http_c_headers.cpp: set_request_host"]}
{"id": "C90", "title": "The fields of a header value agree", "statement": "Whatever a value has been before, after something has been assigned to it, or read into it, its text, integer, double and date are those of what was assigned; the text is kept unchanged; an integer is its decimal notation; a text is an integer or a double exactly if it can be read as one when blanks at its ends are ignored, and a date if it is the text of a date.", "quantifier": "all histories of a value, all texts, all 64-bit integers, all doubles, all dates since 1900", "why_tests_cant": "Each field has to be updated by each of many ways to assign; what is left from before shows only in some histories.", "anchors": ["poseidon/http/http_value.hpp: HTTP_Value", "poseidon/src/http/http_value.cpp: do_update_variants, parse, print_to"]}
{"id": "C91", "title": "Loading the configuration again is all or nothing", "statement": "At any time, the settings of the logger, of the database connectors, of the network and of fibers are all those of the last file that was accepted by reload(); if reload() throws an exception there is no effect; no message that has to be written is suppressed while the configuration is being loaded.", "quantifier": "all histories of reload() by any threads, with all contents of files, answers of OpenSSL and limits of the system", "why_tests_cant": "A mixture of old and new settings shows only after some failure at some setting, or if another thread looks in between.", "anchors": ["poseidon/src/static/main_config.cpp reload, copy", "poseidon/src/static/logger.cpp Logger::reload", "poseidon/static/logger.hpp enabled", "poseidon/src/static/mysql_connector.cpp reload", "poseidon/src/static/mongo_connector.cpp reload", "poseidon/src/static/redis_connector.cpp reload", "poseidon/src/static/network_scheduler.cpp reload", "poseidon/src/static/fiber_scheduler.cpp reload"]}
{"id": "C92", "title": "Settings are what the file says, or the documented default", "statement": "A configuration is accepted exactly if each setting that is present has the right type and is in range; then each setting is what the file says, and what etc/poseidon/main.conf documents if it is absent or null; replicas of a database default to the server before them; TLS servers need both a certificate and a private key; clients verify servers exactly if trusted certificates are configured; a verbose logger always writes to the console.", "quantifier": "all contents of configuration files", "why_tests_cant": "There are many settings, each with many values that may be right or wrong, and the combinations matter.", "anchors": ["etc/poseidon/main.conf", "poseidon/src/static/*.cpp reload", "poseidon/src/http/http_request_parser.cpp reload", "poseidon/src/http/http_response_parser.cpp", "poseidon/src/http/websocket_frame_parser.cpp"]}
{"id": "C93", "title": "TLS contexts live as long as they are used", "statement": "A TLS context that the scheduler or any socket uses is never freed, however often the configuration is loaded again; a context that nothing uses is freed exactly once; what sockets get changes only if a file was accepted.", "quantifier": "all histories of reload(), new and destroyed sockets", "why_tests_cant": "Use after free or a leak happens only for some orders of reloading and destroying sockets.", "anchors": ["poseidon/src/static/network_scheduler.cpp server_ssl_ctx, client_ssl_ctx, reload", "poseidon/details/openssl_fwd.hpp SSL_CTX_deleter"]}
{"id": "C94", "title": "A socket knows its own addresses", "statement": "local_address() and remote_address() return the first address with a port that the system reports for the socket, from then on and in every thread; before that they return the unspecified address if the socket has no address yet and the invalid address after an error, and ask again at the next call; they never change errno; an address that is read through a result is one that the system has reported, and no thread changes it while another one uses it.", "quantifier": "all numbers of threads, interleavings of calls and reads, and histories of what the system reports", "why_tests_cant": "The cache is written without a lock; torn reads need a particular interleaving of two threads.", "anchors": ["poseidon/src/socket/abstract_socket.cpp: local_address, remote_address", "poseidon/socket/abstract_socket.hpp: m_sockname, m_sockname_ready"]}
{"id": "C95", "title": "Listening sockets and multicast groups", "statement": "A TCP acceptor or UDP socket is bound to exactly the address that was given and does not block, or there is an exception and no descriptor is left; join_multicast_group() makes the socket a member of exactly that group on that interface besides the former ones, with the given number of hops and loop-back for IPv4 or for IPv6, and leave_multicast_group() removes exactly that; if they throw an exception there is no effect.", "quantifier": "all addresses, interfaces, former groups and failures of the system", "why_tests_cant": "It must hold for every address, including all that look like mapped IPv4 addresses, and for each call that the system may refuse.", "anchors": ["poseidon/src/socket/tcp_acceptor.cpp: TCP_Acceptor, defer_accept", "poseidon/src/socket/udp_socket.cpp: UDP_Socket, join_multicast_group, leave_multicast_group", "poseidon/src/socket/abstract_socket.cpp: Abstract_Socket"]}
{"id": "C96", "title": "Life of easy servers and clients", "statement": "start() of an easy server listens at the given address, or the port on any address, or throws an exception and leaves the server as it was; from then on every connection to the listener is accepted, and stays open until its closure has been delivered, whether or not the application keeps a reference. When stop() or the next start() has been called, the former listener and all former connections are closed, the callback is not called for them any more, and the address can be used again; the same holds for connections made by connect() of an easy client when close_all() has been called.", "quantifier": "all histories of starts, stops, connections, callbacks that take any time, failures, and references that are kept and dropped in between", "why_tests_cant": "What is open depends on who happens to hold references at the moment: other threads and fibers suspended in callbacks.", "anchors": ["poseidon/src/easy/easy_tcp_server.cpp: start, stop, local_address, Final_Acceptor, Final_Fiber", "poseidon/src/easy/easy_tcp_client.cpp: connect, close_all", "poseidon/easy/easy_tcp_server.hpp: start, stop"]}
{"id": "C97", "title": "Texts of exceptions and of lines in logs", "statement": "The text of an exception that the library throws is the composed message without blanks at its end, followed by the function, file and line where it was thrown, and by a backtrace: one line for each frame of the stack from the innermost to the outermost, numbered from 1, all numbers ending in the same column. A line in a log has the local time with nine decimals of seconds, the tag, the composed message without blanks at its end, and the thread, function, file and line; colours only add escape sequences that a reader may leave out. On a terminal, the time and the message are shown in the colour of the level, escapes in the message and the tag inverted, the thread in grey and the place in blue, and nothing after the line is affected.", "quantifier": "all messages, names, files and lines, all stacks of less than 10^8 frames, all times, colours and tags", "why_tests_cant": "The field of the numbers is reused for all frames, so that whether stale digits are left depends on the number of frames; messages and names are arbitrary.", "anchors": ["poseidon/src/utils.cpp: do_push_log_message, do_create_runtime_error", "poseidon/src/static/logger.cpp: do_write_nothrow, do_color"]}
{"id": "C98", "title": "Texts of the statements that create and alter tables", "statement": "When the structure of a MySQL table is checked, the statements that are sent, as a server tokenizes and reads them, say what has been requested: CREATE TABLE has the name of the table, exactly one definition for each column and index that is not to be dropped, in order, with its name, type, nullability and default value, the engine, the character set and the first value of an auto-increment column; ALTER TABLE is sent if and only if something differs, and has exactly the clauses for the differences; the queries name the table.", "quantifier": "all names, columns, indexes, engines, default values (strings with any bytes, integers, doubles, times) and existing tables", "why_tests_cant": "The texts are concatenated from arbitrary names and values; whether one of them can end its literal early depends on all its characters.", "anchors": ["poseidon/src/fiber/mysql_check_table_future.cpp: do_append_column_definition, do_append_index_definition, do_append_engine, do_on_abstract_future_initialize", "poseidon/src/mysql/mysql_value.cpp: print_to"]}
{"id": "C99", "title": "Vectors rotate and angles add up", "statement": "Rotating a vector keeps its length and all scalar and vector products to the precision of the table of sines, is undone by the opposite rotation, is exact for quarter turns and respects sums and multiples; the angle from a vector to the rotated one is the angle of the rotation, and a vector that is given by a length and an angle has that direction. Going from a point by the difference to another leads to the other. Sums, differences, multiples and quotients of angles are the arithmetic ones unless they overflow, which cannot happen to sums of reduced angles; division by a number is multiplication by its reciprocal. unit() has the direction of the vector, and its length is 1 to within the error of the reciprocal square root of the processor, exactly so for vectors along an axis; magnitude() is the length.", "quantifier": "all vectors, points and numbers, all integral angles", "why_tests_cant": "Angles and coordinates cannot be enumerated; the functions are compositions of a table lookup with products of arbitrary coordinates.", "anchors": ["poseidon/geometry.hpp: degrees, point2, vector2 and their operators"]}
{"id": "C100", "title": "The name of the host", "statement": "A program that uses the library starts on a host with any name that the system allows, and poseidon::hostname is that name.", "quantifier": "all names that Linux accepts, of up to HOST_NAME_MAX octets, and all contents of uninitialized memory", "why_tests_cant": "Tests run on hosts whose names they do not choose, and those are short.", "anchors": ["poseidon/src/fwd.cpp: do_get_hostname", "poseidon/fwd.hpp: hostname"]}
{"id": "C101", "title": "Nested values are destroyed completely and without recursion", "statement": "Destroying a Mongo_Value or Redis_Value destroys each of the values that it contains, and frees each container that nobody else has a reference to, exactly once; containers that somebody else has a reference to are left as they are, with one reference less. Calls of destructors are nested at most one level deep, however deeply containers are nested, so that a reply from a server can not make the stack overflow.", "quantifier": "all values, of any depth and size, of which any containers may also be referred to from outside the value, but none twice from within it, in one thread and while memory is not exhausted", "why_tests_cant": "Tests have values of a few levels; stack overflows and leaks depend on depth and on which containers are shared.", "anchors": ["poseidon/src/mongo/mongo_value.cpp: ~Mongo_Value", "poseidon/src/redis/redis_value.cpp: ~Redis_Value"]}
