# Formal model of lhmouse/poseidon in Rocq

The model lives in `rocq/theories/` (logical name `Verif`). For each component
there is an `XModel.v` (definitions, each citing the lines of /repo it models), an
`XSpec.v` (the small specification, independent of the model's helpers), an
`XProofs.v` and an `XProps.v` (the theorems, examples that their hypotheses are met,
and `Print Assumptions`). Small components have fewer files.

Conventions. A byte is a `Z` between 0 and 255, text is a list of bytes; machine
integers are `Z` with explicit wrap-around where the code can wrap around. A
concurrent component is a state machine `step : state -> event -> option state`,
whose events are its critical sections or atomic operations; `None` means that
the event cannot happen. A theorem about all executions is proved by induction
over an arbitrary list of events. Undefined behaviour and exceptions are outcomes
of their own. What the code gets from outside (system calls, clocks, library
functions, user callbacks, the peer) is an argument, or part of the events, so
that theorems hold for all of its behaviours.

Names. A theorem `x_partial` proves a part of its property, and its comment says
what is missing; a theorem `x_refuted` proves that a property, or a part of one,
is false of the model, with a witness.

## 1. Plan and state per property

| id | property | what is modelled and how it is proved | state |
|----|----------|----------------------------------------|-------|
| C01 | WebSocket frame header wire round trip | Model `encode` and `parse_frame_header_from_stream` on byte lists; independent RFC 6455 layout as the spec; prove parse(encode h ++ rest) = (h, rest). | proved |
| C02 | WebSocket payload masking | Model the three loops (align, 4/32-byte words, tail) with the rotating key; spec is byte-wise XOR with key[i mod 4]; prove equality for every alignment/size and compositionality over splits by induction. | proved |
| C03 | WebSocket header parsing does not depend on how bytes are delivered | Expected false (state is changed before the header is complete): prove `_refuted` with a witness, and the positive theorem for the frames for which it does hold. | partial |
| C04 | WebSocket frame acceptance rules | Spec: RFC automaton over frames; prove the parser accepts a frame iff the automaton allows it, for every history. | proved |
| C05 | WebSocket message reassembly | Session loop over header/payload calls; spec: concatenation of fragments. Expected false for split payloads (refuted); positive theorems for whole-frame delivery and, by an invariant between any two bytes of a frame, the exact result for every division of the stream (WsCut). | partial |
| C06 | WebSocket close notification is delivered exactly once | State machine of the session's close notification; invariant by induction over events. | proved |
| C07 | WebSocket close frame contents | Functional model of ws_shut_down's frame composition; prove bounds for all inputs. | proved |
| C08 | UUID text round trip and acceptance | Parser and printer as functions on byte lists; round trip and acceptance iff canonical form. | proved |
| C09 | UUID ordering | Compare as in the code; spec: lexicographic order on printed text. | proved |
| C10 | Version 7 UUIDs have the right fields and sort by creation | Generator as step function over (clock, counter, random); field theorem; ordering refuted for arbitrary clocks, proved under a monotone clock and fewer than 4096 per millisecond. | partial |
| C11 | IPv6 address classification | Classification as in the code; spec as table of CIDR blocks; equality for all addresses. | proved |
| C12 | Subnet matching | Bit-level spec of prefix equality; prove the byte/partial-byte implementation equals it. | proved |
| C13 | Address ordering and equality | Three-way comparison; total order laws. | proved |
| C14 | Query string encoding round trip | Encoder/parser as functions; round trip by induction, character set by case analysis over 256 bytes. | proved |
| C15 | URI path canonicalization | Loop of decode_and_canonicalize as a fold; spec: split on '/', stack interpretation. Expected false for malformed escapes (refuted), true otherwise. | partial |
| C16 | URI path encoding round trip | Composition of the encoder with C15's model. | proved |
| C17 | explode/implode | explode/implode as in the code with explicit wrap-around arithmetic; round trip; refutation for blank segments. | partial |
| C18 | Network reference parsing | Scanner as in the code; prove bounds, reassembly. | proved |
| C19 | Timers never fire early and follow their schedule | State machine: priority queue as a heap with std::push_heap/pop_heap specified by (multiset, minimum at front); invariants over all histories. | proved |
| C20 | Fibers are not lost and are resumed only for a reason | State machine over fiber states and the async time heap; invariants by induction over interleavings. | partial |
| C21 | Socket lookup table is exact | Open-addressing table as a list of slots; probing function; invariants by induction over histories. | partial |
| C22 | Logger keeps every important message, in order | Interleaving model of enqueue/flush/synchronize with their mutexes; invariants. | proved |
| C23 | Logger output cannot be forged | The escaping table as a function; for all bytes/strings. | proved |
| C24 | Futures initialize once | State machine of the future with mutex; invariants. | partial |
| C25 | Futures rethrow the saved exception | Expected false: the inline wrapper only calls the checker when the future is not initialized. `_refuted`. | partial |
| C26 | Asynchronous tasks run exactly once | Interleaving model of launch/worker with the two queues; invariant: launched = executed + queued + in flight (multiset). | proved |
| C27 | Asynchronous tasks run in launch order | Expected false (batch is popped from its back): `_refuted`; positive: batches are executed in order. | partial |
| C28 | Connection pools hand out a connection to one user at a time | Pool as a list with time stamps; operations as functions; invariants over histories. | proved |
| C29 | TCP sends are transmitted in order without loss or duplication | Socket write path as a state machine with an oracle for partial writes; invariant wire ++ queue = accepted. | proved |
| C30 | Graceful shutdown flushes | Same machine; closed only with empty queue, monotone states. | proved |
| C31 | Received stream data are handed over completely | Receive loop as function of receive results and an arbitrary consumer; expected false (queue is cleared before each receive): `_refuted`. | partial |
| C32 | Configuration paths | Path scanner as a state machine; spec grammar; equality. | partial |
| C33 | Configuration getters | Getters as functions; case analysis. | proved |
| C34 | Asynchronous file reads return the requested range | Read loop with an oracle of short reads; induction. | partial |
| C35 | Easy servers deliver events in order, exactly once | Interleaving model of the network thread and fibers over the session map; invariants. | partial |
| C36 | Redis SCAN+GET result | Erase-while-iterating loop on lists; equality with filter. | proved |
| C37 | Nested replies are converted faithfully | Explicit-stack machines over trees; simulation of the recursive function. | partial |
| C38 | MySQL string literals cannot be escaped from | Printer plus an independent SQL string lexer; round trip. | partial |
| C39 | Chunked transfer encoding round trip | Encoder plus an independent chunk decoder; round trip. | partial |
| C40 | HTTP header values survive quoting | Printer and parser of quoted strings; round trip. | partial |
| C41 | HTTP field names are case-insensitive | Case-insensitive comparison (asteria's helper modelled from its documentation); equivalence laws. | proved |
| C42 | Calendar dates | Calendar loops; civil-date spec; round trip. | partial |
| C43 | Time stamps split into seconds and nanoseconds correctly | 64-bit wrap-around arithmetic; floor division spec; refuted at the far negative end. | partial |
| C44 | Angles are reduced into range | 32-bit wrap-around arithmetic; modulo spec; refuted at the far negative end. | partial |
| C45 | Table checking is idempotent | Both statements as lists of clauses over columns and indexes; MySQL's ALTER TABLE and SHOW as functions on tables; a check establishes the request, and a second one finds nothing. Expected false in corner cases (refuted). | partial |
| C46 | Database time stamps survive storage | Zone hack arithmetic; round trip for half-hour zones, refuted for quarter-hour zones. | partial |
| C47 | Appointments are exclusive | File lock table and enrolment loop; invariant. | proved |
| C48 | Fiber stacks are not shared | Small-step interleaving model of the atomic operations; invariant. | proved |
| C49 | WebSocket messages arrive end to end | Sender's framing composed with the receiving session of C05; refinement to the list of messages. | partial |
| C50 | Socket address text round trip | Parser and printer with the C library's functions as arguments with stated laws; round trip. | partial |
| C51 | Header lists are read attribute by attribute | The parser as a cursor over text; spec: grammar of lists of attributes; induction over the elements. | proved |
| C52 | Messages are delimited correctly | Writers of sessions as functions; an independent RFC 9112 reader; the reader recovers the list of messages. | proved |
| C53 | JSON strings can be read back | The UTF-8 loop and escapes as functions; an independent JSON string reader; round trip. | partial |
| C54 | The text of MongoDB values is faithful | Explicit-stack printer; spec: relation between values and text; simulation. | partial |
| C55 | Trigonometry in degrees is consistent | The table of tangents and the reductions over integers and exact rationals; finite sweep over degrees, induction over turns. | partial |
| C56 | Statement arguments and rows are conveyed faithfully | Argument binding and row fetching as functions over the documented client library structures. | proved |
| C57 | Ticks and datagrams reach callbacks in order, once, one at a time | Interleaving model of ticks or packets, fibers, and stops; invariants by induction over events. | proved |
| C58 | A server is told of every request, in order, however the stream is cut | The parser's callbacks and the loop of the session as functions on the calls of the library http_parser; a specification of well-formed and broken streams that knows nothing of pieces; an invariant relates the state of a session to the part of the stream that is to come; induction over pieces. | proved |
| C59 | The target of a request denotes the resource that the application sees | The analysis of targets as a function; two grammars as the specification; sound and complete; a round trip with the model of the client's writer. Some standard forms are rejected (shown with witnesses). | proved |
| C60 | A request never exceeds the configured limits in memory | An invariant over all sequences of calls and all applications. | proved |
| C61 | Errors and protocol switches are final | An invariant over all inputs. Expected false of an empty host (refuted). | partial |
| C62 | Every HTTP response reaches the client exactly once and in order, however the stream is cut | The calls of the parser library are the input; an inductive specification of streams, complete or cut off anywhere, with switches and errors. Refinement by an invariant over pieces. | proved |
| C63 | A response never exceeds the configured limits in memory | An invariant over all inputs. Expected false of the reason phrase (refuted). | partial |
| C64 | Errors and protocol switches of a client session are final | An invariant over all inputs. | proved |
| C65 | A WebSocket server answers an opening handshake correctly | Headers are lists of elements in the grammar of C51; the offer that is chosen is specified without the parser's state; Base64 is specified by a decoder. | partial |
| C66 | A WebSocket client takes only a response that proves its key | As C65. | proved |
| C67 | Both sides of a WebSocket handshake agree | The text that the server prints is shown to be a header in the grammar, with the parameters agreed upon. | partial |
| C68 | A WebSocket session is opened at most once and closed exactly once | Invariants over all sequences of operations on a session. | partial |
| C69 | The callbacks of a connection come in order | The turns of the network thread as small steps around the state of C29 (TcpModel), interleaved with the user's calls and the kernel; invariants over all histories. Expected false for repeated ends of the stream (refuted). | partial |
| C70 | Throttling suspends receiving and forgets nothing | Same model, with the edge of EPOLLIN that the kernel owes; invariants: no reading while throttled, every arrival owed. | proved |
| C71 | Every connection that arrives is either served or closed | The loop with the results of accept4 and the answers of the user as arguments; induction over the results. Termination refuted. | partial |
| C72 | Datagrams are delivered whole with their senders | The loop with the results of recvfrom and an arbitrary callback; sends as a state machine; induction. | partial |
| C73 | Names are resolved and connected to faithfully | Both loops with the answers of the resolver and of connect as arguments; induction. | partial |
| C74 | Compressed WebSocket messages arrive as they were sent | The loops of the wrapper and the code of the sessions over an arbitrary deflate and inflate that obey contracts taken from zlib.h; the sender's history is linked to the receiver's; then composed with the frame parser. A codec with stored blocks shows that the contracts can be met. | partial |
| C75 | Deflators and inflators neither lose nor make up data | The loops of both classes over the same contracts, with a buffer that distinguishes octets that have not been written; induction on the sizes of the buffers. | partial |
| C76 | Easy HTTP servers and clients call back once for each message, in order | The queue of a session, fibers and the network thread as a state machine for any kind of events; invariant over all interleavings; composed with the parsers of requests and responses (C62 and later). | partial |
| C77 | Easy WebSocket servers and clients report a well-formed conversation | The same machine, composed with a session that first runs the handshake and then parses frames; invariant on what has been told; delivery composed with the sender of C49. | partial |
| C78 | A pooled database connection is as good as a new one | A world of a server, the pool of PoolModel and connections; the server is an arbitrary function. Invariant on what pooled connections may differ in from new ones; leaks as counterexamples. | partial |
| C79 | A query future performs its statement at most once, and has all of the result or an error | The initializers of futures as functions of what happens to each call of the client library; case analysis and induction over rows. | partial |
| C80 | Service URIs designate what they say | Acceptance is equivalent to being the text of an optional user and a valid reference (NetrefSpec). | partial |
| C81 | The launcher of a daemon tells how it went | Three processes, a pipe and waitpid as a state machine; invariant over all interleavings; at most four steps are left. | partial |
| C82 | The PID file is that of the only instance | Any number of processes, readers and crashes as a state machine over a file with locks; invariant: one owner, and the text begins with the line of the owner. | partial |
| C83 | The command line, the order of start-up and the status | Command lines are written from a list of groups of letters and words; every list of arguments is of this form. The log of start-up is compared with a plan. | proved |
| C84 | HTTP messages arrive end to end | The model of what sessions send (HoutModel) is composed with the models of what sessions receive (HreqModel, HrespModel). Between them is the library http_parser, of which a contract is assumed as a premise: for well-formed messages (RFC 9112) in any pieces it makes the documented calls. The contract is written without reference to the code that sends; sample libraries show that it can be met. | proved |
| C85 | TLS writes follow the rules of the TLS library | A model of one TLS socket with all interleavings of critical sections, which keeps a trace of the calls of the TLS library with their arguments and results; invariants of the trace and the write queue. | partial |
| C86 | TLS calls that have to wait are resumed | The same model: what a writability notification does in every reachable state. The parts that fail are refuted by a state from which no notification leads to a call. | partial |
| C87 | TLS connections do not affect each other | A model of any number of connections of one network thread that share the error queue of OpenSSL; what SSL_get_error makes of a call is modelled as OpenSSL documents and implements it. Non-interference is proved by comparison with what each connection is due, for histories without errors, and refuted otherwise. | partial |
| C88 | Clients connect to what the address says | connect of all six clients as a function of the text, built on the model of parse_network_reference (C18) and of the task that connects (AccModel); the documentation is written as a predicate on references. Proved by inversion of the parser; the deviations are refuted. | partial |
| C89 | Clients name and verify the host that they connect to | The default host, the Host header (HoutModel) and the name given to the TLS library are computed from the address; proved by parsing the default host again. | partial |
| C90 | The fields of a header value agree | All fields and flags of HTTP_Value as a state machine over assignments; doubles are an arbitrary type, and the number readers and writers of asteria are arguments. Comparison of any history with a new value. | partial |
| C91 | Loading the configuration again is all or nothing | A state machine of all components whose steps are the critical sections of the reload functions; comparison with the last file that was accepted according to the specification of settings; induction over histories. | partial |
| C92 | Settings are what the file says, or the documented default | Each reload function as a function of the root object, over the model of configuration files of C32 and C33; equivalence with a table of settings with types, ranges and defaults that is stated with names, not paths. | partial |
| C93 | TLS contexts live as long as they are used | Reference counts of contexts; invariant: the count is the number of references. | proved |
| C94 | A socket knows its own addresses | Threads as program counters over the unprotected member and the atomic flag, with the system's answers as events; an invariant over all interleavings; a specification of calls one after another; witnesses for the torn read and for the race. | partial |
| C95 | Listening sockets and multicast groups | Constructors as functions of what each system call does; options of groups as a state machine of the system; membership of addresses as the specification. | partial |
| C96 | Life of easy servers and clients | A state machine of who holds references: servers, tables, fibers in callbacks, the network thread, users. Existence of objects is derived from it. Invariants over all histories; witnesses for what stop() leaves. | partial |
| C97 | Texts of exceptions and of lines in logs | The texts as functions; the field of frame numbers is carried through the loop as in the code. Induction over the frames with the invariant that the field is blanks and the last number; a reader that leaves out colours is a separate function. | proved |
| C98 | Texts of the statements that create and alter tables | The texts as functions that follow the loops; a tokenizer and a grammar from the manual of MySQL as the specification. Reading one text after another is composed with a lemma about separators; induction over columns, indexes and clauses; the clauses are those of the model of the check itself (CktModel), so the theorems about its effects apply to what is read. | partial |
| C99 | Vectors rotate and angles add up | Vectors with integral coordinates in some unit, with the table of sines of C55. Identities of polynomials and a sweep over the 360 rows of the table; directions are shown not to depend on lengths, so that the sweep covers all vectors. | partial |
| C100 | The name of the host | The function with the buffer's former contents as an argument; gethostname and strlen as in the GNU C library. Induction over the name. | partial |
| C101 | Nested values are destroyed completely and without recursion | Values as trees whose containers may have other owners; the loop with its stack, and what is entered, left, freed and released as events. Induction over the number of iterations with the invariant that what has been destroyed and what is still on the stack make up the value. | proved |

## 2. Trusted base

* Coq 8.16.1's kernel, with its `vm_compute` machine. No kernel check is switched
  off; there is no `Admitted`, no axiom, no section-less variable, no functor or
  module type, no plugin.
* The checker run by vcheck lists seven axioms of `Coq.ssr.ssrunder`
  (`Under_rel` and its fields). They come from a module of the standard
  distribution that is loaded along with `String`, `Lia` and others; no
  theorem here depends on them, as `Print Assumptions` shows.
* The translation from C++ to Gallina by hand. Each definition cites its lines,
  and says where it simplifies.
* What is assumed about the outside is in the statements: as premises, as
  functions that are arguments (the C library's `inet_ntop`, the time zone, `strtod`
  and so on), or as arbitrary events. Where the outside is represented by a
  function (the MySQL server's ALTER TABLE, `strftime`, `epoll`) its comment says
  which document it follows.

### What `Print Assumptions` says

`Print Assumptions` stands behind the theorems in the Props files. For all 570 theorems that MANIFEST.json names it prints `Closed under the global context`. They are, with the file they are in:

| id | theorems |
|----|----------|
| C01 | WsProps: `ws_encode_layout`, `ws_header_round_trip` |
| C02 | WsProps: `ws_mask_is_xor`, `ws_mask_pieces`, `ws_mask_involutive` |
| C03 | WsProps: `ws_header_split_partial`, `ws_header_split_errors`, `ws_header_split_breaks`, `ws_header_split_refuted` |
| C04 | WsProps: `ws_frame_acceptance`, `ws_all_octets`, `ws_receive_partial` |
| C05 | WsProps: `ws_receive_partial`, `ws_split_payload_refuted`, `ws_fragmented_compressed_refuted`, `ws_close_one_octet`; WsCutProps: `ws_receive_any_pieces`, `ws_receive_harmless_partial` |
| C06 | WsProps: `ws_close_once` |
| C07 | WsProps: `ws_shut_down_server`, `ws_shut_down_client`, `ws_shut_down_status` |
| C08 | UuidProps: `uuid_print`, `uuid_round_trip`, `uuid_parse_iff`, `uuid_construct_iff`, `uuid_fields` |
| C09 | UuidProps: `uuid_compare`, `uuid_total_order`; UuidHashProps: `uuid_nil`, `uuid_extremes`, `uuid_hash`, `uuid_hash_group` |
| C10 | UuidProps: `uuid_v4_fields`, `uuid_v7_fields`, `uuid_v7_version`, `uuid_v7_sorted_partial`, `uuid_v7_processes`, `uuid_v7_sorted_refuted_clock`, `uuid_v7_sorted_refuted_burst` |
| C11 | AddrProps: `address_class`, `address_v4mapped`, `address_constants` |
| C12 | AddrProps: `subnet_match`, `subnet_match_bits` |
| C13 | AddrProps: `address_compare`, `address_total_order` |
| C14 | UriProps: `query_round_trip`, `query_encoded_legal`, `query_encoded_exact`, `query_parse` |
| C15 | UriProps: `path_canonicalize`, `path_canonical_fixed`, `path_canonical_refuted`, `path_canonical_partial` |
| C16 | UriProps: `path_round_trip`, `path_round_trip_exact`, `path_encoded_legal`, `path_encoded_exact` |
| C17 | SplitProps: `explode_fields_partial`, `explode_segments`, `explode_round_trip_partial`, `implode_text`, `explode_blank_delimiter`, `explode_blank_field`, `explode_total_refuted`, `explode_round_trip_refuted` |
| C18 | NetrefProps: `netref_parse`, `netref_views`, `netref_complete`, `netref_whole` |
| C19 | TimerProps: `timer_schedule`, `timer_not_early`, `timer_order`, `timer_abandoned`, `timer_complete`, `timer_progress`, `timer_insert`, `timer_no_overflow` |
| C20 | FiberProps: `fiber_life`, `fiber_reason`, `fiber_kept`, `fiber_progress`, `fiber_starts`, `fiber_abandoned`, `fiber_wakeup`, `fiber_no_assertion`, `fiber_starts_refuted_zero_warning`; FiberPrompt: `fiber_woken`, `fiber_noticed`, `fiber_sleeps` |
| C21 | SockmapProps: `sock_safe`, `sock_found`, `sock_only`, `sock_gone`, `sock_bounded`, `sock_event_partial`, `sock_event_refuted` |
| C22 | LogProps: `logger_order`, `logger_drop`, `logger_written`, `logger_file`, `logger_sync`, `logger_progress` |
| C23 | LogProps: `logger_one_line`, `logger_no_control`, `logger_breaks`, `logger_unescape_partial`, `logger_escape_refuted`, `logger_c1_refuted` |
| C24 | FutureProps: `future_once_partial`, `future_once_refuted`, `future_stays`, `future_wakes_all`, `future_not_early`, `future_successful` |
| C25 | FutureProps: `future_rethrow_partial`, `future_check_not_ready`, `future_rethrow_refuted` |
| C26 | TaskProps: `task_once`, `task_not_lost`, `task_exclusive`, `task_available`, `task_no_starvation`, `task_taken_begins`, `task_relaunch_blocks` |
| C27 | TaskProps: `task_order_partial`, `task_batches`, `task_order_idle`, `task_fifo_refuted` |
| C28 | PoolProps: `pool_exclusive`, `pool_suited`, `pool_clear`, `pool_newest`, `pool_size`, `pool_put`, `pool_idle`, `pool_refused`, `pool_idle_refuted`, `pool_password_refuted` |
| C29 | TcpProps: `tcp_order`, `tcp_prefix`, `tcp_false_closed`, `tcp_calls`, `tcp_no_stall`, `tcp_drains` |
| C30 | TcpProps: `tcp_forward`, `tcp_refused`, `tcp_shut`, `tcp_flush`, `tcp_closed_silent`, `tcp_stays_open`, `tcp_late_send_refuted` |
| C31 | TcpProps: `tcp_received`, `tcp_accumulate_partial`, `tcp_accumulate_refuted` |
| C32 | ConfProps: `config_path`, `config_unique`, `config_found`, `config_missing`, `config_malformed_refuted` |
| C33 | ConfProps: `config_getters` |
| C34 | FileProps: `file_read_partial`, `file_before`, `file_collected`, `file_error`, `file_behind_refuted`, `file_limit_refuted` |
| C35 | EasyProps: `easy_order`, `easy_complete`, `easy_progress`, `easy_close_last`, `easy_not_dangling`, `easy_stopped`, `easy_careful`, `easy_exclusive_partial`, `easy_stream_partial`, `easy_exclusive_refuted`, `easy_dangling_refuted` |
| C36 | RedisProps: `redis_scan_and_get` |
| C37 | RedisProps: `redis_fetch`, `redis_fetch_status`, `redis_fetch_any`, `redis_nested_status_refuted`, `redis_print`; MongoProps: `mongo_execute`, `mongo_fetch_partial`, `mongo_fetch_exact`, `mongo_fetch_loses`, `mongo_fetch_refuted`, `mongo_print`; MongoLongProps: `mongo_refused` |
| C38 | MysqlProps: `sql_literal`, `sql_integer`, `sql_datetime`, `sql_mode_refuted`, `sql_charset_refuted` |
| C39 | HoutProps: `chunked_roundtrip`, `responses_received`, `requests_received`, `chunked_close_refuted` |
| C40 | HvalProps: `hv_clean`, `hv_print`, `hv_quoted`, `hv_no_overrun`, `hv_roundtrip`, `hv_parse`, `hv_exact`, `hv_exact_refuted`, `hv_token`, `hv_unquoted`; HvnProps: `hvn_print_partial`, `hvn_number_partial`, `hvn_number_text_refuted` |
| C41 | HnameProps: `name_equal`, `name_equivalence`, `name_order`, `name_hash`, `name_canonical` |
| C42 | DateProps: `date_calendar`, `date_fields`, `date_roundtrip`, `date_unique`, `date_printed`, `date_rfc1123`, `date_asctime`, `date_cookie`, `date_git`, `date_rfc850`, `date_parse`, `date_whole`, `date_early_refuted`, `date_overflow_refuted`, `date_rfc850_refuted`, `date_view_refuted`, `date_lenient_refuted` |
| C43 | DateProps: `timespec_nanos`, `timespec_exact_partial`, `timespec_refuted` |
| C44 | GeoProps: `geo_reduce360_partial`, `geo_reduce180_partial`, `geo_reduce360_refuted`, `geo_reduce180_refuted` |
| C45 | CktProps: `check_established`, `check_unchanged`, `check_twice_partial`, `check_accepted`, `check_created`, `check_frame`, `check_boolean_refuted`, `check_primary_refuted`, `check_nullable_refuted`, `check_spelling_refuted` |
| C46 | MysqlProps: `time_stored`, `time_stored_partial`, `time_stored_refuted`, `time_foreign` |
| C47 | ApptProps: `appt_exclusive`, `appt_live`, `appt_try`, `appt_lower`, `appt_alone` |
| C48 | StackProps: `stack_safe`, `stack_exclusive`, `stack_given`, `stack_not_lost`, `stack_reused`, `stack_freed` |
| C49 | WsProps: `ws_client_to_server_partial`, `ws_server_to_client_partial`; WsCutProps: `ws_client_to_server_any_pieces`, `ws_server_to_client_any_pieces` |
| C50 | NetrefProps: `address_text_round_trip`, `address_text_fits`, `address_text_accepted_partial`, `address_text_strict_refuted` |
| C51 | HdrProps: `hdr_attribute`, `hdr_element`, `hdr_skip`, `hdr_last`, `hdr_all`, `hdr_plain`, `hdr_quoted`, `hdr_end`, `hdr_empty_refuted` |
| C52 | HoutProps: `responses_received`, `response_last`, `response_closes`, `response_after`, `page_received`, `request_host`, `requests_received`, `injection_refuted` |
| C53 | JsonProps: `json_quote`, `json_quote_utf8`, `json_ascii`, `json_prefix_refuted` |
| C54 | MongoProps: `mongo_print`, `mongo_base64`, `mongo_date`, `mongo_date_refuted` |
| C55 | GeoProps: `geo_circle`, `geo_period`, `geo_values`, `geo_arctan`, `geo_reflections`, `geo_axes`, `geo_total`, `geo_full_turn_refuted`, `geo_infinite_refuted` |
| C56 | MysqlProps: `statement_arguments`, `row_fetched` |
| C57 | EqueueProps: `queue_order`, `queue_complete`, `queue_progress`, `queue_exclusive`, `queue_stopped` |
| C58 | HreqProps: `requests_arrive`, `requests_prompt` |
| C59 | HreqProps: `target_told`, `target_wrong`, `target_unique`, `target_round_trip`, `target_forms_refuted`, `userinfo_of_query_refuted`, `ipv6_target_refuted` |
| C60 | HreqProps: `reception_limits` |
| C61 | HreqProps: `errors_final_partial`, `errors_final_refuted`, `switched_all` |
| C62 | HrespProps: `responses_arrive`, `responses_complete` |
| C63 | HrespProps: `response_limits_partial`, `reason_limit_refuted` |
| C64 | HrespProps: `response_errors_final`, `response_switch_final` |
| C65 | WshProps: `server_handshake`, `server_options`, `server_accepts_any`, `handshake_defined`, `calm_without_colon`, `negotiation_unique`, `handshake_overflow_refuted` |
| C66 | WshProps: `client_request`, `client_handshake`, `client_accepts_any` |
| C67 | WshProps: `handshake_agreement`, `agreement_level_zero_refuted` |
| C68 | WshProps: `server_session`, `server_closed_once`, `client_session`, `server_ready_after_closure_refuted`, `server_switch_without_ready_refuted`, `client_status_refuted`, `client_ready_after_closure_refuted` |
| C69 | NetProps: `net_refines`, `net_connected_once`, `net_over_last`, `net_over_told`, `net_bytes`, `net_eof`, `net_connected_first`, `net_eof_once_refuted`, `net_connected_first_refuted`, `net_over_told_refuted` |
| C70 | NetProps: `net_paused`, `net_input_owed`, `net_resumes` |
| C71 | AccProps: `accept_all`, `accept_returns_refuted` |
| C72 | AccProps: `udp_packets`, `udp_reply`, `udp_sent`, `udp_send_result`, `udp_returns_refuted` |
| C73 | AccProps: `dns_query`, `dns_query_order`, `dns_connects`, `dns_connect_expired`, `dns_prefers_ipv4_refuted`, `dns_failure_told_refuted` |
| C74 | DeflProps: `ws_compressed_exact`, `ws_compressed_delivered`, `ws_compressed_client_to_server`, `ws_compressed_server_to_client`, `ws_compressed_final_block_refuted`, `ws_compressed_growth_refuted`, `ws_compressed_cut_refuted`; WsZipCutProps: `ws_compressed_pieces` |
| C75 | DeflProps: `deflator_round_trip`, `deflator_flush`, `inflator_stops`, `inflator_cut`, `deflator_calls_end`, `deflator_small_buffers`, `deflator_after_finish_refuted` |
| C76 | EsProps: `events_in_turn`, `fibers_settle`, `http_server_serves`, `http_server_errors`, `http_kinds`, `http_client_receives`, `http_client_responses`, `callback_exceptions`, `http_closure_lost_refuted`, `http_proxy_refused_refuted` |
| C77 | EsWsProps: `ws_server_conversation`, `hws_server_conversation`, `ws_client_conversation`, `ws_server_hears_partial`, `ws_client_hears_partial`, `hws_replies_in_order_refuted`; EsWsCutProps: `ws_server_hears_any_pieces`, `ws_client_hears_any_pieces`; HwsPlainProps: `hws_plain_requests`; EsProps: `callback_exceptions` |
| C78 | QryProps: `mysql_pooled_as_new_partial`, `redis_pooled_as_new_partial`, `mongo_pooled_as_new`, `mysql_nothing_left_partial`, `redis_nothing_left_partial`, `mongo_nothing_left`, `mysql_statement_left_refuted`, `mysql_database_leaks_refuted`, `mysql_broken_pooled_refuted`, `redis_selection_leaks_refuted`, `redis_replies_leak_refuted` |
| C79 | QryProps: `mysql_query_complete`, `mysql_query_all_or_error`, `redis_query_complete`, `redis_query_all_or_error`, `mongo_query_complete`, `mongo_query_all_or_error`, `mysql_partial_result_refuted`, `mysql_no_result_refuted`, `mysql_stale_metadata_refuted`, `redis_error_fetched_refuted` |
| C80 | QryProps: `service_uris`, `service_defaults`, `service_uris_refuted` |
| C81 | MainProps: `launcher_status_partial`, `launcher_reports_failure`, `launcher_returns_partial`, `launcher_ignored_refuted`, `launcher_inherited_refuted` |
| C82 | MainProps: `one_instance_partial`, `lock_decides`, `pid_file_text`, `pid_file_exact_partial`, `pid_line_readable`, `lone_start`, `pid_file_emptied_refuted`, `one_instance_refuted`, `pid_reader_refuted`, `pid_file_remains_refuted` |
| C83 | MainProps: `command_line_meaning`, `command_line_invalid`, `command_line_forms`, `command_line_posix`, `start_up`, `ready_iff`, `exit_status` |
| C84 | HtripProps: `requests_end_to_end`, `responses_end_to_end`, `closing_response_end_to_end` |
| C85 | SslProps: `ssl_write_repeats`, `ssl_write_nonempty`, `ssl_in_order`, `ssl_notify_last`, `ssl_notify_after_fatal_partial`, `ssl_notify_after_fatal_refuted` |
| C86 | SslProps: `ssl_write_resumed`, `ssl_read_resumed_refuted`, `ssl_client_begins_refuted` |
| C87 | SslProps: `ssl_isolated_partial`, `ssl_bytes_own`, `ssl_isolated_refuted`, `ssl_isolated_shut_refuted` |
| C88 | ConnProps: `conn_connects`, `conn_tcp_exact`, `conn_exact_partial`, `conn_ws_request`, `conn_empty_refuted`, `conn_fragment_refuted` |
| C89 | ConnProps: `conn_host_partial`, `conn_verify_partial`, `conn_host_refuted`, `conn_verify_v6_refuted`, `conn_verify_ssl_refuted` |
| C90 | HvnProps: `hvn_last`, `hvn_text`, `hvn_text_total`, `hvn_int`, `hvn_dbl`, `hvn_date`, `hvn_read_date`, `hvn_stale_refuted`, `hvn_date_null_refuted` |
| C91 | RelProps: `rel_last`, `rel_last_fiber_partial`, `rel_last_logger`, `rel_log_open`, `rel_log_exact_partial`, `rel_log_refuted` |
| C92 | RelProps: `rel_settings`, `rel_settings_fiber_partial`, `rel_stack_refuted`, `rel_request_default_refuted`, `rel_empty_uri_refuted`, `rel_stack_multiple_refuted` |
| C93 | RelProps: `rel_ctx_live`, `rel_ctx_freed`, `rel_ctx_current` |
| C94 | NameProps: `name_sequence`, `name_shared_partial`, `name_kept`, `name_errno`, `name_torn_refuted`, `name_race_refuted` |
| C95 | NameProps: `listening`, `adopted`, `deferred`, `group_joined`, `group_left`, `group_not_joined_partial`, `group_atomic_refuted` |
| C96 | LifeProps: `life_started`, `life_start_failed`, `life_stopped_partial`, `life_restarted`, `life_ended`, `life_accepts`, `life_connected`, `life_owns`, `life_released`, `life_start_same`, `life_stop_callback_refuted`, `life_stop_listener_refuted`, `life_unwatched_refuted` |
| C97 | ThrowProps: `log_message_trimmed`, `throw_text`, `throw_defined`; LogLineProps: `log_line`, `log_colours`; LogColourProps: `logger_appearance` |
| C98 | SqlProps: `create_statement`, `alter_statement`, `show_statements`, `backtick_refuted` |
| C99 | VecProps: `vec_rotate_length`, `vec_rotate_products`, `vec_rotate_back`, `vec_rotate_turns`, `vec_rotate_linear`, `vec_points`, `vec_polar`, `vec_polar_negative`, `vec_rotate_angle`, `deg_reduced`, `deg_arithmetic`, `deg_mul_nearest`, `deg_div_truncates`, `deg_halves_refuted`; VecUnitProps: `vec_unit`, `vec_unit_axes`, `vec_magnitude` |
| C100 | HostProps: `hostname_partial`, `hostname_refuted` |
| C101 | DtorProps: `value_destroyed`, `value_destroyed_naive` |

## 3. What is modelled and what is not

| model | code in /repo | left out or represented otherwise |
|-------|---------------|-----------------------------------|
| WsModel | websocket_frame_header.cpp, websocket_frame_parser.cpp, the receiving and sending halves of ws_server_session.cpp and ws_client_session.cpp | the HTTP handshake (WshModel); the deflate algorithm (it is an argument); the SSL variants have the same text |
| UuidModel, UuidHashModel | base/uuid.cpp, base/uuid.hpp (is_nil, hash, min, max), hex_encode_16_partial | the random generator (an argument) |
| AddrModel, AddrTextModel | socket/ipv6_address.cpp | `inet_ntop`, `inet_pton` (arguments with laws) |
| UriModel | http_query_parser.cpp, http_c_headers.cpp (encoding), decode_and_canonicalize_uri_path | - |
| SplitModel, NetrefModel, JsonModel | utils.cpp: explode, implode, parse_network_reference, quote_json_string | asteria's number writer (argument) |
| TimerModel | static/timer_scheduler.cpp, base/abstract_timer.hpp | the heap of the C++ library is specified by its contract; signals |
| FiberModel, FutureModel, StackModel | static/fiber_scheduler.cpp, fiber/abstract_future.cpp | context switches (`swapcontext`) themselves; guard pages; weak memory |
| TaskModel | static/task_scheduler.cpp | - |
| LogModel | static/logger.cpp | errors of opening and writing files; the formatting of time and thread names |
| SockmapModel | static/network_scheduler.cpp: the socket table and event collection | the inside of `epoll` |
| TcpModel | socket/tcp_socket.cpp, abstract_socket.cpp; ssl_socket.cpp has the same structure | allocation failures; the TLS protocol |
| PoolModel | static/redis_connector.cpp, mysql_connector.cpp, mongo_connector.cpp | the connections' protocols |
| DateModel | base/datetime.cpp, timespec_from_system_time | `strftime`, `strptime`, `timegm` follow glibc in the C locale |
| HvalModel, HdrModel, HnameModel | http_value.cpp (text), http_header_parser.cpp, http_field_name.cpp | number values; asteria's case-insensitive functions follow their names |
| HreqModel | http_request_parser.cpp, http_server_session.cpp: do_on_tcp_stream | the library http_parser: its calls are the input |
| HrespModel | http_response_parser.cpp, http_client_session.cpp: do_on_tcp_stream | the library http_parser: its calls are the input |
| WshModel | websocket_frame_parser.cpp: the handshake; ws_server_session.cpp and ws_client_session.cpp: the handshake, and the notices of connection and closure | SHA-1 and the conversion of text to numbers (arguments) |
| NetModel | network_scheduler.cpp: thread_loop for one socket; tcp_socket.cpp: the order of the callbacks | the kernel: what epoll and recv report is a step guarded by its contract; one network thread, as main.cpp creates; SSL |
| AccModel | tcp_acceptor.cpp, udp_socket.cpp (receiving and sending), dns_query_future.cpp, dns_connect_task.cpp | results of system calls (arguments); multicast groups and socket options |
| DeflModel | websocket_deflator.cpp, abstract_deflator.cpp, abstract_inflator.cpp, compression in ws_server_session.cpp and ws_client_session.cpp | zlib (arguments, with contracts); its parameters; the mutexes |
| EsModel | easy_http_server.cpp, easy_http_client.cpp, easy_ws_server.cpp, easy_ws_client.cpp, easy_hws_server.cpp (and the TLS variants, which differ in names) | lookup of sessions by their address; compression; callbacks are arbitrary |
| QryModel | mysql_connection.cpp, redis_connection.cpp, mongo_connection.cpp, mysql_query_future.cpp, redis_query_future.cpp, mongo_query_future.cpp | client libraries and servers are arbitrary functions with failures at every call; further result sets of stored procedures; the clock |
| MainModel | main.cpp | getopt, fork, waitpid, pipes and flock by their documentation; reading from the pipe and writing the file do not fail; resource limits, random seeds, and what components do in start-up |
| DtorModel | mongo/mongo_value.cpp and redis/redis_value.cpp: destructors | containers that are referred to twice from one value; threads; exhausted memory |
| HostModel | fwd.cpp: do_get_hostname | the locale |
| VecModel, VecUnitModel | geometry.hpp: vector2, point2 and operators, exact coordinates | rounding of floats; square roots are arguments |
| SqlModel | texts of mysql_check_table_future.cpp: do_append_column_definition, do_append_index_definition, do_append_engine, the statements of do_on_abstract_future_initialize | the server; texts of doubles of asteria |
| ThrowModel | do_push_log_message, do_create_runtime_error of utils.cpp | libunwind; hexadecimal numbers of asteria |
| LifeModel | start, stop, local_address, the acceptor of easy_tcp_server.cpp, and connect, close_all of easy_tcp_client.cpp; the other easy servers and clients have the same functions | that the network thread holds tables for short times; destructors; how the system chooses ports; UDP |
| NameModel | local_address, remote_address and the constructors of abstract_socket.cpp; constructors and defer_accept of tcp_acceptor.cpp; constructors, join_multicast_group and leave_multicast_group of udp_socket.cpp | the system (its answers are arguments or events); TCP_QUICKACK; log messages |
| RelModel | main_config.cpp; reload in logger.cpp, mysql_connector.cpp, mongo_connector.cpp, redis_connector.cpp, network_scheduler.cpp, fiber_scheduler.cpp; server_ssl_ctx, client_ssl_ctx; the limits read by the HTTP and WebSocket parsers; Logger::enabled | reading and parsing of the file (external: its root object or a failure); OpenSSL and getrlimit (answers are arguments); initialization of the database libraries; log messages; the order of unlocking and freeing |
| HvnModel | http_value.hpp, http_value.cpp: all fields, assignments, parse, print_to | reading and writing of numbers (asteria) and the conversion of doubles: arguments; copying, moving and swapping values |
| ConnModel | connect of easy_{tcp,ssl,http,https,ws,wss}_client.cpp; the constructors of HTTPS_Client_Session, WS_Client_Session and WSS_Client_Session | OpenSSL, getaddrinfo and connect (arguments); that SSL_set1_host makes OpenSSL check the name; the tables of sessions (EsModel) |
| SslModel | ssl_socket.cpp: ssl_send, ssl_shut_down, the callbacks; abstract_socket.cpp | OpenSSL: results of its calls are arguments of events, and SSL_get_error and the error queue are modelled by hand; the allocation of memory; certificates |
| HtripSpec, HtripTerms | no code: the contract of http_parser, and what is demanded of senders | only messages whose headers are within 80 KiB, without Proxy-Connection and Upgrade |
| HoutModel | http_s_headers.cpp, http_c_headers.cpp, the sending halves of http_server_session.cpp and http_client_session.cpp | numbers in headers |
| RedisModel | redis_connection.cpp (replies), redis_value.cpp, redis_scan_and_get_future.cpp | hiredis; hash table order |
| MongoModel | mongo_connection.cpp (commands, replies), mongo_value.cpp | libbson is a list of named elements; double printing |
| MysqlModel, CktModel | mysql_value.cpp, mysql_connection.cpp (execute, fetch_row), mysql_check_table_future.cpp | the MySQL client library and server follow their documentation |
| GeoModel | geometry.hpp, geometry.cpp | rounding of floats (exact rationals) |
| ConfModel | base/config_file.cpp: query and getters | asteria's parser of the file |
| FileModel | fiber/read_file_future.cpp | the file system: reads may be short or fail |
| ApptModel | base/appointment.cpp | `fcntl` locks follow POSIX; descriptors kept by `fork` |
| EasyModel, EqueueModel | easy/*.cpp: event queues of servers, clients and timers | what callbacks do is arbitrary; the SSL and HTTP variants have the same text |

Pairs of files with the same text. The following were compared line by line after
replacing `ssl`, `https`, `wss`, `hwss` by `tcp`, `http`, `ws`, `hws`; the model of the first file of a pair is the model of
the second. The only differences apart from comments and line breaks are the arguments of the constructors of sockets, and:

- `easy_{tcp,http,ws,hws}_server.cpp` and `easy_{ssl,https,wss,hwss}_server.cpp`: none
- `easy_tcp_client.cpp` and `easy_ssl_client.cpp`: none; `easy_{http,ws}_client.cpp` and `easy_{https,wss}_client.cpp`: the default port
  (80, 443; both in ConnModel)
- `http_server_session.cpp` and `https_server_session.cpp`: `is_ssl`, and the texts of two exceptions
- `http_client_session.cpp` and `https_client_session.cpp`: the constructor (ConnModel), and the text of an exception
- `ws_server_session.cpp` and `wss_server_session.cpp`: none; `ws_client_session.cpp` and `wss_client_session.cpp`: `is_ssl`

Not modelled: the libraries http_parser, zlib, OpenSSL, hiredis, libmongoc, libmysqlclient and libc except as arguments or oracles with
stated premises; `main.cpp`: the texts of help and version, `do_check_ulimits`, installation of signal handlers; `random_bytes` of
utils.cpp and fwd.cpp; constructors and destructors that do nothing else
than initialise or destroy members. The submodules asteria and rocket are not in the repository: what they do is an argument or is
written down at the definition that uses it.

## 4. Findings

Properties that are false of the code. Each `_refuted` theorem proves that the property fails on a concrete case of the model; other entries were noticed while reading and are only recorded.

* WebSocket (C03, C05): the frame parser changes its state before a header is complete, so headers that start or end a fragmented message are refused when they are cut after the second byte; payloads that arrive in pieces and fragmented compressed messages are mishandled. A CLOSE with a one-byte payload yields the status b*256+237. `pmce_compression_level` is documented as zero if inactive but is 2.
* Streams (C31): TCP and SSL sockets clear the receive queue before every read, although unconsumed data are documented to accumulate. A send that races with a shutdown may return true for data that are never sent (C30).
* UUID (C10): version 7 identifiers do not sort by creation if the clock steps back or more than 4096 are made in a millisecond. Text is lower-case, the documentation says upper-case.
* Subnets (C12): matching reads one octet past the prefix if its length is a multiple of 8 (harmless in the fixed-size buffer).
* Dates (C42, C43): parsing accepts days that do not exist and may report more characters than there are; years above 2262 overflow; years before 1900 are clamped; two-digit years are ambiguous. `timespec_from_system_time` is wrong below -9223372036000000000 ns.
* URI paths (C15): after a malformed percent escape the last segment may stay `.` or `..`. An empty query parses as one pair.
* explode (C17): a blank field before a delimiter makes it fail, a leading delimiter yields a wrong first segment.
* Addresses (C50): `1.2.3.4:80?#` is accepted. `parse_network_reference` may set the host before it fails.
* HTTP headers (C40, C51): an empty list element ends the usual loop; runs of blanks are squeezed; a value is null after a failed date.
* HTTP sessions (C39, C52): a chunked response with `Connection: close` is shut down before its first chunk; line breaks in header values are written as they are; error pages have bodies even for HEAD, 204 and 304.
* HTTP requests (C59, C61): targets in origin form with `://` anywhere, for example in a query, are rejected, and so are CONNECT and `OPTIONS *` and methods of eight characters or more; `http://h?x@y` is read as host `y` with user `h?x`; the brackets of IPv6 hosts are lost; a request with an empty host is answered with 400 but delivered when more data arrives; payloads of methods other than POST, PUT and PATCH are discarded; trailers may be refused because Host counts twice; the messages about long headers name the wrong limit.
* Futures (C24, C25): `check_success` ignores the saved exception of an initialized future; exceptions that are not `std::exception` make the callback run again.
* Tasks (C26, C27): within a batch the last launch is executed first; relaunching a task while it executes blocks the queue until it ends.
* Fibers (C20): `fiber.warn_timeout = 0` starves other fibers.
* Pools (C28): an idle connection past its time may be handed out; passwords are not compared; a failed Redis AUTH leaves the connection marked clean.
* Sockets (C21): an event waiting in the buffer can reach a newer socket at the same address.
* Logger (C23): backslashes make the escaping ambiguous; C1 controls in UTF-8 pass.
* Easy servers (C35): if the address of a closed socket is reused, two fibers may be in callbacks for one socket; an exception while queueing erases an entry that a suspended callback refers to. The error event of easy_http_server has an uninitialised type.
* Files (C34): an offset behind the end, or a limit of 2^63 or more, fails with an exception.
* Configuration (C32): a malformed path is not reported if what precedes the mistake is missing.
* Angles (C44, C55): reduce360 is wrong exactly for t < -2147483160, reduce180 for t < -2147483339; `direction()` may be 360; the direction of (inf, inf) is 44.
* MySQL (C38, C45, C46): literals can be escaped from with NO_BACKSLASH_ESCAPES or GBK; times are 15 minutes off in quarter-hour zones; table checks never converge for boolean columns on servers that show display widths, for a primary key of type multi and for a nullable column in the primary key, and fail for names spelled in another case; `tm_isdst` is passed uninitialised.
* Redis (C37): statuses and errors inside arrays become nil.
* MongoDB (C37, C54): fields that follow a non-empty nested array or document in a reply are appended into it; some time points print one millisecond off.
* JSON (C53): `\u` escapes get a `0x` prefix, so no escaped string can be read back; one code unit is read uninitialised.
* HTTP responses (C63): the reason phrase is not compared with any limit, so a status line is bounded only by what the library http_parser tolerates itself.
* WebSocket handshake, client (C66, C68): the status of the response is never compared with 101; a `404` with the right headers establishes the connection.
* WebSocket handshake, client (C67): with a compression level of zero, the client still offers permessage-deflate and silently ignores that a server has accepted it; the peers disagree then. Invalid parameters in a response count as no compression instead of a failure.
* WebSocket handshake, both (C68): a request (response) that follows a refused one in the same stream is still evaluated, so the application can be told that a connection is established after it has been told that it is closed; the 101 response is not sent then.
* WebSocket handshake, server (C68): a request that does not keep its connection (HTTP/1.0) is answered with 101 and then closed.
* WebSocket handshake, server (C65): an empty or malformed parameter ends the loop over parameters as if there were no more, so `permessage-deflate; ; client_max_window_bits=99` is accepted; `Upgrade` is compared with case; `server_no_context_takeover` is obeyed but not repeated in the response; levels 1 and 2 become 3; a date in a header counts as no value, and a far one overflows.
* Connections (C69): when the peer ends first, `do_on_tcp_stream` with `eof` is called and the socket is shut down; the kernel then reports EPOLLIN | EPOLLHUP, `recv` returns zero again, and `do_on_tcp_stream` with `eof` is called a second time.
* Connections (C69): `do_abstract_socket_on_readable` does not look at the state, so that a connection which the user has shut down before it was established delivers bytes and an end of the stream without `do_on_tcp_connected`.
* Connections (C69): an exception that leaves `do_abstract_socket_on_readable` (memory exhaustion in `reserve_after_end`) removes the socket from the epoll set without calling `do_abstract_socket_on_closed`.
* Acceptors (C71): every error of `accept4` other than EAGAIN is followed by another attempt in the same loop. Exhaustion of descriptors (EMFILE, ENFILE) and the shutdown of the acceptor itself (`quick_shut_down`, EINVAL) persist, so the network thread spins for ever and serves no other socket.
* Datagrams (C72): the same loop for `recvfrom`.
* Connecting by name (C73): the documentation says that IPv4 addresses are preferred; they are tried in the order of `getaddrinfo`.
* Connecting by name (C73): after a failure the socket is shut down but has not been put into the network scheduler, so that no closure notification is delivered, although the implementation says that one shall be.
* Compression (C74): RFC 7692, 7.2.3.4 lets a sender end a compressed message with a final block; `inflate` then returns `Z_STREAM_END`, on which `inflate_message_stream` throws, so that such messages are refused.
* Compression (C74): the sender compresses every message from 64 octets on and never compares the result with the original; an incompressible message near the receiver's limit becomes longer than the limit and is refused.
* Compression (C74): `inflate_message_finish` does not check the length of the message (this is made up for by the check in `do_on_ws_message_data_stream`).
* Compression (C74): `deflate_message_finish` leaves an empty payload for an empty message after another one, because a second sync flush writes nothing; the peer would then append `00 00 FF FF` at a block boundary, which is not a block. `ws_send` never compresses empty messages, so this concerns other users of the class only.
* Deflators (C75): `Abstract_Deflator::deflate` is documented to return zero after `finish()`; zlib returns `Z_STREAM_ERROR` there, so it throws.
* Easy HTTP servers (C76): `do_on_http_request_error` leaves `event.type` uninitialised; if it happens to be 23 (`easy_http_close`), the session is removed from the table when the error is answered, and the callback never learns of the closure.
* Easy HTTP servers (C76): `HTTP_Server_Session::do_on_http_request_headers` reports 403 for a request to a proxy but returns `http_payload_normal`, so the request that has been refused is still passed to the callback.
* Easy WebSocket servers (C77): errors (403, 405, 400) are answered by the network thread at once, and may overtake the replies to earlier pipelined GET requests, which fibers have yet to send.
* Easy WebSocket clients (C77): `easy_ws_open` is pushed before `m_upgrade_ack` is set; a callback that runs at once sends without compression, and `ws_shut_down` there closes the connection without a CLOSE frame (not modelled).
* Redis connections (C78): `reset()` does not undo `SELECT`, `MULTI`, `AUTH` or subscriptions, so the next user of a pooled connection works with the wrong database. If a command has several replies (`SUBSCRIBE a b`), those that have not been read are taken for the replies of the next user's commands.
* MySQL connections (C78): `mysql_reset_connection` does not restore the current database. `m_reset_clear` is only cleared once a statement has been prepared and bound, so a connection that broke while a statement was being prepared may be put back without a reset, and the next user's query fails.
* MySQL connections (C79): `m_meta` is only cleared after a statement has been bound; after a statement that failed before, `fetch_fields` and `fetch_row` use the metadata of the previous statement and read beyond their end.
* MySQL queries (C79): the numeric members of `MySQL_Query_Future` are not initialized, and because of C25 they can be read after a failure as if they were valid. `match_count()` is `noexcept` although `check_success()` may throw.
* Redis connections (C79): after `execute` has thrown an error from the server, `fetch_reply` returns true and gives a null value.
* MongoDB connections (C79): `m_db` is assigned from `mongoc_uri_get_database`, which gives a null pointer if the URI has no database (not modelled). If composing a command fails, the reply of the previous command can still be fetched.
* Service URIs (C80): `user@/db` is refused although there is a default host. If there is no path, an at sign in the query is taken for the end of the user: `host?x=@` is the user `host?x=` of the default host.
* PID file (C82): `do_write_pid_file` calls `creat`, which truncates the file, before `flock`. So if a second instance is started by mistake it gives up, but it has removed the PID of the running instance from the file.
* PID file (C82): the lock is converted from exclusive to shared by `flock`, which is documented not to be atomic; in between another instance may get the exclusive lock, and both run. The result of that call is ignored.
* PID file (C82): somebody who holds a shared lock in order to read the file makes an instance that is started fail, although none runs. If an instance dies between another one's `creat` and `flock`, the file has remains of two lines.
* Detaching (C81): if SIGCHLD is ignored, which is inherited through `exec`, `waitpid` fails with ECHILD and the launcher exits with 1 although the daemon runs.
* Detaching (C81): the pipe is not close-on-exec. If a module creates a process and then start-up fails, the launcher waits until that process ends too.
* End to end (C84): a client session sends a body with any method, but a server session drops it unless the method is POST, PUT or PATCH: the application is told of a request with an empty body, without an error.
* End to end (C84): a client session has to know which responses have no body because the request was HEAD: unless `do_on_http_response_headers` says so, the next response is taken as the body.
* TLS (C87): the error queue of OpenSSL is never emptied before a call, as SSL_get_error requires. A peer that closes its connection without the closing alert leaves an entry (`ssl_socket.cpp:94` only looks at it), and the next read of any other TLS connection that has to wait is taken for an end of that connection: do_on_ssl_stream is called with `eof`, and the connection is shut down. SSL_shutdown during a handshake leaves an entry, too, and breaks another connection.
* TLS (C86): a read that waits for the socket to be writable (a handshake that is larger than the send buffer) is not resumed when it is, as do_abstract_socket_on_writeable does not call the library if nothing is queued. For the same reason a client that waits for the server to speak first never begins the handshake.
* TLS (C85): SSL_shutdown can be called after a fatal error, when the connection breaks between the test of the state and the lock in ssl_shut_down.
* Clients (C89): the brackets of an IPv6 address are lost in the default host (`easy_http_client.cpp:229` etc.), so the Host header is not a valid reference, and the constructor of HTTPS_Client_Session, which parses this text again, finds no host or a wrong one: for `[2001:db8::1]:443` the certificate is not matched against any name, for `[fe80:1::2]:443` it is matched against `fe80`. Easy_SSL_Client never sets a name at all, and hosts of more than 253 characters are not verified.
* Clients (C88): the empty text is accepted as an address by HTTP and WebSocket clients, because parse_network_reference returns 0 for an error and 0 is also the length of the text. Fragments are accepted although the documentation disallows them.
* HTTP values (C90): assigning a text that is not a number leaves `as_integer()` and `as_double()` as they were, although the fields are documented to be always synchronized; a date that is only the beginning of a text is stored (but not flagged).
* HTTP values (C40): a text that can be read as a number is printed as the number, so `007` becomes `7` in a header.
* Logger (C91): `Logger::reload()` is documented to have no effect if it fails, but it enables all levels first and leaves them enabled if a setting is wrong, so that every trace message is formatted and queued from then on.
* Configuration (C92): `network.http.max_request_content_length` is documented to default to 3 MiB, but the default is 1 MiB.
* Configuration (C92): service URIs and passwords are documented to have their default values if they are null or empty; an empty string is taken as it is, also for replicas.
* Fibers (C92): `fiber.stack_vm_size` is documented to be a multiple of 65536 that includes two guard pages; any number from 1 is accepted, and the guard pages are added.
* Fibers (C92): the limit of the system, which is the default, is truncated to 32 bits: an unlimited stack is 4 GiB - 1 byte, and a limit of 4 GiB + 1 byte gives stacks of one byte.
* Sockets (C94): `local_address()` and `remote_address()` are `const` and called from several threads, but they store the address without a lock; two first calls at the same time are a data race even if both store the same, and if the address of the socket changes in between, a reader may get the octets of one address with the port of another.
* UDP sockets (C95): `join_multicast_group()` joins the group before it sets the number of hops and the loop-back; if one of these fails, it throws an exception although the socket is in the group.
* Easy servers (C96): `stop()` only drops references. A callback that is in progress (a fiber may be suspended in it for any time) keeps the table of sessions, so all clients of the server stay connected after `stop()`, and the callback goes on being called for them; the documentation says that they are disconnected immediately.
* Easy servers (C96): an application that keeps the result of `start()` keeps the port: after `stop()` the system goes on establishing connections, which are accepted and closed at once, and the server cannot be started there again.
* Easy servers (C96): `start()` makes the new listener before the old one is closed, so a server that runs cannot be started at its own address again.
* Easy servers (C96): if the scheduler cannot watch an accepted connection (`epoll_ctl` fails), the connection is already in the table of sessions; it stays open without any event until the server is stopped.
* Compressed WebSocket messages (C74): the four octets that end a compressed message are fed to zlib whenever the *header* of the frame has the FIN bit, after every piece of the payload that the transport delivers (ws_server_session.cpp:127-128, ws_client_session.cpp likewise), also after an empty one. A compressed message whose frame is not received at once is refused by an exception or delivered with other contents (`ws_compressed_cut_refuted`); if zlib accepts it, what is delivered is made from the last piece alone (`ws_compressed_pieces`).
* C98, `backtick_refuted`: names of tables, columns and indexes are put between backticks without doubling the backticks in them (mysql_check_table_future.cpp:16, 81, 85, 98, 181, 214, 247, 276, 508, 566). A table with one column named ``a` int NOT NULL, `b`` is created with the two columns `a` and `b`.
* C99, `deg_halves_refuted`: the product of an angle with a `float` is rounded with `lrintf` (geometry.hpp:414), but the quotient by a `float` is passed to the constructor with an `int` parameter and so is truncated (geometry.hpp:449). Half of 3 degrees is 2 degrees as a product and 1 degree as a quotient.
* C100, `hostname_refuted`: the buffer for the name of the host has `HOST_NAME_MAX` octets (fwd.cpp:34), which does not count the null character. On a host whose name has 64 octets, `gethostname` fails and every program that is linked with the library is terminated before `main`.

## 5. Wrong programs

`seeded/LOG.jsonl` has one line per edit of the model: the definition, the edit,
the claim it breaks, the theorems that failed to prove, and the theorems that
were tightened because they still proved.

