{"id": "C01", "title": "Packet stream decoding does not depend on how the bytes are chunked", "statement": "Feeding a byte stream to a milter decoder in any sequence of chunks reports the same messages, in the same order, as feeding it in one piece; when a chunk makes decoding fail, the messages reported before the failure are those of the one-piece feed.", "quantifier": "every byte stream and every way of cutting it into chunks (including empty chunks and cuts inside the 4-byte length)", "why_tests_cant": "The number of cuts of a stream is exponential and streams are unbounded; tests feed a handful of cuts.", "anchors": ["milter/core/milter-decoder.c:milter_decoder_decode", "milter/core/milter-agent.c:cb_reader_flow"]}
{"id": "C02", "title": "Every packet is a 4-byte big-endian length followed by exactly that many bytes", "statement": "Each packet produced by the command, reply and control encoders starts with the 4-byte big-endian number of bytes that follow it, for every payload shorter than 2^32 bytes, and a receiver that reads that length recovers exactly the payload and the rest of the stream.", "quantifier": "every payload and every following byte stream", "why_tests_cant": "The length field covers 2^32 values and arbitrary payload content.", "anchors": ["milter/core/milter-encoder.c:milter_encoder_pack", "milter/core/milter-decoder.c:milter_decoder_decode"]}
{"id": "C03", "title": "Commands survive the wire", "statement": "Encoding any milter command with the command encoder and decoding the packet with the command decoder reports exactly that command with the same arguments, when its strings satisfy the protocol's own conditions (no NUL inside, non-empty where the protocol needs it, body at most 65535 bytes).", "quantifier": "every command kind and every argument (strings, macro tables, header names and values, body bytes, options)", "why_tests_cant": "Arguments range over unbounded strings, binary bodies and tables.", "anchors": ["milter/core/milter-command-encoder.c", "milter/core/milter-command-decoder.c"]}
{"id": "C04", "title": "Replies survive the wire", "statement": "Encoding any milter reply with the reply encoder and decoding the packet with the reply decoder reports exactly that reply with the same arguments, under the protocol's conditions on its strings.", "quantifier": "every reply kind and every argument", "why_tests_cant": "Arguments range over unbounded strings, indexes of 32 bits, and macro request tables.", "anchors": ["milter/core/milter-reply-encoder.c", "milter/core/milter-reply-decoder.c"]}
{"id": "C05", "title": "A pipelined session is received exactly as sent", "statement": "When one encoder object sends any sequence of commands (or replies) and the concatenated bytes arrive in arbitrary chunks, the receiver reports exactly that sequence: nothing lost, duplicated, reordered or merged.", "quantifier": "every sequence of encodable messages and every chunking of the concatenation", "why_tests_cant": "Requires induction over unbounded sessions, with encoder buffer reuse between messages.", "anchors": ["milter/core/milter-encoder.c", "milter/core/milter-decoder.c", "milter/core/milter-command-encoder.c", "milter/core/milter-reply-encoder.c"]}
{"id": "C06", "title": "Decoding never reads outside the received bytes", "statement": "Whatever bytes a peer sends, decoding a packet reads only bytes of that packet (or the terminator the buffer guarantees); it never reads memory outside the receive buffer and never takes the following packet's bytes as part of this one.", "quantifier": "every byte stream a peer can send, including truncated, oversized, zero-length and unterminated packets", "why_tests_cant": "Adversarial inputs: the set of malformed packets is infinite and an over-read by a few bytes usually goes unnoticed in a test.", "anchors": ["milter/core/milter-decoder.c", "milter/core/milter-command-decoder.c", "milter/core/milter-reply-decoder.c"]}
{"id": "C07", "title": "Only well-formed packets are reported", "statement": "If the decoder reports a message for a packet then the packet really has the wire format of that message with the reported arguments; a packet that lacks a terminator, a mandatory field, or has trailing bytes where none are allowed is refused.", "quantifier": "every packet content", "why_tests_cant": "Soundness of a parser over all byte strings.", "anchors": ["milter/core/milter-command-decoder.c", "milter/core/milter-reply-decoder.c", "milter/core/milter-decoder.c:milter_decoder_check_command_length"]}
{"id": "C08", "title": "Decode failures are reported and final", "statement": "A packet that cannot be decoded makes the feed call fail with an error, and after a failure no further message is ever reported from that connection's decoder.", "quantifier": "every bad packet and every continuation of the stream", "why_tests_cant": "Needs all continuations after all failures.", "anchors": ["milter/core/milter-decoder.c:milter_decoder_decode", "milter/core/milter-agent.c:cb_reader_flow"]}
{"id": "C09", "title": "A truncated stream is noticed at its end", "statement": "When a stream ends, the decoder reports an error if and only if a packet was left incomplete.", "quantifier": "every byte stream and chunking", "why_tests_cant": "All truncation points of all streams.", "anchors": ["milter/core/milter-decoder.c:milter_decoder_end_decode"]}
{"id": "C10", "title": "Macro tables survive the wire up to the brace convention", "statement": "Macros sent with define-macro are received with the same values; a multi-character macro name means the same with or without surrounding braces; each name is reported once.", "quantifier": "every macro table", "why_tests_cant": "Tables of arbitrary size and names; sorting and brace normalisation interact.", "anchors": ["milter/core/milter-command-encoder.c:encode_macros", "milter/core/milter-command-decoder.c:decode_define_macro"]}
{"id": "C11", "title": "SMTP reply codes set by a milter are validated", "statement": "set-reply succeeds exactly for a 4xx or 5xx code with either no extended code or an RFC 3463 extended code class.subject.detail of the same class with 1-3 digit subject and detail; on failure the previously stored reply is unchanged.", "quantifier": "every code, every extended-code string and every message, and every sequence of calls", "why_tests_cant": "Acceptance over all strings.", "anchors": ["milter/client/milter-client-context.c:milter_client_context_set_reply", "milter/client/milter-client-context.c:extended_code_parse"]}
{"id": "C12", "title": "A custom SMTP reply reaches the MTA side unchanged", "statement": "The code, extended code and one-line message accepted by set-reply and sent as a reply-code packet are decoded by the peer into the same code, extended code and message.", "quantifier": "every accepted code, extended code and message", "why_tests_cant": "Composition of formatter, encoder, decoder over all strings.", "anchors": ["milter/core/milter-utils.c:milter_utils_format_reply_code", "milter/core/milter-reply-encoder.c:milter_reply_encoder_encode_reply_code", "milter/core/milter-reply-decoder.c:decode_reply_reply_code"]}
{"id": "C13", "title": "Combining verdicts is a fixed priority, independent of arrival order", "statement": "The verdict combined from several filters' answers is the highest in the order discard > reject > temporary-failure > continue > skip > accept, and does not depend on the order in which the answers arrive.", "quantifier": "every finite collection of verdicts and every permutation of it", "why_tests_cant": "Permutations of unbounded collections.", "anchors": ["milter/core/milter-protocol.c:milter_status_compare", "milter/manager/milter-manager-children.c:compile_reply_status"]}
{"id": "C14", "title": "Option combination never grants what either side did not offer", "statement": "Combining two negotiated options gives the older version's value and exactly the actions and steps both have, and fails, leaving the option unchanged, when the other side is newer.", "quantifier": "every pair of options (all 32-bit flag words)", "why_tests_cant": "2^64 flag pairs and versions.", "anchors": ["milter/core/milter-option.c:milter_option_combine"]}
{"id": "C15", "title": "Merging filters' options asks for everything any filter needs", "statement": "Merging options of several filters requests an action if any filter requested it, suppresses an event or reply only if all filters suppress it, enables a positive step if any filter enables it, and does not depend on the order of merging.", "quantifier": "every finite list of options and every permutation", "why_tests_cant": "Unbounded lists of 32-bit flag words.", "anchors": ["milter/core/milter-option.c:milter_option_merge", "milter/core/milter-option.c:milter_step_flags_merge"]}
{"id": "C16", "title": "Header list edits do what the milter protocol says", "statement": "Adding, appending, inserting at a position, changing the n-th header of a name, deleting the n-th header of a name and removing a header change exactly the addressed header and leave all others in place and in order.", "quantifier": "every header list, name, value, index and every sequence of edits", "why_tests_cant": "List edits over all lists and indexes.", "anchors": ["milter/core/milter-headers.c"]}
{"id": "C17", "title": "Header changes reported to the MTA rebuild the filters' final headers", "statement": "The add/insert/change/delete-header requests the manager sends at end of message, applied in order to the message's original headers by the MTA, give exactly the header list the filters left.", "quantifier": "every original header list and every final header list the filters can produce", "why_tests_cant": "Two unbounded lists; index bookkeeping under duplicates.", "anchors": ["milter/manager/milter-manager-children.c:emit_header_signals", "milter/core/milter-headers.c"]}
{"id": "C18", "title": "A macro lookup sees the newest value set up to the current stage", "statement": "A filter that asks for a macro at some protocol stage sees the value most recently defined for the latest stage not after the current one, a name works with or without braces, and message-level macros are forgotten when the message ends while connection-level ones are kept.", "quantifier": "every history of define-macro, stage changes and resets", "why_tests_cant": "History dependence with a cache.", "anchors": ["milter/core/milter-protocol-agent.c"]}
{"id": "C19", "title": "Macro requests of several filters are merged without loss or duplication", "statement": "After merging, the symbols requested for each stage are exactly those requested by any of the filters, each once, and merging is idempotent.", "quantifier": "every pair of macro request tables and merge order", "why_tests_cant": "Tables of unbounded size.", "anchors": ["milter/core/milter-macros-requests.c"]}
{"id": "C20", "title": "A filter receives only the macros it asked for", "statement": "If a filter requested macro symbols during negotiation, a command sent to it is preceded by a define-macro containing exactly the requested symbols that have a value, and nothing when none was requested for that command; otherwise all macros of the stage are sent. Macro definition and command travel in one write.", "quantifier": "every macro table, request table and command", "why_tests_cant": "All tables.", "anchors": ["milter/server/milter-server-context.c:filter_macros", "milter/server/milter-server-context.c:prepend_macro"]}
{"id": "C21", "title": "A filter can modify the message only at end of message and only with the negotiated permission", "statement": "A modification call on the filter side has an effect if and only if the filter is handling end-of-message, the action was negotiated and the arguments are valid; otherwise it fails and nothing is sent.", "quantifier": "every context state, negotiated option, argument and history of calls", "why_tests_cant": "All histories of calls interleaved with protocol events.", "anchors": ["milter/client/milter-client-context.c:validate_state", "milter/client/milter-client-context.c:validate_action", "milter/client/milter-client-context.c:milter_client_context_add_header"]}
{"id": "C22", "title": "Modification requests reach the MTA completely, in order, before the verdict", "statement": "All modification packets a filter issues while handling end-of-message are written once each, in issue order, before the final verdict packet (with a quarantine request directly before the verdict), whatever the packet buffer size.", "quantifier": "every sequence of modification calls, every packet sizes and every buffer size", "why_tests_cant": "Unbounded call sequences interacting with an auto-flush threshold.", "anchors": ["milter/client/milter-client-context.c:write_packet_on_end_of_message", "milter/client/milter-client-context.c:reply_on_end_of_message", "milter/client/milter-client-context.c:flush"]}
{"id": "C23", "title": "A replaced or forwarded body arrives byte for byte", "statement": "A body of any size passed to replace-body (or forwarded to a filter) is sent as packets of at most 65535 body bytes whose concatenation is the body.", "quantifier": "every body", "why_tests_cant": "Bodies of unbounded size; chunk boundary conditions.", "anchors": ["milter/client/milter-client-context.c:milter_client_context_replace_body", "milter/core/milter-reply-encoder.c:milter_reply_encoder_encode_replace_body", "milter/core/milter-command-encoder.c:milter_command_encoder_encode_body", "milter/server/milter-server-context.c:flush_body"]}
{"id": "C24", "title": "At most one command is outstanding towards a filter", "statement": "The manager never sends a second command (other than abort or quit) to a filter while the answer to the previous one is outstanding; such a call is refused and sends nothing.", "quantifier": "every interleaving of API calls, flushes, replies and timeouts", "why_tests_cant": "All schedules.", "anchors": ["milter/server/milter-server-context.c:write_packet", "milter/server/milter-server-context.c:milter_server_context_is_processing"]}
{"id": "C25", "title": "Filters' modification requests are honoured only at end of message", "statement": "A modification reply (header, sender, recipient, body, quarantine, progress) from a filter is passed on exactly when the manager is waiting for that filter's end-of-message answer and has not quit; otherwise it is reported as an error and not passed on.", "quantifier": "every state reachable by any interleaving of calls and replies", "why_tests_cant": "All reachable states and hostile filters.", "anchors": ["milter/server/milter-server-context.c:cb_decoder_add_header", "milter/server/milter-server-context.c:invalid_state"]}
{"id": "C26", "title": "Nothing a filter sends after quit has an effect", "statement": "After the manager has quit a filter's session no reply of the filter is passed on.", "quantifier": "every history after quit", "why_tests_cant": "All continuations.", "anchors": ["milter/server/milter-server-context.c:check_reply_after_quit", "milter/server/milter-server-context.c:milter_server_context_quit"]}
{"id": "C27", "title": "A message is reported processed at most once", "statement": "For every message a filter session handles, the message-processed notification fires at most once, with the state and status that ended it.", "quantifier": "every history of commands, replies, aborts and stops", "why_tests_cant": "All histories.", "anchors": ["milter/server/milter-server-context.c:emit_message_processed_signal"]}
{"id": "C28", "title": "Queued output is transmitted completely and in order under any partial-write schedule", "statement": "The bytes given to the writer are put on the channel in order, without loss or duplication, however the channel splits, delays or refuses writes; a flush completion is reported only when everything queued before it has been written.", "quantifier": "every sequence of write/flush calls and every schedule of channel results", "why_tests_cant": "Non-deterministic channel schedules.", "anchors": ["milter/core/milter-writer.c"]}
{"id": "C29", "title": "The manager answers each MTA command exactly once with the combined verdict", "statement": "For connect, HELO, envelope-from, envelope-recipient, data and unknown commands, the manager emits exactly one answer, after every filter it forwarded the command to has answered, timed out or failed, in whatever order, and the answer is the combined verdict.", "quantifier": "every set of filters, every verdict assignment and every order of answers, timeouts and errors", "why_tests_cant": "Schedules over unbounded sets of filters.", "anchors": ["milter/manager/milter-manager-children.c:remove_child_from_queue", "milter/manager/milter-manager-children.c:compile_reply_status", "milter/manager/milter-manager-leader.c:reply"]}
{"id": "C30", "title": "A failing filter counts as its configured fallback", "statement": "When a filter times out or fails during a command its configured fallback verdict is used as its answer, it is removed from further processing, and the other filters' answers still count.", "quantifier": "every point of failure, every number of filters", "why_tests_cant": "Crash points.", "anchors": ["milter/manager/milter-manager-children.c:cb_error", "milter/manager/milter-manager-children.c:expire_child", "milter/manager/milter-manager-child.c"]}
{"id": "C31", "title": "An evaluation-mode filter never affects the mail", "statement": "A filter in evaluation mode contributes neither a negative verdict nor any modification: replacing its answers by accept leaves what the MTA sees unchanged.", "quantifier": "every behaviour of the evaluated filter", "why_tests_cant": "All behaviours of the filter (non-interference).", "anchors": ["milter/manager/milter-manager-children.c:is_evaluation_mode"]}
{"id": "C32", "title": "Verdicts of one message do not leak into the next", "statement": "In a session with several messages, the verdict answered for a message depends only on that message's answers.", "quantifier": "every history of earlier messages in the session", "why_tests_cant": "History independence.", "anchors": ["milter/manager/milter-manager-children.c:init_reply_queue", "milter/manager/milter-manager-children.c:dispose_message_related_data"]}
{"id": "C33", "title": "Filters see the message as rewritten by the filters before them", "statement": "Header and body filters run in sequence: each later filter receives the header list and body as changed by the earlier ones.", "quantifier": "every sequence of filters and modifications", "why_tests_cant": "Unbounded compositions.", "anchors": ["milter/manager/milter-manager-children.c:send_first_command_to_next_child", "milter/manager/milter-manager-children.c:send_next_header_to_child", "milter/manager/milter-manager-children.c:send_body_to_child"]}
{"id": "C34", "title": "ESMTP MAIL/RCPT arguments are parsed by the grammar", "statement": "Parsing a MAIL FROM or RCPT TO argument accepts only a bracketed path with optional parameters, returns the path (with its brackets; none for the null path) and for each keyword its last value, and reports an error otherwise, never reading past the end of the argument.", "quantifier": "every argument string", "why_tests_cant": "All strings, including unterminated quotes and brackets.", "anchors": ["milter/core/milter-esmtp.c"]}
{"id": "C35", "title": "Connection specs mean one address", "statement": "A spec accepted by the connection-spec parser yields the address it names, printing that address as a spec and parsing it again yields the same address, and a rejected spec yields an error and no address.", "quantifier": "every spec string and every address", "why_tests_cant": "All strings; ports over 16 bits; paths of any length.", "anchors": ["milter/core/milter-connection.c"]}
{"id": "C36", "title": "Socket modes are parsed exactly", "statement": "A file mode string is accepted exactly when it is empty (no permission), one to three octal digits, or a list of classes (a, u, g, o), an equals sign and a list of permissions (r, w, x); an octal string means its value and a symbolic one grants a permission to a class exactly if both are listed; anything else is an error.", "quantifier": "every mode string", "why_tests_cant": "All strings.", "anchors": ["milter/core/milter-utils.c:milter_utils_parse_file_mode"]}
{"id": "C37", "title": "Control protocol messages survive the wire", "statement": "Every command and reply of the control and launch protocols decodes to itself after encoding.", "quantifier": "every configuration text, status text, message, command line and user name", "why_tests_cant": "Arbitrary text payloads.", "anchors": ["milter/manager/milter-manager-control-command-encoder.c", "milter/manager/milter-manager-control-command-decoder.c", "milter/manager/milter-manager-control-reply-encoder.c", "milter/manager/milter-manager-control-reply-decoder.c", "milter/manager/milter-manager-launch-command-encoder.c", "milter/manager/milter-manager-launch-command-decoder.c", "milter/manager/milter-manager-reply-encoder.c", "milter/manager/milter-manager-reply-decoder.c"]}
{"id": "C38", "title": "Every control request gets exactly one truthful answer", "statement": "For every decoded control request the controller sends exactly one reply, which is success only if the requested operation succeeded.", "quantifier": "every request sequence and every outcome of the underlying operations", "why_tests_cant": "All outcomes of file and configuration operations.", "anchors": ["milter/manager/milter-manager-controller-context.c"]}
{"id": "C39", "title": "The launcher never runs the same command line twice at once", "statement": "At any time the running processes started by the launcher have distinct command lines; a launch request is answered by exactly one reply; a process is forgotten exactly when it exits.", "quantifier": "every history of launch requests and child exits", "why_tests_cant": "Histories.", "anchors": ["milter/manager/milter-manager-process-launcher.c"]}
{"id": "C40", "title": "Merging egg definitions keeps every setting the later definition makes", "statement": "When two definitions of the same filter are merged every setting present in the later one takes effect and settings it does not mention are kept.", "quantifier": "every pair of definitions", "why_tests_cant": "All combinations of settings.", "anchors": ["milter/manager/milter-manager-egg.c:milter_manager_egg_merge", "milter/manager/milter-manager-applicable-condition.c:milter_manager_applicable_condition_merge"]}
{"id": "C41", "title": "Recipients of a message are accounted for", "statement": "Within a message every recipient is in exactly one of the accepted, temporarily failed or rejected lists according to the last answer for it, and a filter without an accepted recipient is given no further message data.", "quantifier": "every sequence of recipients (with repetitions) and answers", "why_tests_cant": "Histories with duplicates.", "anchors": ["milter/core/milter-message-result.c", "milter/server/milter-server-context.c:milter_server_context_has_accepted_recipient"]}
{"id": "C42", "title": "Macro stages and commands correspond one to one", "statement": "Translating a macro stage to its command and back yields the same stage, and every command without a stage is reported as having none.", "quantifier": "every stage and command byte", "why_tests_cant": "Totality over all byte values.", "anchors": ["milter/core/milter-utils.c:milter_utils_command_to_macro_stage", "milter/core/milter-utils.c:milter_utils_macro_stage_to_command"]}
{"id": "C43", "title": "The answer to a negotiation stays within what was offered", "statement": "The option block the manager sends back to the MTA requests only actions and protocol steps the MTA offered, at a version not above the offered one.", "quantifier": "every offer, every set of filters and every combination of their answers", "why_tests_cant": "All combinations of bit masks over any number of filters.", "anchors": ["milter/manager/milter-manager-children.c:cb_negotiate_reply", "milter/core/milter-option.c:milter_option_merge", "milter/client/milter-client-context.c:negotiate_response"]}
{"id": "C44", "title": "Every filter is offered what the MTA offered", "statement": "The option block sent to each filter in a negotiation is the one the MTA offered, whatever the order and timing in which the filters connect and answer.", "quantifier": "every set of filters and every interleaving of connections and answers", "why_tests_cant": "Depends on the interleaving of connection and reply events.", "anchors": ["milter/manager/milter-manager-children.c:cb_ready", "milter/manager/milter-manager-children.c:milter_manager_children_negotiate"]}
{"id": "C45", "title": "A filter learns exactly once per message how it was answered", "statement": "The filter-side message-processed notification fires only when end-of-message is answered, at most once per message, with the answered status, and never for an aborted message.", "quantifier": "every history of commands, calls and late answers", "why_tests_cant": "Histories of any length, with late and repeated answers.", "anchors": ["milter/client/milter-client-context.c:end_of_message_response"]}
{"id": "C46", "title": "The first decisive handler decides", "statement": "When several handlers are connected to a command, the first one that returns a decisive status ends the emission with that status; if none is decisive the last status other than not-changed counts and all handlers run.", "quantifier": "every number of handlers and every combination of their return values", "why_tests_cant": "Unbounded number of handlers.", "anchors": ["milter/client/milter-client-context.c:status_accumulator"]}
{"id": "C47", "title": "A filter gets the commands it did not decline, and no others", "statement": "A command that the option agreed with the filter declines (or that its protocol version does not have) is not sent to it, a command is left out only for that reason, and every command sent is the encoding of the call that was made.", "quantifier": "every history of calls, replies and options", "why_tests_cant": "All combinations of options and interleavings.", "anchors": ["milter/server/milter-server-context.c:milter_server_context_is_enable_step", "milter/server/milter-server-context.c:milter_server_context_helo", "milter/server/milter-server-context.c:milter_server_context_data"]}
{"id": "C48", "title": "Answers that do not fit the stage are not passed on", "statement": "A negotiation answer is passed on only while the negotiation is pending, a skip only during the body, a continue or custom reply only at a stage that has an answer; otherwise the answer is reported as an error and has no effect.", "quantifier": "every history of calls and replies of a hostile filter", "why_tests_cant": "All reachable states and all replies.", "anchors": ["milter/server/milter-server-context.c:cb_decoder_negotiate_reply", "milter/server/milter-server-context.c:cb_decoder_continue", "milter/server/milter-server-context.c:cb_decoder_skip"]}
{"id": "C49", "title": "A flag list means what its last mention of each flag says", "statement": "Every string is a flag list: names separated by bars, each perhaps with a sign, the whole perhaps with a leading sign. A flag is on or off as the last term that mentions it says; a flag no term mentions is as in the base flags if the list starts with a sign and off otherwise; the error names exactly the unknown names. An enum string is the first value with that name, or an error.", "quantifier": "every flag class, string, base and default flags", "why_tests_cant": "All strings and classes.", "anchors": ["milter/core/milter-utils.c:milter_utils_flags_from_string", "milter/core/milter-utils.c:milter_utils_enum_from_string"]}
{"id": "C50", "title": "Input is handed over in order, once, and not after the end", "statement": "The pieces a reader hands to its owner are together a beginning of what the peer sent, each of 1 to 4096 bytes; a running reader hands over everything the channel gives. It is started, hands over pieces, reports at most one error, and ends once; after the end, and after the owner stopped it, nothing is handed over. Bytes sent before the peer closed the connection are handed over.", "quantifier": "every schedule of channel results, conditions and calls, stop calls from handlers included", "why_tests_cant": "Non-deterministic channel schedules and reentrant calls.", "anchors": ["milter/core/milter-reader.c:read_from_channel", "milter/core/milter-reader.c:read_watch_func", "milter/core/milter-reader.c:error_watch_func"]}
{"id": "C51", "title": "What one agent hears is what the other said", "statement": "If one agent writes the packets of a list of commands (or replies) and the other decodes the pieces it reads, then at every time it has heard a beginning of that list, each command once, in order and with the same contents, without any error; when all bytes have arrived it has heard all of it.", "quantifier": "every list of commands or replies, every schedule of partial writes and reads on both sides", "why_tests_cant": "Composition of codec, writer and reader over all splits.", "anchors": ["milter/core/milter-agent.c:milter_agent_write_packet", "milter/core/milter-agent.c:cb_reader_flow", "milter/core/milter-writer.c", "milter/core/milter-reader.c"]}
{"id": "C52", "title": "Data reach the handlers unchanged", "statement": "A handler of a signal that carries data and their size (body, end of message, replace-body, set-configuration, configuration, and the reader's flow) sees exactly the bytes that were sent.", "quantifier": "every byte string", "why_tests_cant": "Arbitrary binary data.", "anchors": ["milter/core/milter-command-decoder.c", "milter/core/milter-reply-signals.c", "milter/client/milter-client-context.c", "milter/server/milter-server-context.c", "milter/manager/milter-manager-control-command-decoder.c", "milter/manager/milter-manager-control-reply-decoder.c"]}
{"id": "C53", "title": "A reload yields what the files say, and a failed one changes nothing", "statement": "The settings after a successful reload depend on the configuration files only, not on the settings before. A reload that fails leaves the running configuration as it was.", "quantifier": "every configuration, every file content and every outcome of the evaluation", "why_tests_cant": "All previous settings and all evaluation outcomes.", "anchors": ["milter/manager/milter-manager-configuration.c:milter_manager_configuration_reload", "milter/manager/milter-manager-configuration.c:milter_manager_configuration_clear"]}
{"id": "C54", "title": "What was saved is what is loaded", "statement": "After a set-configuration request answered by success the next reload evaluates the text that was sent.", "quantifier": "every text, every list of load paths, every state of the files", "why_tests_cant": "All file states.", "anchors": ["milter/manager/milter-manager-configuration.c:milter_manager_configuration_save_custom", "milter/manager/milter-manager-configuration.c:milter_manager_configuration_load_custom_if_exist"]}
{"id": "C55", "title": "A session runs exactly the filters that are switched on", "statement": "The filters of a session are those of the definitions that are enabled and have a connection spec, in the order of the definitions, each with the definition's name, spec, timeouts, user, command, fallback status, evaluation mode and conditions.", "quantifier": "every list of definitions", "why_tests_cant": "All lists and settings.", "anchors": ["milter/manager/milter-manager-configuration.c:milter_manager_configuration_setup_children", "milter/manager/milter-manager-egg.c:milter_manager_egg_hatch"]}
{"id": "C56", "title": "A filter is run as the user it is configured for, or not at all", "statement": "A process launched for a user runs with that user's id, group and supplementary groups; a launch without user runs with the launcher's. If the change is refused the process is not run and an error is replied.", "quantifier": "every request and every outcome of the system calls", "why_tests_cant": "Failing system calls.", "anchors": ["milter/manager/milter-manager-process-launcher.c:setup_child", "milter/manager/milter-manager-process-launcher.c:launch"]}
{"id": "C57", "title": "Removing a definition removes that definition", "statement": "Removing a filter definition from the configuration removes it and no other; looking up a definition's name gives that definition.", "quantifier": "every list of definitions", "why_tests_cant": "All lists, equal names included.", "anchors": ["milter/manager/milter-manager-configuration.c:milter_manager_configuration_remove_egg", "milter/manager/milter-manager-configuration.c:milter_manager_configuration_find_egg"]}
{"id": "C58", "title": "A libmilter filter's callbacks get what the MTA sent", "statement": "In a session of a filter written for libmilter exactly the callbacks it registered are called, in the order of the commands, with the commands' contents; together the body pieces, headers and recipients it is given are those that were sent. A callback that is NULL is ignored, the others are not affected.", "quantifier": "every set of registered callbacks, every session, whatever the callbacks do", "why_tests_cant": "All subsets of callbacks, command orders and ways of cutting the body.", "anchors": ["libmilter/libmilter-compatible.c:cb_end_of_message", "libmilter/libmilter-compatible.c:setup_client_context"]}
{"id": "C59", "title": "What a libmilter filter says is what the MTA gets", "statement": "The replies the MTA decodes are the changes the callbacks asked for with the smfi functions, in order, followed by the answer the return value stands for; other return values mean to continue. A change made by an smfi function succeeds exactly if it is made in xxfi_eom, was negotiated and has its arguments; a call that cannot be carried out fails and does nothing.", "quantifier": "every session, every sequence of calls in every callback and every return value", "why_tests_cant": "Unbounded sequences of calls and commands.", "anchors": ["libmilter/libmilter-compatible.c:smfi_addheader", "libmilter/libmilter-compatible.c:smfi_setreply", "libmilter/libmilter-compatible.c:libmilter_compatible_convert_status_to"]}
{"id": "C60", "title": "A libmilter filter negotiates what it asked for", "statement": "The options agreed are those xxfi_negotiate chose; a filter without it asks for the actions of its xxfi_flags and for the steps it has callbacks for. Macros asked for with smfi_setsymlist are requested from the MTA. xxfi_negotiate can use the smfi functions on its context.", "quantifier": "every offer, every filter description and every choice", "why_tests_cant": "All combinations of 32 bit flags and descriptions.", "anchors": ["libmilter/libmilter-compatible.c:cb_negotiate", "libmilter/libmilter-compatible.c:smfi_setsymlist"]}
{"id": "C61", "title": "Each libmilter session is closed once, each unfinished message aborted", "statement": "xxfi_close is called once, when the session ends, and nothing is called after it. xxfi_abort is called exactly once for a message that was begun and not finished, not outside of messages and not after the filter's verdict on the message.", "quantifier": "every session, every loss of the connection", "why_tests_cant": "All command orders and failures.", "anchors": ["libmilter/libmilter-compatible.c:cb_abort", "libmilter/libmilter-compatible.c:cb_finished"]}
{"id": "C62", "title": "A reply of several lines is an SMTP reply", "statement": "smfi_setmlreply accepts lines of at most 980 bytes without carriage returns and refuses others; the SMTP client gets the lines as an SMTP reply. A 4xx code is used when the filter says SMFIS_TEMPFAIL and a 5xx code when it says SMFIS_REJECT.", "quantifier": "every list of lines, every code", "why_tests_cant": "All lists of lines.", "anchors": ["libmilter/libmilter-compatible.c:smfi_setmlreply", "milter/core/milter-utils.c:milter_utils_format_reply_code"]}
{"id": "C63", "title": "Every connection gets one session and every ended session is reported once", "statement": "The daemon sets up one session per accepted connection, in the order of acceptance. Each session ends at most once, and the ended sessions are reported with sessions-finished: none twice, never more pending than max-pending-finished-sessions allows, none pending once the loop is idle. This holds in every mode of operation: single loop, worker processes, accepting thread, thread pool.", "quantifier": "every sequence of connections, failures, ends of sessions and idle times, every limit", "why_tests_cant": "Unbounded histories and all interleavings; races in the threaded modes are not reproducible.", "anchors": ["milter/client/milter-client.c:single_thread_cb_finished", "milter/client/milter-client.c:dispose_finished_data", "milter/client/milter-client.c:single_thread_client_channel_setup", "milter/client/milter-client.c:multi_thread_process_client_channel_thread"]}
{"id": "C64", "title": "max_connections limits the sessions and no more", "statement": "With a limit on connections there are never more sessions at a time than the limit. A connection that comes when the limit is reached is taken as soon as a session has ended; meanwhile the sessions in progress go on.", "quantifier": "every history and every limit", "why_tests_cant": "All orders of connections and ends.", "anchors": ["milter/client/milter-client.c:accept_connection_fd"]}
{"id": "C65", "title": "Maintenance runs exactly when it is due", "statement": "The maintain signal follows a report of finished sessions exactly if no session is left or the number of sessions finished so far has passed a multiple of the maintenance interval.", "quantifier": "every history, every interval and every batch size", "why_tests_cant": "Unbounded counts and all ways to batch ended sessions.", "anchors": ["milter/client/milter-client.c:milter_client_need_maintain", "milter/client/milter-client.c:dispose_finished_data"]}
{"id": "C66", "title": "Shutting down is graceful and complete", "statement": "After a shutdown no connection is taken, and the event loop ends exactly when the last session in progress has ended and been reported. Without a shutdown request or a broken listening socket it never ends. After a shutdown the listening socket is closed, so new connections are refused.", "quantifier": "every history before and after the request", "why_tests_cant": "All interleavings of shutdown with connections and ends of sessions.", "anchors": ["milter/client/milter-client.c:milter_client_shutdown", "milter/client/milter-client.c:finish_processing", "milter/client/milter-client.c:milter_client_listen"]}
{"id": "C67", "title": "A connection that cannot be accepted does no harm", "statement": "When accept fails the error is reported and everything goes on as if the connection had not come, in every mode.", "quantifier": "every history before and after the failure", "why_tests_cant": "All histories around the failure.", "anchors": ["milter/client/milter-client.c:accept_connection_fd", "milter/client/milter-client.c:worker_accept_watch_func"]}
{"id": "C68", "title": "The PID file and the socket are those of the running daemon", "statement": "Whenever a daemon is running, the socket and the PID file at its configured paths are its own, no other file is changed, and stopping it removes them (if configured). A daemon that fails to start changes nothing of a running one and leaves nothing behind.", "quantifier": "every history of starts, stops and crashes of any number of daemons", "why_tests_cant": "Unbounded histories and all failures of the system calls involved.", "anchors": ["milter/client/milter-client.c:milter_client_run", "milter/client/milter-client.c:milter_client_cleanup", "milter/core/milter-connection.c:milter_connection_listen"]}
{"id": "C69", "title": "A daemon can be started again after a crash", "statement": "With removal of old sockets configured, a daemon that is not running can be started whatever earlier runs left behind; without it a leftover socket makes the start fail.", "quantifier": "every history of starts, stops and crashes", "why_tests_cant": "All states a crash can leave.", "anchors": ["milter/core/milter-connection.c:milter_connection_listen", "milter/client/milter-client.c:milter_client_run"]}
{"id": "C70", "title": "Dropping privilege leaves nothing of root", "statement": "If dropping the privilege succeeds the process has the user, the group and the supplementary groups of the effective user, and a UNIX socket belongs to that user. A process not started by root is unchanged.", "quantifier": "every user and group database, every outcome of the system calls", "why_tests_cant": "Needs root and control over failures of the system calls.", "anchors": ["milter/client/milter-client.c:milter_client_drop_privilege", "milter/client/milter-client.c:switch_group", "milter/client/milter-client.c:switch_user"]}
{"id": "C71", "title": "milter-manager starts in a safe order and reports failure", "statement": "milter-manager serves, and opens its control socket, only after the listening socket is open and the privilege is dropped. It returns failure exactly if it does not get to serve. Nothing the effective user can write is evaluated with the rights of root.", "quantifier": "every configuration, every combination of failures", "why_tests_cant": "All failures at all points of the startup as root.", "anchors": ["milter/manager/milter-manager-main.c:milter_manager_main", "milter/manager/milter-manager-main.c:append_custom_configuration_directory"]}
{"id": "C72", "title": "The manager knows exactly its sessions in progress", "statement": "The list of sessions holds every session from its start to its end, once. Every session ends when its connection ends, and an ended session is given back exactly once.", "quantifier": "every history of connections, negotiations, ends and checks", "why_tests_cant": "Unbounded numbers of sessions and all orders of events.", "anchors": ["milter/manager/milter-manager.c:setup_context_signals", "milter/manager/milter-manager.c:cb_leader_finished", "milter/manager/milter-manager-leader.c:milter_manager_leader_quit"]}
{"id": "C73", "title": "Lost connections are noticed", "statement": "With the connection check configured, every session whose filters are being waited for is checked within a bounded number of ticks however many sessions come and go, a lost connection ends the session, and the timer runs exactly while there are sessions.", "quantifier": "every history, every number of sessions", "why_tests_cant": "Fairness of the round over a list that changes all the time.", "anchors": ["milter/manager/milter-manager.c:connection_check", "milter/manager/milter-manager.c:start_periodical_connection_checker", "milter/manager/milter-manager-leader.c:milter_manager_leader_check_connection"]}
{"id": "C74", "title": "Options on the command line win over the configuration", "statement": "What milter-manager was told on its command line stays in force: each setting is the one asked for last, however often the configuration is loaded again, whatever its files say and whether loading them works.", "quantifier": "every command line, every sequence of reloads with any files and scripts", "why_tests_cant": "All combinations of options, files and failing reloads.", "anchors": ["milter/manager/milter-manager.c:apply_custom_parameters", "milter/manager/milter-manager.c:milter_manager_reload", "milter/client/milter-client-main.c:milter_client_get_option_group"]}
{"id": "C75", "title": "A reload puts the configuration files in force", "statement": "After a reload every setting is as the command line says, else as the files read by this reload say, else as built in; nothing from earlier files remains. The system log follows the files likewise.", "quantifier": "every command line, every history of reloads, every file contents", "why_tests_cant": "What remains of earlier states depends on the whole history.", "anchors": ["milter/manager/milter-manager.c:milter_manager_reload", "milter/manager/milter-manager.c:apply_syslog_parameters", "milter/manager/milter-manager-configuration.c:milter_manager_configuration_reload"]}
{"id": "C76", "title": "Numbers on the command line mean what they say", "statement": "A decimal, octal or hexadecimal number within range is taken as that number, a user or group ID as that user or group; anything else is refused.", "quantifier": "every text", "why_tests_cant": "Infinitely many texts, boundaries of several integer types.", "anchors": ["milter/client/milter-client-main.c:parse_n_workers", "milter/client/milter-client-main.c:parse_packet_buffer_size", "milter/client/milter-client-main.c:parse_max_pending_finished_sessions", "milter/client/milter-client-main.c:parse_user_id"]}
{"id": "C77", "title": "A milter program starts exactly with valid options", "statement": "A milter program accepts its command line exactly if every value is acceptable; then for each kind of option the last one counts and the others have their defaults.", "quantifier": "every command line", "why_tests_cant": "All sequences of options.", "anchors": ["milter/client/milter-client-main.c:milter_client_get_option_group", "milter/client/milter-client-main.c:hook_post_parse", "milter/client/milter-client.c:milter_client_set_connection_spec"]}
{"id": "C78", "title": "Event sources live from their addition to one destruction", "statement": "A source added to the event loop gets an ID other than 0 and other than that of any source there is. It is called only between its addition and its destruction and its data is released exactly once: when it is removed, when its callback returns FALSE, when its child process has ended, or with the loop, and at no other time.", "quantifier": "every history of additions, removals and calls, from inside and outside of callbacks", "why_tests_cant": "All interleavings of callbacks that add and remove sources; IDs wrap after 2^32 additions.", "anchors": ["milter/core/milter-libev-event-loop.c:add_watcher", "milter/core/milter-libev-event-loop.c:remove_watcher", "milter/core/milter-libev-event-loop.c:io_func"]}
{"id": "C79", "title": "Readiness is reported as it is", "statement": "A watched channel is called exactly with the conditions it is ready for among those asked for, a source that is there is called whenever it is ready, and errors and hangups are reported to whoever asks for them.", "quantifier": "every history, every combination of conditions", "why_tests_cant": "All combinations of asked and reported conditions in all states.", "anchors": ["milter/core/milter-libev-event-loop.c:evcond_from_g_io_condition", "milter/core/milter-libev-event-loop.c:evcond_to_g_io_condition", "milter/core/milter-libev-event-loop.c:add_timeout_full"]}
{"id": "C80", "title": "Runs of the event loop end when told to", "statement": "A run ends exactly if it was told to quit; a quit is for the innermost run that was not told yet. An iteration says whether a callback was called in it.", "quantifier": "every history with runs and iterations nested to any depth", "why_tests_cant": "Unbounded nesting and all orders of quits.", "anchors": ["milter/core/milter-event-loop.c:milter_event_loop_run_without_custom", "milter/core/milter-event-loop.c:milter_event_loop_quit", "milter/core/milter-libev-event-loop.c:iterate"]}
{"id": "C81", "title": "A message takes the course its filters decide", "statement": "Each command of the message content is answered once. A filter that accepts the message early gets no more of it, and the next filter is given the message from its beginning as it is then; the first refusal by a filter is passed on to the MTA at once as the answer, and every filter still taking part is told to abort; if none refuses, the MTA gets the accumulated changes and then the verdict that the message passes.", "quantifier": "every number of filters, every message, every choice of go on, leave or refuse at every command, every list of modification requests", "why_tests_cant": "Each filter decides at each command; the combinations grow exponentially with filters and commands, and who has seen what so far differs in each.", "anchors": ["milter/manager/milter-manager-children.c:cb_accept", "milter/manager/milter-manager-children.c:cb_reject", "milter/manager/milter-manager-children.c:send_first_command_to_next_child", "milter/manager/milter-manager-children.c:emit_reply_status_of_state"]}
{"id": "C82", "title": "One answer per command, content in order, a no is final", "statement": "Whatever the filters decide, each command of the message content gets exactly one answer; all answers let the message pass if no filter says no, otherwise the no is the last answer; and each filter gets headers, end of headers, body and end of message in this order without gaps, and nothing after it was told to abort.", "quantifier": "every course of a message through any number of filters", "why_tests_cant": "Invariants over all courses; each test sees one.", "anchors": ["milter/manager/milter-manager-children.c:send_next_command", "milter/manager/milter-manager-children.c:emit_reply_for_message_oriented_command", "milter/manager/milter-manager-children.c:milter_manager_children_abort"]}
{"id": "C83", "title": "A filter that does not answer in time is given up, and no other", "statement": "While a filter owes an answer a timeout is running: the writing timeout until the command has been handed over, then the reading timeout, or the end-of-message timeout for the end of the message, which every progress report starts anew. When it runs out the timeout is announced and the connection to the filter is shut down. A filter that has answered everything is never timed out.", "quantifier": "every sequence of calls, flushes, replies and timeouts, every outcome of writes, all handlers that call back into the context", "why_tests_cant": "Each timer is started, replaced and stopped in a dozen places; a test would have to wait out every timeout in every state.", "anchors": ["milter/server/milter-server-context.c:disable_timeout", "milter/server/milter-server-context.c:write_packet", "milter/server/milter-server-context.c:flushed", "milter/server/milter-server-context.c:process_next_state_body", "milter/server/milter-server-context.c:reset_end_of_message_timeout"]}
{"id": "C84", "title": "The test server sends the mail of a file as it is", "statement": "A mail file given to milter-test-server, with either kind of line ends and with or without a mailbox mark, is sent with its header fields in order and their values as they are, its body in chunks whose concatenation is the body, and an envelope taken from its From and To fields; only missing fields are added, and no file brings the program down.", "quantifier": "every list of well formed header fields, folded or not, every body without NUL; for the last part every file", "why_tests_cant": "Files are unbounded; folding, line ends, marks and chunk boundaries combine freely.", "anchors": ["tool/milter-test-server.c:parse_mail_contents", "tool/milter-test-server.c:parse_header", "tool/milter-test-server.c:extract_path_from_mail_address", "tool/milter-test-server.c:append_header_value", "tool/milter-test-server.c:set_envelope_from"]}
{"id": "C85", "title": "The test server reports exactly what the filter made of the message", "statement": "In the report of milter-test-server, without the lines marked as new there is the message as sent, without the lines marked as gone there is the message the filter's requests lead to; nothing is marked as gone where headers were only added, nothing as new where they were only deleted, nothing at all where they were left alone; and the body shown is the one the requests lead to, converted from the character set it declares.", "quantifier": "every message, every sequence of modification requests, with and without colours", "why_tests_cant": "The comparison walks two lists with five kinds of steps; all pairs of lists have to come out right.", "anchors": ["tool/milter-test-server.c:print_headers", "tool/milter-test-server.c:print_header", "tool/milter-test-server.c:print_envelope_recipients", "tool/milter-test-server.c:print_body", "tool/milter-test-server.c:get_charset", "tool/milter-test-server.c:cb_delete_recipient"]}
{"id": "C86", "title": "The test server delivers its message as a mail server would and tells the filter's decision", "statement": "milter-test-server sends the filter the commands of its message in the order of SMTP, leaving out those the filter declined or its version does not know, each one only after the answer to the one before unless the filter answers none; an answer that decides ends the conversation with abort and quit, an accepted end of message with quit; a refused recipient is left out and the rest goes on as long as a recipient is left; the status told is the filter's decision and the mail shown is what the requests make of the message; a missing answer is told as a timeout.", "quantifier": "every message, every set of negotiated steps, every course of answers, requests and timeouts", "why_tests_cant": "Twenty handlers fall through one another depending on thirty option bits and on what is left to send; tests walk a few of the courses.", "anchors": ["tool/milter-test-server.c:cb_continue", "tool/milter-test-server.c:cb_state_transited", "tool/milter-test-server.c:cb_reject", "tool/milter-test-server.c:cb_skip", "tool/milter-test-server.c:set_macro", "tool/milter-test-server.c:print_status", "milter/server/milter-server-context.c:write_packet"]}
{"id": "C87", "title": "Of several options of the test server the last one counts", "statement": "The command line of milter-test-server gives the message, macros and timeouts it says: for each thing the option given last counts, or the default; recipients and body chunks given by options add up and replace those of an earlier mail file, and the other way round; headers of options and files are all sent; a macro has the value given last for its stage, an authentication option comes before it; a header or macro without a colon is refused; each timeout option sets its own timeout and --all-timeouts sets them all.", "quantifier": "every list of options with every argument and every mail file in it", "why_tests_cant": "Options interact through shared variables and through the parser's own arrays; the number of orders of thirty options cannot be enumerated.", "anchors": ["tool/milter-test-server.c:option_entries", "tool/milter-test-server.c:parse_header_arg", "tool/milter-test-server.c:parse_macro_arg", "tool/milter-test-server.c:parse_mail_file_arg", "tool/milter-test-server.c:post_option_parse", "tool/milter-test-server.c:setup_context"]}
{"id": "C88", "title": "The test server tells the filter the macros of its command line", "statement": "Before each command milter-test-server tells the filter the macros that its options (or the defaults) give for the stage of the command, limited to those the filter asked for in the negotiation; {rcpt_addr} is always the recipient named in that very command, whatever the options say; nothing is told before headers, the body and commands without macros, and macros of an earlier command never reappear.", "quantifier": "every command line, every answer of the filter including its macro requests, every order of events and every write outcome", "why_tests_cant": "The macros depend on the order of handler calls over the whole session and on three layers (options, macro store, requests); tests look at one stage with one table.", "anchors": ["tool/milter-test-server.c:set_macros_for_connect", "tool/milter-test-server.c:send_envelope_recipient", "tool/milter-test-server.c:cb_negotiate_reply", "tool/milter-test-server.c:set_macro", "milter/core/milter-protocol-agent.c:milter_protocol_agent_set_macros_hash_table", "milter/server/milter-server-context.c:prepend_macro"]}
{"id": "C89", "title": "A log message goes exactly to those who want its level", "statement": "After any calls that set levels, items and paths, connect the default output or make, change and dispose of a syslog logger, each message logged goes once to every connected sink whose level includes its own and to no other: to the output as one line with the items asked for, to syslog with the priority of its most severe level. Level and item strings mean what their last word about each flag says, and a string with an unknown name changes nothing. Lines go to the file that was at the path when it was opened, also after it is renamed; after reopening they go to the file now at the path, and none is lost in between. A message without a line break is one line.", "quantifier": "every history of calls, every message, every level and item set, every environment", "why_tests_cant": "Levels are cached in a second place that decides whether a message is formatted at all; whether the two agree after every history of changes, and whether rotation loses lines, are facts about all histories.", "anchors": ["milter/core/milter-logger.c:milter_logger_default_log_handler", "milter/core/milter-logger.c:milter_logger_set_interesting_level", "milter/core/milter-logger.c:milter_logger_reopen", "milter/core/milter-logger.c:milter_logger_set_path", "milter/core/milter-logger.c:milter_logger_internal_init", "milter/core/milter-logger.h:milter_log", "milter/core/milter-syslog-logger.c:cb_log", "milter/core/milter-syslog-logger.c:constructor"]}
{"id": "C90", "title": "The configuration written as XML says what it is and can be read back", "statement": "Whatever characters that XML can carry are in the names, descriptions, connection specs, commands and conditions, the XML text of a configuration is one well-formed document that names exactly these definitions with exactly these values, so two configurations that differ in them have different texts. Reading the definitions back as a custom configuration file, in however many pieces the parser hands out the text, replaces each definition of the same name, appends new ones in order, keeps what the file does not say, and leaves the manager's own definitions as they are.", "quantifier": "every set of definitions and conditions with any texts, every configuration the file is read into, every way the text is cut", "why_tests_cant": "Escaping, document structure and the reader's state stack have to fit for every text and every combination of optional parts; tests use a few harmless names.", "anchors": ["milter/core/milter-utils.c:milter_utils_xml_append_text_element", "milter/manager/milter-manager-egg.c:milter_manager_egg_to_xml_string", "milter/manager/milter-manager-configuration.c:milter_manager_configuration_to_xml_string", "binding/ruby/lib/milter/manager.rb:XMLConfigurationLoader", "binding/ruby/lib/milter/manager.rb:EggConfigurationLoader"]}
{"id": "C91", "title": "A table in Postfix's format answers a lookup as Postfix would", "statement": "Whatever the text of a regexp table is, lines are joined and comments left out as Postfix says, every rule and condition is taken with exactly the pattern, flags and action written, and looking up a text gives the action of the first rule that fires (a block counting only while its condition holds), with $1, ${1}, $(1) and $$ in it replaced. Several files make one table. A line that cannot be read is reported and the rules before it are in force. In a table of networks the first network that has the address decides.", "quantifier": "every file of any lines, patterns, flags and actions, every nesting of blocks, every text looked up, every regular expression engine", "why_tests_cant": "Joining, nesting and replacing have to agree with Postfix for every file; tests use short tables with one block at the end.", "anchors": ["binding/ruby/lib/milter/manager/postfix-regexp-table.rb", "binding/ruby/lib/milter/manager/postfix-cidr-table.rb", "binding/ruby/lib/milter/manager/postfix-condition-table-parser.rb"]}
{"id": "C92", "title": "The configuration shown is a configuration file that gives the same configuration", "statement": "The text printed by --show-config is a program of the configuration language: every value in it, whatever bytes it has, is one literal on one line that is read as that very value, so no value can turn into code. Reading it into a manager without definitions gives every setting shown, the conditions and the filters with all their settings in the same order. A file that cannot be read to its end changes nothing about syslog.", "quantifier": "every configuration: any texts, numbers, database values, locations, any number of conditions and filters; every manager reading it", "why_tests_cant": "Escaping, conversion and the setters have to fit each other for every value; tests compare the text for a handful of configurations and never read it back.", "anchors": ["binding/ruby/lib/milter/manager.rb", "binding/ruby/lib/milter/client/configuration.rb", "milter/manager/milter-manager-configuration.c"]}
{"id": "C93", "title": "A filter is spared exactly the commands its applicable conditions stop, and what follows from them", "statement": "A filter that takes part in the session is stopped at a command if and only if one of the stoppers its conditions have for that stage says yes; they are asked in the order of the conditions until one does, and one that raises an exception has not said yes. Otherwise it is told the command, with the macros as the stoppers have left them. A filter stopped at CONNECT or HELO is told nothing more in the session; one stopped in a message is told nothing more of that message and takes part in the next one.", "quantifier": "every list of conditions with any stoppers, every sequence of macros, commands and aborts, every command of it", "why_tests_cant": "Stoppers are arbitrary programs with access to the macros; sessions have any number of messages, aborts and stops in any order. Tests stop a filter once, in its first message.", "anchors": ["milter/server/milter-server-context.c", "milter/manager/milter-manager-applicable-condition.c", "binding/ruby/lib/milter/manager.rb", "binding/ruby/lib/milter/manager/child-context.rb"]}
{"id": "C94", "title": "A filter has the conditions the configuration gives it", "statement": "After loading a configuration a name stands for the condition that was defined last under it, and a filter has the conditions its blocks have set or added, in that order. The configuration is refused if and only if a filter names a condition that is not defined before. Definitions of a filter do not change the conditions or the order of others.", "quantifier": "every sequence of definitions of conditions and filters, redefinitions and removals included", "why_tests_cant": "Which object a name stands for depends on the whole order of definitions; tests define everything once.", "anchors": ["binding/ruby/lib/milter/manager.rb", "milter/manager/milter-manager-configuration.c", "milter/manager/milter-manager-egg.c"]}
{"id": "C95", "title": "The conditions that come with milter-manager do what they are called", "statement": "Remote Network lets a filter see exactly the connections from known addresses that are not local; S25R exactly the IPv4 clients whose names the rules suspect and no white list knows; DNSBL Listed exactly the IPv4 clients some service lists, whatever the order of the answers, Not DNSBL Listed the others; No Stress the connections below the threshold, and Stress Notify tells stress from the threshold on; Authenticated the messages for which the MTA has given authentication, Unauthenticated the others; Trust tells which senders' domains are trusted; Sendmail Compatible gives Postfix's filters the macros the MTA did not give and changes no other.", "quantifier": "every host name, address, sender, set of lists and services, macros at any stage, order of answers", "why_tests_cant": "The rules are patterns over all host names and networks over all addresses; tests try some of each, and none the order of the DNS answers.", "anchors": ["data/applicable-conditions/remote-network.conf", "data/applicable-conditions/s25r.conf", "data/applicable-conditions/dnsbl.conf", "data/applicable-conditions/stress.conf", "data/applicable-conditions/authentication.conf", "data/applicable-conditions/trust.conf", "data/applicable-conditions/sendmail-compatible.conf", "binding/ruby/lib/milter/manager/address-matcher.rb", "binding/ruby/lib/milter/manager/breaker.rb"]}
{"id": "C96", "title": "A filter restricted to accounts sees the messages for these accounts", "statement": "With restrict_accounts_by_list or restrict_accounts_generic a filter is told the recipients that are restricted accounts and no others, and the content of exactly the messages that have one of these accounts among their recipients.", "quantifier": "every list of accounts, every sequence of messages and recipients, with or without macros from the MTA", "why_tests_cant": "It depends on the order of the recipients, on which macros the MTA sends with them and on how the message before ended; there are no tests.", "anchors": ["data/applicable-conditions/restrict-accounts.conf", "milter/core/milter-protocol-agent.c"]}
{"id": "C97", "title": "A policy decides about its own filters by what it says", "statement": "A filter named by a policy is told a connection, sender or recipient if and only if the policy's pattern for it matches; what a policy has no pattern for does not matter to it, and policies for other filters do not either.", "quantifier": "every list of policies with any patterns, every filter, every command", "why_tests_cant": "Policies combine over all subsets of filters and patterns; there are no tests of policies.", "anchors": ["binding/ruby/lib/milter/manager/policy-manager.rb"]}
{"id": "C98", "title": "A filter written in Ruby answers each command with what its method said last", "statement": "Each command is answered with the last of accept, discard, continue, reject, temporary_failure, quarantine, delay_response, set_reply or status= the session's method for it used successfully, with the default if it said nothing, and with the fallback status if an exception left the method. Nothing said for an earlier command counts. The replies and modifications the MTA receives are exactly those asked for, in order; a refusal's code and text are those the session gave. The session's own data are reset after every action that ends a message, and after an abort.", "quantifier": "every session class, with any methods that depend on anything they can see and may rescue exceptions; every sequence of commands; every fallback status", "why_tests_cant": "A session is an arbitrary program; what counts depends on the order of what it does, on exceptions and on earlier commands. Tests run single sessions.", "anchors": ["binding/ruby/lib/milter/client.rb", "binding/ruby/lib/milter/client/session.rb", "binding/ruby/lib/milter/client/session-context.rb", "binding/ruby/lib/milter/client/fallback-session.rb", "binding/ruby/ext/client/rb-milter-client-context.c"]}
{"id": "C99", "title": "A filter written in Ruby is sent the commands it has methods for, and answers them all", "statement": "With the inherited negotiation the version and the actions stay as offered, and of the offered steps exactly those are given up that would keep back a command the session has a method for or leave a command without answer, and the spaces in front of header values unless the session needs them.", "quantifier": "every offer of the MTA, every set of methods", "why_tests_cant": "There are 2^9 sets of methods and 2^21 offers; tests have one session class.", "anchors": ["binding/ruby/lib/milter/client/session.rb", "milter/core/milter-option.c"]}
{"id": "C100", "title": "Several sessions in one filter: all are asked and the severest answer counts", "statement": "A filter made of several sessions runs all that respond to a command, in order, each with its own data, and answers with the severest of what they said (discard, reject, temporary failure, continue, skip, accept), independent of the order; the reply sent with a refusal is that of the session whose answer counts. An abort resets all of them.", "quantifier": "every list of sessions, every command, every combination of answers", "why_tests_cant": "The number of combinations of sessions, answers and exceptions is unbounded; there are tests for two sessions with fixed answers.", "anchors": ["binding/ruby/lib/milter/client/composite-session.rb", "binding/ruby/lib/milter/client.rb", "milter/core/milter-enum-utils.c"]}
{"id": "C101", "title": "The address of an envelope is found in its argument", "statement": "The address of an envelope argument is what stands in its first angle brackets, else its first word with an @ inside, else its first word, in lower case; capital letters in the argument make no difference; the domain is what stands behind the last @.", "quantifier": "every argument, of any bytes", "why_tests_cant": "The search is by regular expressions over all strings; tests try ten addresses.", "anchors": ["binding/ruby/lib/milter/client/envelope-address.rb"]}
{"id": "C102", "title": "The netstat checker gives up a session only if netstat shows its SMTP connection as half closed", "statement": "At every periodical check, a session of a local SMTP server is given up if and only if the output of netstat at that moment shows, last of the TCP connections with the client's address and port, one in state CLOSE_WAIT or without state. Nothing is given up when netstat is missing or fails, when the client's port is unknown or when the client does not use TCP.", "quantifier": "every output of netstat made of lines for connections and lines for other things, every earlier use of the checker, every client", "why_tests_cant": "The output is unbounded text whose columns are split at white space, colons and dots; earlier checks leave a database behind. There is no test with the output of netstat.", "anchors": ["binding/ruby/lib/milter/manager/netstat-connection-checker.rb", "binding/ruby/lib/milter/manager.rb"]}
{"id": "C103", "title": "The address the client connected to is found by netstat, and how often netstat is run", "statement": "The interface asked for is the local address and port of the last connection shown with the client, if it is established; if the client is not shown, netstat is asked once more. netstat is run once for each check that can find something.", "quantifier": "every sequence of checks and questions at any times, every output", "why_tests_cant": "How often the command is run depends on the whole history of checks and on the clock.", "anchors": ["binding/ruby/lib/milter/manager/netstat-connection-checker.rb"]}
{"id": "C104", "title": "The breaker reports stress from three quarters of the process limit of Postfix on", "statement": "If Postfix runs, the threshold is three quarters, rounded down, of the process limit of the service smtp in master.cf, or of default_process_limit if the service has none; it is found once and kept. The system is under stress if and only if the threshold is not zero and at least as many sessions are processed. A threshold set by the administrator counts instead; without Postfix there is none.", "quantifier": "every output of ps and postconf, every master.cf, every number of sessions", "why_tests_cant": "The inputs are texts of any form; tests use a few fixed files.", "anchors": ["binding/ruby/lib/milter/manager/breaker.rb"]}
{"id": "C105", "title": "The report of a processed message says what the message was and what the filter changed", "statement": "When the context of a filter reports a message as processed, the report names the sender last given, the headers handed over, the number of body bytes, the headers the filter added or gave a new value, those it removed and whether it asked for quarantine, all since the report before or since the data were dropped, and nothing of another message.", "quantifier": "every sequence of calls, flushes, replies and timeouts, every outcome of writes, every stop handler, handlers that call back into the context", "why_tests_cant": "Reports depend on everything since the report before, across aborts, stops, errors and calls made from within signals; tests look at single messages.", "anchors": ["milter/server/milter-server-context.c", "milter/core/milter-message-result.c", "milter/core/milter-headers.c"]}
{"id": "C106", "title": "The connection spec of a filter is the last one given in its configuration file", "statement": "For opendkim.conf, clamav-milter.conf and enma.conf the spec found is the value given last to Socket, MilterSocket and milter.socket, however lines are indented and whatever comments and other settings stand around; without one none is found; clamav-milter.conf counts as unfinished exactly if it has Example. A path becomes a UNIX socket and of several prefixes the last is kept.", "quantifier": "every file of comments, blank lines and settings; every spec", "why_tests_cant": "Files are texts of any length with any white space; tests have a few sample files.", "anchors": ["binding/ruby/lib/milter/manager/opendkim-config-parser.rb", "binding/ruby/lib/milter/manager/clamav-milter-config-parser.rb", "binding/ruby/lib/milter/manager/enma-socket-detector.rb", "binding/ruby/lib/milter/manager/detector.rb"]}
{"id": "C107", "title": "The socket and the delays of milter-greylist are found in greylist.conf", "statement": "The socket of milter-greylist is the last one given, quoted or not, with or without a mode; the longest tarpit of the access list, in seconds, is added to the time the filter is given to read and to write.", "quantifier": "every greylist.conf whose lines are not continued: sockets, access list entries, other settings, comments", "why_tests_cant": "The longest of any number of delays in any unit, on lines of any shape.", "anchors": ["binding/ruby/lib/milter/manager/milter-greylist-config-parser.rb"]}
{"id": "C108", "title": "Variables in files for the shell get the values the shell gives them", "statement": "After reading a file of assignments each variable has the value the shell would give it: the last assignment counts, quotes are taken off, references to variables are replaced by their values at that point, comments are left out.", "quantifier": "every file of assignments (plain, in double or single quotes, with references as $X or ${X} to variables that are set), every set of variables before", "why_tests_cant": "Values depend on all assignments before; tests have fixed sample files.", "anchors": ["binding/ruby/lib/milter/manager/detector.rb"]}
{"id": "C109", "title": "A filter run by systemd is defined with the socket its unit and its configuration name", "statement": "For a unit of a Debian system the filter is defined with the description of the unit; it listens where SOCKET of the environment files says, or, for OpenDKIM, ClamAV and milter-greylist, where the configuration file named on the command line or in OPTIONS says; it is enabled if the unit is linked and a spec was found, but not if clamav-milter.conf has to be edited first.", "quantifier": "every unit file, every set of environment files, every configuration file, every command line", "why_tests_cant": "Units, environment files, options and configuration files combine freely; tests have a few systems.", "anchors": ["binding/ruby/lib/milter/manager/systemd-detector.rb", "binding/ruby/lib/milter/manager/debian-systemd-detector.rb", "binding/ruby/lib/milter/manager/detector.rb"]}
{"id": "C110", "title": "A filter with a script of FreeBSD's rc is used exactly if rc.conf enables it", "statement": "A script in /usr/local/etc/rc.d that gives itself a name becomes a filter, started by that script; it is enabled exactly if the last value of <name>_enable over the defaults of the script, /etc/rc.conf, /etc/rc.conf.local and /etc/rc.conf.d/<name> is YES in any case. Without a script or a name no filter is defined.", "quantifier": "every script of name, defaults, arguments and other lines; every set of configuration files; every name", "why_tests_cant": "Which assignment is the last one depends on up to four files of any length, on prefixes shared between services and on the way values are quoted.", "anchors": ["binding/ruby/lib/milter/manager/rcng-detector.rb", "binding/ruby/lib/milter/manager/freebsd-rc-detector.rb"]}
{"id": "C111", "title": "A filter with a script of FreeBSD's rc is found where its variables say it listens", "statement": "A filter is connected to at the socket its own configuration file names (enma, ClamAV, OpenDKIM; rspamd is asked), otherwise at <name>_socket, <name>_sockfile, <name>_connection_spec, or what stands behind -p in <name>_flags or in the arguments of its command, the first of these that is given; the configuration file is the one named by <name>_cfgfile or an option, or the usual one; milter-greylist gets its longest delay as additional time.", "quantifier": "every script and every set of configuration files; every combination of variables that are set, blank or missing; every command line", "why_tests_cant": "The order in which the places are asked matters only for combinations no test has; options are separate, attached or missing.", "anchors": ["binding/ruby/lib/milter/manager/rcng-detector.rb", "binding/ruby/lib/milter/manager/freebsd-rc-detector.rb", "binding/ruby/lib/milter/manager/detector.rb"]}
{"id": "C112", "title": "A filter from NetBSD's packages is used and found as its rc script and rc.conf say", "statement": "A filter is enabled exactly if the last value of the variable with the name of the service is YES in any case; enma listens where its file says, any other filter where its variables or the options of its command say; milter-greylist gets its longest delay as additional time.", "quantifier": "every script, every set of configuration files, every directory of packages", "why_tests_cant": "The same variables are read under another convention; tests have one or two scripts.", "anchors": ["binding/ruby/lib/milter/manager/rcng-detector.rb", "binding/ruby/lib/milter/manager/pkgsrc-rc-detector.rb"]}
{"id": "C113", "title": "A filter with an init script of Debian is used and found as the script and its settings say", "statement": "A script in /etc/init.d becomes a filter, started by that script; it is enabled exactly if ENABLED, as left by the script and then by its file in /etc/default, is not 0 and, for clamav-milter, the configuration is not the unchanged example. It is connected to where its own configuration file says (ClamAV, OpenDKIM), otherwise at SOCKET, SOCKFILE, CONNECTION_SPEC, or what stands behind -p in OPTARGS, DAEMON_ARGS or PARAMS, the first of these that is given; milter-greylist gets its longest delay as additional time. Without a script no filter is defined.", "quantifier": "every script of assignments and other lines, every file of settings, every combination of variables set, blank or missing, every command line", "why_tests_cant": "The place that counts depends on which of nine sources are present and on the last assignment in two files of any length.", "anchors": ["binding/ruby/lib/milter/manager/init-detector.rb", "binding/ruby/lib/milter/manager/debian-init-detector.rb", "binding/ruby/lib/milter/manager/detector.rb"]}
{"id": "C114", "title": "A filter with an init script of Red Hat is used and found as the script and its settings say", "statement": "A script in /etc/init.d becomes a filter; it is enabled exactly if a place to connect to is known, a link for it stands in some runlevel and, for clamav-milter, the configuration is not the unchanged example. It is connected to where its own configuration file says (enma, ClamAV, OpenDKIM; rspamd is asked), otherwise at SOCKET, SOCKET_ADDRESS, MILTER_SOCKET, CONNECTION_SPEC, or what stands behind -p in OPTIONS, the first of these that is given; milter-greylist's file is the one behind -f, the one a comment of the script names, or the usual one, and its longest delay becomes additional time.", "quantifier": "every script of assignments and other lines, every file of settings, every combination of variables, every set of links in the runlevels", "why_tests_cant": "There are 2800 possible links a service may have, and the sources that name a place combine freely; tests have one link and one source.", "anchors": ["binding/ruby/lib/milter/manager/init-detector.rb", "binding/ruby/lib/milter/manager/redhat-init-detector.rb", "binding/ruby/lib/milter/manager/detector.rb"]}
{"id": "C115", "title": "A filter with an init script is described as its script describes it", "statement": "The description of a filter started by an init script of Debian is the text of Description in the header of the script, on its line and on the lines that continue it, with one blank between them; the one given last counts, and DESC as left by the script and its settings if there is none. On Red Hat it is the text of the last description comment before or behind the header, with the lines it is continued on by backslashes put together.", "quantifier": "every header with any number of entries of any number of lines, every comment before and behind it, every number of continued lines", "why_tests_cant": "The text is found by splitting the header at everything that looks like a keyword; tests have a header or two of three lines.", "anchors": ["binding/ruby/lib/milter/manager/init-detector.rb", "binding/ruby/lib/milter/manager/debian-init-detector.rb", "binding/ruby/lib/milter/manager/redhat-init-detector.rb"]}
{"id": "C116", "title": "A filter with a job of Upstart is used if the job starts by itself", "statement": "clamav-milter and milter-greylist are taken from a job of Upstart on Red Hat: where they listen and how long they delay is what the configuration file says that the command of the job names, or the usual one. The filter is used exactly if that is known, the job says when it starts, and the file is not the example. The description is the comments at the beginning of the job, with blanks between them. Without a job there is no filter.", "quantifier": "every job of any number of lines, every command line, every content of the configuration files", "why_tests_cant": "The first block of comments is found by state that is kept over all lines; tests have a job or two.", "anchors": ["binding/ruby/lib/milter/manager/redhat-upstart-detector.rb", "binding/ruby/lib/milter/manager/detector.rb"]}
{"id": "C117", "title": "A filter is taken from systemd before Upstart before its init script", "statement": "On Debian and Red Hat a filter is taken from its unit if the unit is linked, it is known where the filter listens, and its file is not the example; it is then started by systemctl, or by service where there is no systemctl. Else on Red Hat it is taken from a job that is used, started by /sbin/start. Else it is what the init script says, and no filter if there is none.", "quantifier": "every combination of units, links, jobs, init scripts, configuration files and commands that can be executed", "why_tests_cant": "There are three sources with their own conditions and any of them can be missing or be switched off; tests set up one source at a time.", "anchors": ["binding/ruby/lib/milter/manager/debian-detector.rb", "binding/ruby/lib/milter/manager/redhat-detector.rb", "binding/ruby/lib/milter/manager/redhat-systemd-detector.rb", "binding/ruby/lib/milter/manager/redhat-upstart-detector.rb", "binding/ruby/lib/milter/manager/systemd-detector.rb", "binding/ruby/lib/milter/manager/detector.rb"]}
{"id": "C118", "title": "rspamd is connected to where its first worker that is a filter listens", "statement": "When rspamd is asked for its configuration, the filter is at the address of the first worker that is a proxy with milter switched on: a path without the options behind it, the port at localhost if it is bound to every address, or the port at the host. The spec names exactly that address when the connection is made. Nothing is known if rspamadm is missing, fails, or prints no workers.", "quantifier": "every list of workers, every object of settings, every path, host and port", "why_tests_cant": "The answer depends on the order and kind of all workers and on the form of the address; the test has one worker at one path.", "anchors": ["binding/ruby/lib/milter/manager/rspamd-proxy-detector.rb", "milter/core/milter-connection.c"]}
{"id": "C119", "title": "A filter written in Ruby runs with the last word about each setting", "statement": "A filter started from its command line runs with the value given last for each setting, where the settings of a configuration file count at the place the file is named, and with the default for a setting nobody mentions. A status may be spelled with capitals and underscores. A wrong option, a file that cannot be read or a wrong spec in a file keeps the filter from running.", "quantifier": "every command line, every list of files and settings in them, every client", "why_tests_cant": "Which value wins depends on the order of all options and of all assignments in all files; the tests assign a few settings one at a time and pass no option at all.", "anchors": ["binding/ruby/lib/milter/client/command-line.rb", "binding/ruby/lib/milter/client/configuration.rb", "binding/ruby/lib/milter/core/path.rb"]}
{"id": "C120", "title": "What is put on the shelf of a mail is read by all conditions of its session only", "statement": "A value that a condition puts on the shelf for a key is read for every child milter of the same session, until something else is put for the key or the mail is aborted; nothing is read for a key nobody put since the start of the session or since the last abort, and no other session reads it. Going through the shelf gives every key exactly once with the value put last.", "quantifier": "every number of sessions, every interleaving of their commands, every sequence of reads and writes, all keys and values", "why_tests_cant": "What is read depends on all writes and aborts of a session and on none of the others; the tests put three values on one shelf and send no command.", "anchors": ["binding/ruby/lib/milter/client/mail-transaction-shelf.rb", "binding/ruby/lib/milter/manager/child-context.rb", "milter/client/milter-client-context.c", "doc/configuration.rd"]}
