# Formal model of milter-manager: design

The model is written in Rocq/Coq 8.16.1 under `rocq/theories` (logical name `Verif`).
Nothing of /repo is built or run: the tie between model and code is the
file/line citation on every definition.

## 1. Layout

| directory in `rocq/theories` | contents |
|---|---|
| `Base` | bytes, big-endian words, C strings, list lemmas |
| `Model` | executable Gallina model, no proofs; each definition cites file and lines in /repo |
| `Spec` | small specifications that do not use the model's helpers |
| `Proofs` | lemmas |
| `Props` | the property theorems `Cnn_*`, `Print Assumptions` below each, and `Example`s |

Conventions:

* a byte is `ascii`; a buffer is `list ascii`; `NULL` pointers are `None`;
* undefined behaviour of the C code (out-of-bounds read or write, NULL dereference,
  unsigned underflow used as a size) is a distinct outcome (`UB`), never a default value;
* fixed-width integers are `N`/`Z` with explicit wrap-around where the code relies on it;
* external functions (`inet_pton`, `inet_ntop`, collation, I/O results, operating-system
  outcomes) are Section variables or oracle arguments of the theorems, with the assumed
  law written as an explicit hypothesis of the theorem;
* a signal emission is an element of an output trace;
* where the faithful model violates a property, a `*_refuted` theorem gives the witness and
  section 4 records the finding; the strongest true part is proved as `*_partial`.

## 2. Plan per property

| id | what is modelled | how it is proved |
|---|---|---|
| C01 | `milter_decoder_decode` loop over the GString buffer with an abstract per-packet handler | the loop is shown equal to a run of a one-packet function on the concatenated stream; induction on chunks |
| C02 | `milter_encoder_pack`, length word reading | big-endian arithmetic, round trip |
| C03 | command encoder + command decoder function by function | round trip by case on the command; inet_ntop/pton as a law-abiding pair |
| C04 | reply encoder + reply decoder | as C03 |
| C05 | encoder object with its reused buffer, lists of commands | induction on the list, C01 and C03/C04; the negotiate packet does not clear the buffer (refutation + partial) |
| C06 | reads through a bounded-buffer monad; over-read = `UB` | safety theorem per decoder, refutations for zero-length and insert/change-header |
| C07 | same | inversion: event implies grammar; refutations where the code is lax |
| C08 | decoder states incl. the wrong guard | induction over later feeds |
| C09 | `milter_decoder_end_decode` | invariant of the decoder state |
| C10 | `encode_macros`/`decode_define_macros` | induction over the sorted key list, permutation-invariance of the table |
| C11 | `extended_code_parse*`, `set_reply` | equivalence with a grammar written independently |
| C12 | `format_reply_code` + codec | composition |
| C13 | `milter_status_compare`, `compile_reply_status` | rank function, permutation invariance of the fold |
| C14,C15 | `milter-option.c` | bitwise extensionality on `N.testbit` |
| C16 | `milter-headers.c` | list specifications (nth of a name) |
| C17 | `emit_header_signals` + an MTA applying the requests | refutation of the general claim, partial theorem for a characterised class |
| C18 | `milter-protocol-agent.c` with its cache | refinement to a cache-free history function; stale-cache refutation |
| C19 | `milter-macros-requests.c` | set equality, NoDup, idempotence |
| C20 | `filter_macros`, `prepend_macro` | list specification |
| C21,C22 | client context: state, option, packet buffer, replies | step function over API calls, invariant over op lists |
| C23 | chunking loops | strong induction on length |
| C24-C27 | server context: states, timers, pending states, replies | step function, invariants over arbitrary op lists |
| C28 | writer buffer against an adversarial channel | invariant: written ++ pending = queued |
| C29-C33 | children: reply queue, statuses, waiting queue, header/body state | step functions with arbitrary answer orders, permutation invariance, non-interference |
| C34 | `milter-esmtp.c` on NUL-terminated memory | grammar soundness; refutation for unterminated quotes |
| C35 | `milter-connection.c` | round trip with inet/getaddrinfo oracles |
| C36 | `parse_file_mode*` | equivalence with independent semantics |
| C37 | control/launch codecs | round trips; the status reply is refuted |
| C38 | `controller-context.c` | case analysis over outcomes; reload refuted |
| C39 | `process-launcher.c` | invariant over histories |
| C40 | `egg_merge` | field-wise specification; fallback/evaluation refuted |
| C41 | `message-result.c` and the RCPT reply handling | invariant over whole histories: the lists are what the history says; duplicates refuted if so |
| C42 | stage/command tables | finite case analysis over all bytes |
| C43,C44 | the negotiation part of the children | an invariant of negotiation data and trace kept by every handler at every nesting depth |
| C50 | reader against an adversarial channel | invariant: handed over ++ unread = arrived |
| C51 | writer, reader and decoder together | C28, C50 and the codec theorems on prefixes of the stream |
| C52 | the copy GSignal makes of string arguments | exact characterisation of the data that get through |
| C53,C54 | loading, clearing and saving of `milter-manager-configuration.c` | equality of the cleared and a new object; search of the load paths |
| C55,C57 | list of definitions, hatching | list specifications |
| C56 | `setup_child` of the launcher | case analysis over the outcomes of the system calls |
| C58,C59,C60 | libmilter on top of the filter's context | refinement: a run of callbacks is a run of the context with the calls made, then C22 |
| C61 | state of the context against an independent notion of an open message | invariant over sessions in order |
| C62 | `smfi_setmlreply`, `format_reply_code` | exact text for any list of lines; refuted against RFC 5321 |
| C63-C67 | the life of a `MilterClient`: accepting, counting, finishing, shutting down; one step per dispatched source or step of the accepting thread | one invariant over all histories, tying the counters to the events; histories of fewer than 2^32 events |
| C68,C69 | files, sockets and ports under starts, stops and crashes of daemons | invariant over all histories of daemons with nothing in common |
| C70,C71 | dropping of privilege, order of `milter_manager_main` | case analysis over the outcomes of all calls |
| C72,C73 | list of leaders, the pointer of the periodical check into it, its timer | refinement of the pointer to a split of the list; invariant over all histories; a measure that every tick decreases for the fairness of the round |
| C74-C77 | strtol, the option callbacks of milter-client-main.c, setters and getters of MilterClient and MilterManager, milter_manager_reload | numerals as an inductive relation independent of strtol; invariant over options and reloads relating the parent's memory to the last option of each kind |
| C78-C80 | histories of the event loop with callbacks, iterations and runs nested to any depth; what is seen of them | invariants over all histories tying the table of watchers and the depth to sources and runs as read off what is seen |
| C81,C82 | the content of a message through filters that go on, leave or refuse at any command | an inductive description of the course as seen from outside; simulation by induction over it; answers and order by induction over the description |
| C83 timeouts of a filter's context | histories of the context; `due` and `rests` say from the history alone which timeout runs, and when none does | invariants over every step, reentrant handlers included |
| C84 mail files | options and mail file of milter-test-server, with who owns the sender's string | a grammar of mails (fields, folding, line ends) given by what is written, not by a parser; induction over fields and lines |
| C85 report | the requests on the message of milter-test-server and the printing of the result | requests as relations (shared with the header list), a report as a list of marked lines read from both sides; induction over both lists |
| C86 conversation | the handlers of milter-test-server as the handlers of the server context, the data they keep recovered from the trace | a conversation as an inductive relation between answers, commands sent and ending; simulation of it by the run, by induction over the conversation |
| C20 history | the macro store and the requests as part of the server context, its trace | which macros are due told from the trace alone; invariant of every run with any handlers |
| C87 options | the options of milter-test-server one after the other, with GLib's string arrays | "the last that gives one" over the list of options; induction from the end of the list |
| C88 macros on the wire | milter-test-server as the handlers of a server context | what calls the handlers still owe, as an invariant of the trace; composed with C20 history and C87 |
| C89 logger | the logger and the syslog loggers as a state machine over API calls and renames of the log file | what the calls ask for as a separate small machine (sinks with levels); refinement; the line as joined words |
| C90 configuration as XML | the writing functions as functions of the definitions; the Ruby listener as a state machine over parser events | a small reader of XML after the standard (scanner and tree builder); the document expected; what comes back as a record |
| C91 Postfix tables | lines, statements and the tree of tables in a heap as the Ruby classes build them; regular expressions and address arithmetic as parameters | logical lines, written statements, tables as a tree with Postfix's lookup as a relation |
| C92 showing the configuration | the dumper's text byte by byte, the setters of the configuration language with their conversions, loading with its rollback | a reader of the Ruby subset used (literals, assignments, blocks), what a text can say, same settings and definitions |
| C93-C94 applicable conditions | the stoppers asked at each command, the macros and the state of the filter they leave; the definitions of the configuration language | questions and answers, who takes part by what it has seen, the definition that counts |
| C95-C97 the conditions that come along | each .conf file as conditions of that model, the S25R patterns as regular expressions with a matcher by derivatives; policies | networks as ranges, the S25R rules in words over decompositions of the name, what the MTA gave last |
| C98-C100 Ruby sessions | session methods as programs that act and go on with what they get back, the library's handlers above the context of Client.v, composite sessions | what an action says and asks for, the last thing said, the severest answer |
| C101 envelope addresses | the three searches as functions over positions | leftmost longest pieces with a property |
| C102-C103 netstat checker | parsing of the output line by line into two tables, the checker's state with a count of runs, runs of netstat as an oracle | output from the side of the printer, the last connection shown |
| C104 breaker | parsing of ps, postconf and master.cf; a computer as a record of outputs and files | settings and services from the side of who writes them |
| C105 message reports | the same model as C24-C27 (Server) | the calls and forwarded edits since the last report, read off the history |
| C106-C109 detection of filters | parsers of configuration files, shell variables and units (Detect) | the files from the side of who writes them: settings, greylist.conf, assignments of the shell with their values, units of systemd |
| C110-C112 rc scripts | script, rc.conf and their evaluation (RcDetect) | lines of a script and of rc.conf from the side of who writes them, the variables the service runs with, the order of places |
| C113, C114 init scripts | script, settings, header and links (InitDetect) | lines of a script from the side of who writes them, the variables left when both files have run, the order of places |
| C115 descriptions | header and comments of an init script (InitDetect) | header of the Linux Standard Base and comments of chkconfig, from the side of who writes them (InfoSpec) |
| C116 jobs of Upstart | redhat-upstart-detector.rb line by line (PlatformDetect) | lines of a job, comments at its beginning, command it executes (PlatformSpec) |
| C117 unit, job or script | detect and apply of the detectors of Debian and Red Hat (PlatformDetect) | what a unit, a job and a script say, from the side of who installs them (PlatformSpec, InitSpec) |
| C118 rspamd | rspamd-proxy-detector.rb over parsed JSON with exceptions as outcomes (RspamdProxy) | workers from the side of who configures them, addresses named by specs (RspamdSpec, ConnectionSpecSpec) |
| C119 settings of filters in Ruby | command-line.rb and client/configuration.rb as folds over arguments and assignments, then the calls made on the client (ClientConfig) | the last word about a setting in the sequence of all words, defaults in a table of their own (ClientConfigSpec) |
| C120 shelf of a mail | the hash table of the client context with the Ruby class over it, for all sessions (Shelf) | events behind which a value is still there, values put last (ShelfSpec) |

## 3. Trusted base

* Coq's kernel (8.16.1), `coq_makefile`, the Coq standard library as installed.
* `Print Assumptions` is run below every property theorem at build time.  It prints
  "Closed under the global context" for every one of them: no axiom is used, neither our own nor
  one of the standard library.  (`coqchk` also lists `Coq.ssr.ssrunder.Under_rel.*`, a module of the
  standard library's ssreflect plugin that gets loaded and is not used.)
* The reading of the C code into Gallina (citations on each definition).
* Functions outside the repository are parameters of the theorems, with the laws they need written
  as hypotheses: `inet_pton`/`inet_ntop`, `getaddrinfo`, `g_utf8_collate`, the order of hash table
  keys, the outcome of writes, what stop-on handlers answer, timers (a timeout may come at any time
  while one is armed).  Memory allocation is assumed to succeed.  GLib containers are lists.

### Modelled

| code in /repo/milter | model |
|---|---|
| core/milter-decoder.c, milter-encoder.c | Decoder, Encoder |
| core/milter-command-encoder.c, milter-command-decoder.c | CommandCodec |
| core/milter-reply-encoder.c, milter-reply-decoder.c | ReplyCodec |
| core/milter-macro-stage.c and the stage/command tables | MacroStage |
| core/milter-protocol.c (statuses), milter-utils.c (compare, file modes, flag and enum lists) | Status, FileMode |
| core/milter-option.c | Option |
| core/milter-headers.c, the header difference of manager/milter-manager-children.c | Headers |
| core/milter-protocol-agent.c, milter-macros-requests.c, macro filtering of server/milter-server-context.c | Macros |
| reply code parts of client/milter-client-context.c and server/milter-server-context.c | ReplyCode |
| client/milter-client-context.c | Client |
| server/milter-server-context.c, core/milter-message-result.c | Server |
| core/milter-esmtp.c | Esmtp |
| core/milter-connection.c (parsing and printing of specs) | ConnectionSpec |
| manager/milter-manager-children.c | Children |
| manager/milter-manager-leader.c | Leader |
| core/milter-writer.c | Writer |
| core/milter-reader.c | Reader |
| declarations of the signals that carry data | Signals |
| manager/milter-manager-{control-command,control-reply,reply,launch-command}-{encoder,decoder}.c, milter-manager-controller-context.c | Control |
| manager/milter-manager-process-launcher.c | Launcher |
| ../libmilter/libmilter-compatible.c (callbacks, smfi functions; not smfi_main, smfi_setconn and the like) | Libmilter |
| manager/milter-manager-egg.c, milter-manager-applicable-condition.c | Egg |
| manager/milter-manager-configuration.c (settings, definitions, files; not the XML output and the setters) | Configuration |
| client/milter-client.c (accepting, sessions, finishing, maintenance, shutdown; the four modes) | Service |
| the same (PID file, cleanup, privileges), core/milter-connection.c (listening), manager/milter-manager-main.c (order of the startup) | Startup |
| manager/milter-manager.c (list of leaders, connection check), manager/milter-manager-leader.c (check and end of a session) | Sessions |
| milter-client-main.c option callbacks (without those of the logger), hook_post_parse; settings in milter-client.c and milter-manager.c, apply_syslog_parameters, apply_custom_parameters, milter_manager_reload | Model/Options.v; g_option_context_parse as the callbacks in order; strtol after the C standard in the C locale |
| core/milter-event-loop.c (run, quit), core/milter-libev-event-loop.c (without release functions) | EventLoop; libev as a choice of which started watcher is called back with which events |
| tool/milter-test-server.c (options, mail file, conversation, modification requests, printing of the result) | TestMessage, TestReport, TestServer, TestOptions (GLib's option parser is left out, an option comes with its argument as number, address or text); the flush done by milter_agent_shutdown is a Flushed that follows, the event loop and the timer of the program are left out; g_convert is a parameter, g_print writes bytes as they are; reading the file is given; that the option parser of GLib frees the string it stored for an earlier option of the same name is taken from GLib |
| core/milter-logger.c, milter-logger.h macros, core/milter-syslog-logger.c | Logger (printf is done by the caller; conversion to the terminal's charset left out; fopen's outcome is given, writing always works; openlog keeps the identity pointer and closelog forgets it, as in glibc) |
| core/milter-utils.c (XML), manager/milter-manager-egg.c and milter-manager-configuration.c (to_xml), ../binding/ruby/lib/milter/manager.rb (XMLConfigurationLoader and the parts of EggConfigurationLoader it uses) | ConfigXml; g_markup_escape_text after GLib's source; that REXML reads as the XML standard says is trusted; the setters of the sections other than milters are parameters |
| ../binding/ruby/lib/milter/manager/postfix-condition-table-parser.rb, postfix-regexp-table.rb, postfix-cidr-table.rb | PostfixTable; what a pattern matches, which patterns compile and IPAddr are parameters |
| ../binding/ruby/lib/milter/manager.rb (ConfigurationDumper and the setters of ConfigurationLoader), client/configuration.rb | ConfigDump; Ruby itself is the reader of RubySpec; locations recorded while loading, policies, hooks and further database options are left out |
| ../data/applicable-conditions/, manager.rb (ApplicableConditionLoader), child-context.rb, address-matcher.rb, policy-manager.rb, breaker.rb (stressing?), milter-server-context.c (stopping) | Conditions, SenderRules; IPAddr, DNS, netstat and the number of sessions are parameters; Ruby's exceptions are an answer of their own |
| ../binding/ruby/lib/milter/client.rb (setup_session), client/session.rb, session-context.rb, fallback-session.rb, composite-session.rb, ../binding/ruby/ext/client/rb-milter-client-context.c | RubySession; a session's method is any program over the library's actions; the conversion of return values by Ruby/GLib is taken to map names to statuses |
| ../binding/ruby/lib/milter/client/envelope-address.rb | EnvelopeAddress |
| ../binding/ruby/lib/milter/manager/netstat-connection-checker.rb, use_netstat_connection_checker and define_connection_checker of manager.rb, core/command-runner.rb | Netstat; the text of an address, whether the server is local, and what netstat prints are parameters |
| ../binding/ruby/lib/milter/manager/breaker.rb | Breaker; texts are taken to be valid UTF-8, the multiplication by 0.75 to be exact |
| ../binding/ruby/lib/milter/manager: opendkim-config-parser.rb, clamav-milter-config-parser.rb, enma-socket-detector.rb, milter-greylist-config-parser.rb, detector.rb (33-49, 134-223), systemd-detector.rb, debian-systemd-detector.rb | Detect; regular expressions as scanners of one line; Shellwords.split is a parameter; connection_spec_detector is not modelled |
| binding/ruby/lib/milter/manager: rcng-detector.rb, freebsd-rc-detector.rb, pkgsrc-rc-detector.rb | RcDetect | regular expressions as scanners of one line; a detector for a profile is the exception it raises; connection_spec_detector is not modelled; what rspamadm answers is a parameter |
| binding/ruby/lib/milter/manager: init-detector.rb, debian-init-detector.rb, redhat-init-detector.rb | InitDetect | regular expressions as scanners; readable means that there is a content; what rspamadm answers is a parameter |
| ../binding/ruby/lib/milter/manager: debian-detector.rb, redhat-detector.rb, redhat-systemd-detector.rb, redhat-upstart-detector.rb, detector.rb (55-73, 84-118) | PlatformDetect; what rspamd-proxy-detector.rb finds and File.executable? are parameters; connection_spec_detector and the accessors run_command, command_options and enabled? of the outer detectors are not modelled |
| ../binding/ruby/lib/milter/manager/rspamd-proxy-detector.rb | RspamdProxy; JSON.parse, File.executable? and the run of rspamadm are parameters |
| ../binding/ruby/lib/milter/client/command-line.rb, configuration.rb | ClientConfig; a file is the list of its assignments; parse_spec, OptionParser's Integer, the facilities of syslog and what the setters of the client take are parameters; no names, hooks, log levels, database or load paths |
| ../binding/ruby/lib/milter/client/mail-transaction-shelf.rb, client/milter-client-context.c (shelf) | Shelf; YAML.dump and YAML.load are parameters, keys are without NUL |

### Not modelled

What the code logs and when (the logger itself is modelled), statistics and debug output; GObject reference counting; the GLib event loop, libev and GLib themselves; sockets,
`fork`/`exec` and signals as such; the Ruby binding and configuration language other than as listed; the
process-wide functions of libmilter; the command line tools other than as listed; applicable conditions inside the session of a manager with several filters (there they are "stop" answers); merging an egg into itself; the time between the reaping of a child and its exit
being told, in which its pid may be given again; the passing of an `int` where a signal's 64 bit size
is collected.  The header comments of the model files give the simplifications per function.

## 4. Findings

Each line is a theorem about the faithful model that contradicts the property in full generality,
with a concrete witness.

| theorem | what happens |
|---|---|
| C01_chunking_commands_refuted, C07_define_macro_refuted | a define-macro packet of one byte takes its context from the next packet's length |
| C01_chunking_replies_refuted, C07_add_recipient_refuted | an add-recipient packet without terminator is read past its end or not, depending on how much has arrived |
| C04_change_header_refuted | changing a header to the empty value is the same packet as deleting it |
| C04_empty_symbols_refuted | an empty symbol list crashes the reply encoder |
| C05_late_negotiate_refuted, C22_progress_before_negotiation_refuted | encoding negotiate does not clear the buffer: sent after another packet it is garbled |
| C06_zero_length_refuted, C06_zero_length_reply_refuted | a packet of length zero crashes the decoder |
| C06_unix_path_refuted | a UNIX socket path of 108 bytes overflows `sun_path` |
| C06_insert_header_refuted | insert-header without value reads the following packet |
| C08_error_is_set_refuted | a failing call may come without an error, and the next one claims success |
| C12_no_extended_code_refuted, C12_no_message_refuted, C12_empty_message_refuted | custom replies without enhanced code or message arrive as something else or not at all |
| C16_case_insensitive_refuted, C17_case_refuted | header names are compared with their case |
| C17_duplicates_refuted, C17_order_refuted, C17_empty_value_refuted | the requests sent to the MTA do not lead to the headers the filters agreed on |
| C18_set_macros_refuted | the macro cache is not cleared by set-macros |
| C18_unknown_stage_refuted | macros of an unknown SMTP command are never found |
| C19_collation_refuted | symbols that collate as equal are lost when requests are merged |
| C20_braces_refuted | requested names keep their braces, defined ones do not |
| C21_empty_name_refuted | header calls with an empty name succeed without effect |
| C21_quarantine_refuted, C21_recipient_parameters_refuted | actions that were not negotiated are sent |
| C22_abort_leak_refuted | changes for an aborted message are sent with the next one |
| C22_empty_quarantine_refuted | a quarantine with empty reason is lost |
| C23_empty_body_refuted | replacing the body by nothing has no effect |
| C23_leak_refuted, C23_refused_call_refuted | the rest of a body gets into the next message, or is sent twice |
| C24_body_refuted, C24_abort_refuted, C24_failed_abort_refuted | a command is sent though the last one is not answered |
| C25_late_refuted, C27_late_edit_refuted | edits after the final answer are passed on and report the message twice |
| C27_accept_refuted | accepting at a recipient reports the message for every further recipient |
| C28_shutdown_refuted | shutting the writer down drops what one write does not take, and reports it flushed |
| C28_forgotten_flush_refuted, C28_forgotten_nested_refuted | a flush asked for while the last bytes are with the channel, or from a flushed handler, is never reported |
| C28_flushed_after_error_refuted | a flush is reported though the bytes before it failed to be written |
| C29_failure_while_writing_refuted | a filter that fails while the command is written leaves the MTA without answer |
| C29_plain_reply_code_refuted | "550 text" without enhanced code leaves the MTA without answer |
| C29_two_answers_refuted | after the last filter has failed commands are answered twice |
| C29_end_answered_as_body_refuted | with "no reply to body" negotiated the verdict on the message is given as the answer to the body |
| C30_later_filters_bypassed_refuted, C31_later_filters_bypassed_refuted | a timeout, or a refusal in evaluation mode, at end-of-message keeps the message from the filters behind |
| C30_late_edit_crash_refuted | a header edit after the final answer dereferences NULL |
| C31_failure_counts_refuted, C31_reply_code_shown_refuted | evaluation mode does not cover failures and reply codes |
| C32_refused_once_refused_ever_refuted | after one message refused at its end all later ones are |
| C33_emptied_body_refuted | an emptied body keeps end-of-message from the filters behind |
| C33_no_header_left_refuted | deleting the only header makes the MTA wait for ever |
| C33_last_piece_refuted, C33_added_body_refuted | filters behind do not see the replaced body |
| C33_replaced_for_ever_refuted | after one replacement the body of every later message is replaced, too |
| C34_overread_refuted, C34_given_table_refuted | unterminated quotes are read past the end; a caller's table gets freed strings |
| C35_long_path_refuted, C35_large_port_refuted | long socket paths overflow; ports from 2^32 on wrap |
| C36_documented_refuted | the documented mode "u+rw" is rejected |
| C41_duplicates_refuted, C41_second_refusal_refuted | a recipient named twice is in two lists; refused twice it crashes |
| C43_actions_refuted | actions a filter asks for beyond the offer are asked of the MTA |
| C44_late_filter_refuted | a filter connected late is offered the option as merged with earlier answers |
| C47_data_before_negotiation_refuted | data before negotiation dereferences NULL |
| C48_late_negotiation_refuted | a late negotiation answer is an error and takes effect |
| C50_hangup_refuted | bytes sent before the peer closed the connection are lost |
| C50_after_stop_refuted | pieces are handed over after the owner stopped the reader |
| C37_status_refuted | the reply to get-status is an error to the tool that asked |
| C37_nul_refuted, C52_body_refuted, C52_exactly_partial | data with a NUL are read outside of the copy the signal makes |
| C37_launch_refuted | an empty user name is no user name |
| C37_runs_on_refuted | an error message goes on into the next packet if that has 2^24 bytes |
| C38_reload_refuted, C53_failed_reload_refuted | a failed reload is answered by success and leaves no filters |
| C38_status_refuted | the status is the text "FIXME" |
| C40_ignored_refuted, C40_not_kept_refuted, C40_options_refuted | merging ignores fallback status and evaluation mode, and resets what the later definition does not mention |
| C53_platform_refuted | a platform once unset is not set again by clearing |
| C54_shadowed_refuted | a saved configuration is never loaded if an older file precedes it that cannot be written |
| C56_refused_refuted | a filter runs as root if changing its user fails, and success is replied |
| C57_same_name_refuted | removing a definition may remove another one of the same name |
| C58_last_piece_lost_refuted | a libmilter filter without xxfi_eom does not get the body data sent with end-of-message |
| C59_all_options_refuted | SMFIS_ALL_OPTS outside of a negotiation is never answered |
| C59_undefined_refuted | a missing reply code or a wrong body size is undefined behaviour |
| C60_flags_refuted, C60_default_refuted | xxfi_flags are ignored; a filter without xxfi_negotiate accepts that the steps it handles are not sent |
| C60_context_refuted | xxfi_negotiate gets the macro requests instead of its context; any smfi call there is undefined |
| C60_symbols_refuted | smfi_setsymlist reports success and has no effect |
| C61_unknown_refuted, C61_lost_refuted, C61_decided_refuted | xxfi_abort is called outside of a message and after a verdict, and not called when the connection is lost |
| C62_more_lines_refuted, C62_passed_on_refuted | a reply of several lines is not an SMTP reply; the manager repeats the codes inside of it |
| C62_class_refuted | a 4xx code is sent for SMFIS_REJECT |
| C63_accept_thread_refuted | with an accepting thread the number of sessions is changed without lock: a lost update, and a shutdown never ends the daemon |
| C63_thread_pool_refuted | the thread function of the pool takes the session for the client: the first session is undefined behaviour |
| C64_resumes_refuted | at max_connections the next connection puts the only thread to sleep; no session ends any more, so it sleeps for ever |
| C66_closes_socket_refuted | milter-manager's listening socket stays open after a shutdown; new connections hang |
| C67_accept_failure_refuted | a worker that fails to accept once (any error but EAGAIN) never accepts again |
| C68_taken_over_refuted | a second daemon with the same UNIX socket takes it over while the first is running; the end of the first removes the second's socket and PID file |
| C68_failed_start_refuted | a filter started a second time fails to bind and removes the PID file of the running one |
| C68_left_behind_refuted, C71_failure_refuted | if milter-manager cannot run after listening (PID file not writable) it leaves its socket behind and exits with success |
| C70_groups_refuted | without an effective group (the default) the process keeps group 0 and root's supplementary groups |
| C70_owner_refuted | if the socket cannot be given to the effective user, dropping the privilege still succeeds |
| C71_custom_refuted | the configuration in the effective user's home is evaluated as root before the privilege is dropped |
| C72_close_refuted | a connection closed before negotiation (a port scan, a health check) leaves its leader in the manager's list for ever |
| C73_on_refuted | when the check ends the only session, its timer is gone but its id stays set: new sessions are not checked until all have ended |
| C74_packet_buffer_refuted | sessions of milter-manager always have packet buffer size 0: the option and the configuration are stored where sessions do not look |
| C74_facility_refuted | `--syslog-facility` is lost at the first reload |
| C74_mode_refuted | `--unix-socket-mode 000` gives mode 0660 |
| C75_syslog_refuted | turning the system log on again with a new facility logs with the old one until the next reload |
| C76_negative_refuted | `--n-workers=-1` and `--max-pending-finished-sessions=-1` are accepted as 4294967295 |
| C76_empty_refuted, C76_wraps_refuted | `--user ""` and `--user 4294967296` mean root |
| C77_spec_refuted | a refused connection spec loses the one that was set |
| C78_stays_refuted | after 2^32 additions a callback that had removed its own source and returns FALSE destroys the source that got its ID |
| C79_errors_refuted | the libev loop stores conditions in a `short`, which has no room for EV_ERROR: G_IO_ERR, G_IO_HUP and G_IO_NVAL are never reported; who asks for them alone is never called, or with G_IO_IN and G_IO_OUT when the descriptor is closed |
| C79_pri_refuted | a watch for G_IO_PRI is called with G_IO_IN for any data |
| C79_zero_refuted | a timeout of 0 seconds is called once, though its callback returns TRUE, and its source remains (the GLib loop calls it again) |
| C80_iterate_refuted | an iteration whose callback iterates the loop in turn reports that nothing was called |
| C32_first_header_lost_refuted | the count of headers given out survives an abort: the first header of the next message is given to no filter, and with the fallback "accept" that message is accepted unseen |
| C32_header_of_earlier_message_refuted | a filter accepts a message at its header: that header is given again as the first of the next message, the answers are off by one and the end of that message is never answered |
| C32_body_skipped_for_ever_refuted | a filter that skipped the body of one message gets no body of the later messages of the connection |
| C29_late_accept_refuted | when the last filter accepts at its second header the MTA is told "continue", and the next header gets two answers, both "temporary failure" |
| C30_closed_while_waiting_refuted | a filter that closes its connection while another has the message is asked all the same at the end; no answer, no timeout is heard and the MTA waits for ever |
| C83_body_refuted | no timeout runs for the answer to a body chunk that fits into one packet: a filter that hangs there is waited for for ever |
| C83_late_progress_refuted | a progress report after the final answer starts the end-of-message timeout: the next command is refused, and the connection is shut down though nothing is owed |
| C84_crash_refuted | a mail file whose first line starts with white space crashes milter-test-server: there is no header to continue |
| C84_nul_refuted | nothing behind a NUL byte of a mail file is sent |
| C84_case_refuted | a field `from:` gives no sender, and an invented `From:` field is sent beside it |
| C84_recipients_refuted | of `To: al@y, bo@z` one recipient is made, `<al@y,>` |
| C84_sender_twice_refuted | `-f a -m file -f b` frees the sender's string twice |
| C84_header_options_refuted | headers of one name given by options are sent in reverse order |
| C85_empty_body_refuted | milter-test-server shows a body that was replaced by nothing as it was before |
| C85_insert_refuted | milter-test-server crashes when it prints a header that was inserted with an empty value |
| C85_recipients_refuted | after the deletion of the first recipient milter-test-server marks every other as gone and as new |
| C86_macros_refuted | milter-test-server never returns when the filter asks for two macros at one stage: the loop goes to the second symbol again and again |
| C86_stalls_refuted | milter-test-server sends nothing more, and waits without a timeout, when a command without an answer is followed by one that is declined but would have an answer |
| C86_exit_refuted | milter-test-server exits with success after a timeout and after a rejection |
| C86_code_refuted | the reply code that refused one recipient is told beside the status "pass" of the message |
| C86_shutdown_refuted | a shutdown of the filter at the end of the message is told as "pass" |
| C86_long_chunk_refuted | a body chunk of more than 65535 bytes loses its rest and the run ends with an error |
| C87_end_of_message_timeout_refuted | --end-of-message-timeout of milter-test-server sets the writing timeout; that for the end of the message stays at 300 seconds |
| C87_empty_macro_refuted | an empty argument of a macro option of milter-test-server is read out of bounds |
| C89_one_line_refuted | a line break in a message (say in an address) is written to the log as it is: one message looks like two |
| C89_level_property_refuted | the "target-level" property of the logger does not update the level that decides whether a message is looked at: the level is shown as set, the messages are missing |
| C89_two_syslogs_refuted | after one of two syslog loggers is disposed of, the other does not get the levels only it asked for |
| C89_failed_path_refuted | when a new log path cannot be opened, the old file is closed all the same |
| C89_failed_reopen_refuted | when the log cannot be opened again once, its path is forgotten and later reopening does nothing |
| C89_off_refuted | "-critical" when only critical is on turns on all default levels, critical included |
| C89_fatal_refuted | MILTER_DEBUG=fatal-warnings aborts before the fatal message is written |
| C89_identity_refuted | setting the identity of a syslog logger frees the memory openlog still uses |
| C89_syslog_follows_refuted | a syslog logger follows later changes of the level only if none was set before it was made |
| C90_whole_refuted | what the manager answers to "get configuration" is refused by its own loader as soon as there is a condition or a custom configuration file (`last-modified` and `applicable-conditions` are unexpected elements) |
| C90_user_refuted | the user a filter is started as and its timeouts are not in the XML |
| C90_command_refuted | a filter with a command and without options stops the loading with a NoMethodError; the definitions before it are already in effect |
| C90_fallback_refuted | fallback statuses the egg accepts but the configuration language does not stop the loading; the error is only logged |
| C90_options_refuted | options without a command are lost; an empty description cannot be read over an older one |
| C90_control_refuted | a control character makes the XML unreadable (XML 1.0 has no reference to it); a carriage return comes back as a line feed |
| C91_after_block_refuted | a rule after `endif` is put into the block's own table: it is looked at only if the block's condition holds |
| C91_twice_refuted | the answer of a block is expanded once more with the groups of its condition: `$1` in the sender's own text is replaced |
| C91_slash_refuted | an action with a slash followed by a space (`550 see http://x/ now`) is read as part of the pattern; white space at the end stays in the action |
| C91_flag_refuted | the flag `i` makes no difference (in Postfix it toggles case-insensitivity), nor does `x` |
| C91_unbalanced_refuted | a missing `endif`, or one too many followed by a rule, ends in a NoMethodError; one too many at the end is not noticed |
| C91_number_refuted | a line of unknown format is reported with the number of the line after it, any error with that of the last blank line before the next statement |
| C92_read_back_refuted | `milter.command_options = nil` raises NoMethodError and `milter.connection_spec = nil` TypeError, so the configuration shown for a filter without options or spec cannot be read back; nor can one with another fallback status |
| C92_stoppers_refuted | conditions are shown without their stoppers: read back they stop nothing |
| C92_controller_refuted | the two settings for removing the controller's socket are installed with the numbers of the manager's: setting them changes the manager's, reading them shows the manager's |
| C92_settings | the settings before a line that fails stay in effect, those of syslog alone are taken back |
| C93_message_refuted | stopping a filter at MAIL leaves its state as it is: if the message before ended without an abort, it is told the recipients and the content of a message it should not see |
| C93_set_macro_refuted | milter_server_context_helo does not set the stage of the macros: a macro a stopper sets at HELO is not told with HELO |
| C93_body_refuted | a stopper of the body gets the name of the condition in place of the chunk (one argument too many is passed) |
| C94_redefined_refuted | a condition defined again has lost its old stoppers, and its new ones reach only filters that name it afterwards |
| C94_order_refuted | define_milter for a filter that is already defined (say to add a condition) moves it behind all others |
| C95_trust_refuted | Trust cuts the sender at the first @ of a quoted local part; a domain added with capital letters never matches, as the sender's domain is put in lower case |
| C95_s25r | the documentation calls the setting of S25R `check_only_ipv4=`, the code has `only_check_ipv4=` only (read in the text, not a theorem) |
| C96_accounts_refuted | documented: the filter is applied if a restricted account is among the recipients.  In fact a further recipient takes the message from it, or, if the MTA sends macros with RCPT, the last recipient decides; without an abort the message before counts too |
| C97_policies_refuted | a policy without a pattern for host and address turns its filters away at every connection; its pattern for HELO raises a NameError and has no effect; with two policies only filters named by both get any content |
| C98_own_code_refuted | `reject(:code => 450)` or `temporary_failure(:code => 550)` without :extended_code keep the default extended code, which does not fit; set_reply raises, and with the default fallback status the message is accepted |
| C98_stored_reply_refuted | the reply set by a refusal with a reason is never cleared: later plain `reject` and `temporary_failure` are sent with its code and text |
| C98_last_chunk_refuted | a chunk that comes with end-of-message is dropped by client.rb: no session ever sees it |
| C98_negotiate_refuted | an exception in `negotiate` gives the fallback status accept, which is no answer to a negotiation: the MTA gets nothing |
| C98_fallback_refuted | a fallback status that is no status is not refused when it is set; the exception leaves the handler when it is needed |
| C100_dash_refuted | a status given as "temporary-failure" is understood in a single session, but raises a NameError in a composite with a second responding session: the message is accepted |
| C100_reply_refuted | the answer is the severest, the reply the last one set: a permanent refusal is sent with another session's temporary code |
| C100_abort_refuted | CompositeSession has no reset: an abort resets none of its sessions (a NoMethodError is taken for a session's exception) |
| C100_delay_refuted | delay_response of one session is lost when another answers |
| C101_quoted_refuted | angle brackets in a quoted local part end or begin the path for the search |
| C102_mapped_refuted | `::ffff:203.0.113.9` is split at its dots too and looked up under another name: such sessions are never given up |
| C102_dual_stack_refuted | netstat shows the IPv4 clients of a socket for both kinds in lines for tcp6; they are looked for among those for tcp4 |
| C102_tcp46_refuted | a line for another protocol name (tcp46 on FreeBSD) raises a NoMethodError at every check, which counts as connected |
| C102_gone_refuted | a connection not shown any more, or in any other closing state, counts as connected |
| C103_lifetime_refuted | @last_update is never set: database_lifetime has no effect and netstat is run for each of the sessions of a check |
| C104_one_refuted | 1 * 0.75 is rounded to 0, which means no threshold; postscreen has a limit of 1 |
| C104_type_refuted | `smtp unix` (the client) in front of `smtp inet` is taken for it |
| C104_name_refuted | a service given by its port or address is not found, the default limit is used |
| C104_continued_refuted | columns on a continued line are not seen; the limit becomes 0 |
| C104_postconf_refuted | the path of postconf is looked for, but `postconf` is run |
| C105_order_refuted | headers of one name (Received) are listed in reverse, and next to each other |
| C105_changed_refuted | a changed header is reported as added, and nothing as removed |
| C105_other_edits_refuted | change of sender, recipients and body by the filter are not in the report |
| C105_reentrant_refuted | a message begun by a handler of the report loses its sender: the data are dropped after the signal |
| C105 (read in the text) | the filter's own context (milter-client-context.c:3813-3855, 4186-4210) reports messages too, but never puts anything into them: no sender, no recipients, no headers, size 0; its state is not set either, since the state is already END_OF_MESSAGE_REPLIED; and the time runs from the negotiation on |
| C106_trailing_refuted | white space, a carriage return or a comment behind the value of Socket becomes part of the spec |
| C106_blank_refuted | "Socket" followed by two blanks gives the spec " " |
| C107_continued_refuted | continued lines of greylist.conf are never joined: the backslash is looked for behind the newline (milter-greylist-config-parser.rb:65-84), so a tarpit on a continued line does not lengthen the timeouts |
| C107_behind_refuted | `socket "/s" 660 # x` gives a spec with quotes; `# tarpit 1w` behind an entry lengthens the timeouts by a week |
| C108_shell_refuted | number signs in quotes, second assignments, single quotes, unset variables, small letters |
| C109_comment_refuted | `;SOCKET=/run/old`, a comment of systemd, is taken for an assignment |
| C109_text_refuted | environment files are read like shell scripts: comments behind values, references |
| C109_reset_refuted | `EnvironmentFile=` does not take back the files before |
| C109_override_refuted | a unit in /etc/systemd/system is not looked at, only that of the package |
| C109 (read in the text) | rspamd without a milter worker: rspamd-proxy-detector.rb indexes nil, and loading the platform's configuration is given up |
| C41_late_refuted | a refusal that comes after the report of a message is charged to the next: its report lists a recipient it never had as rejected |
| C41_hasty_refuted | a recipient named while the one before is unanswered is not sent and the call fails, yet it is listed and the refusal of the one before is charged to it |
| C110_comment_refuted | `dkim_enable="YES" # x` in rc.conf does not enable the filter: quotes are taken off only around the whole rest of the line |
| C110_true_refuted | TRUE, ON and 1, which rc.subr takes for yes, do not enable a filter |
| C110_empty_refuted | `dkim_enable=` behind `dkim_enable=YES` changes nothing |
| C110_profiles_refuted | profiles of OpenDKIM: FreeBSDRCProfileDetector asks its base detector for rc_d, rc_conf and rc_conf_d, which are private there, so NoMethodError is raised; the tests do not see it because they redefine these methods as public ones |
| C111_equals_refuted | rcng-detector.rb:117 cuts at the last =, so the variable in `dkim_flags="-o a=b -p /s"` is lost |
| C111_colon_refuted | the default in `: ${dkim_socket:=/s}` is put into a variable called `socket:` |
| C111_commented_refuted | a default in a comment counts |
| C111_args_refuted | `command_args="... ${dkim_user} -g ${dkim_group}"` is taken for a default, so -p in it is not found |
| C111_late_refuted | rcng-detector.rb:99 waits for `load_rc_conf `, but the command is `load_rc_config`: assignments behind it are taken for defaults |
| C113_no_refuted | ENABLED=no in /etc/default does not switch a filter off |
| C113_branch_refuted | an assignment in a branch of the script that is not taken counts |
| C113_late_refuted | what a script assigns behind the line that reads its settings does not win over them |
| C113_header_refuted | a header with INIT INFO of one empty line raises NoMethodError: `[1..-1]` of an empty list (init-detector.rb:64) |
| C113_shell_refuted | debian-init-detector.rb:57 takes `#!/bin/sh` off but leaves ` -e`, so the header is no longer at the beginning and Description and Provides are lost |
| C113_colon_refuted | `Description: see http://x` is cut to `see` |
| C113_clamd_refuted | CLAMAVCONF is clamd's file in older scripts; it is read for the socket of clamav-milter even if CLAMAVMILTERCONF names the right one |
| C114_off_refuted | a service with K links only, which chkconfig switched off, is used |
| C114_name_refuted | a variable called `name` is not expanded in the script; in the settings it is the name of the script |
| C114_option_refuted | `daemon --SOCKET=/run/x` in a script counts as an assignment |
| C111_short_refuted | in rc.conf `${cfg}` is expanded to the value of `dkim_cfg`; a shell knows no such variable |
| C111_long_refuted | in rc.conf `${dkim_cfg}` is not expanded although the line before sets it |
| C112_rcvar_refuted | `rcvar=` is looked for in rc.conf (pkgsrc-rc-detector.rb:46-53), where nobody writes it, and not in the script, where it stands |
| C115_tab_refuted | a description continued on a line with a tab behind the number sign, as the Linux Standard Base allows, has the number sign in it |
| C115_header_refuted | Red Hat: Description in the header of the Linux Standard Base is not used |
| C115_short_refuted | Debian: Short-Description is not used when there is no Description |
| C116_blank_refuted | a job whose `start on` is indented or has two blanks is not seen to start by itself |
| C116_others_refuted | a filter other than clamav-milter and milter-greylist is never taken from its job, wherever it listens |
| C117_start_refuted | where /sbin/service can be executed, a job is started by `/sbin/start clamav-milter start` (redhat-upstart-detector.rb:37-43) |
| C117_command_refuted | a unit that is used where systemctl is not /usr/bin/systemctl (but, say, /bin/systemctl) and there is no service: NoMethodError, as units have no run_command (detector.rb:55-63) |
| C117_disabled_refuted | a unit that `systemctl disable` has switched off is used all the same through the init script beside it |
| C117_undefined_refuted | and without an init script no filter is defined at all, not even one that is disabled |
| C117_header_refuted | the header of the init script is parsed, and may raise an exception, although the unit is used |
| C118_none_refuted | rspamd without a worker that is a filter: nil is indexed (rspamd-proxy-detector.rb:27), NoMethodError |
| C118_single_refuted | workers that are one object and not a list, as a printer may do with a single worker: NoMethodError for key? |
| C118_several_refuted | a list of addresses in bind_socket: NoMethodError for start_with? |
| C118_ipv6_refuted | `[::1]:11332` is cut at its first colon; the spec `inet::1]:11332@[` names no address |
| C119_invalid_refuted | a wrong fallback_status in a file raises InvalidValue, which load_path logs (configuration.rb:447): the rest of the file is skipped and the filter runs without it, for example without the effective_user that follows |
| C119_unused_refuted | max_connections, suspend_time_on_unacceptable, remove_unix_socket_on_create and remove_unix_socket_on_close are stored and never given to the client (configuration.rb:118-152) |
| C119_interval_refuted | --maintenance-interval lacks Integer (command-line.rb:227), so the client is given a text |
| C119_status_refuted | --status-on-error takes every text for a status |
| C119_relative_refuted | load_paths of the client's configuration is empty, so -c with a relative path always ends with NonexistentPath |
| C119_signal_refuted | handle_signal has no setter for files: NoMethodError |
| C119_backend_refuted | an event loop that does not exist becomes nil in a file and is not reported there |
| C120_next_refuted | the shelf is cleared by an abort only (milter-client-context.c:4259); after end-of-message the next mail of the session still reads it, though the manual promises it for one mail transaction (doc/configuration.rd:2163) |
| C120_load_refuted | a value YAML.load does not read back makes each raise for every child |
