{
 "claims": [
  {
   "property": "C01",
   "status": "partial",
   "theorems": [
    "C01_chunking_generic",
    "C01_chunking_commands_partial",
    "C01_chunking_replies_partial",
    "C01_chunking_commands_refuted",
    "C01_chunking_replies_refuted"
   ],
   "note": "Proved for every stream whose packets are not among the few forms on which the decoder looks past the packet's end; refuted for those."
  },
  {
   "property": "C02",
   "status": "proved",
   "theorems": [
    "C02_command_packets",
    "C02_reply_packets",
    "C02_framing_unambiguous"
   ],
   "note": "Negotiate only when it is the encoder's first packet (see C05)."
  },
  {
   "property": "C03",
   "status": "proved",
   "theorems": [
    "C03_commands_survive"
   ],
   "note": "inet_ntop/inet_pton and the order of hash table keys are parameters with the stated laws."
  },
  {
   "property": "C04",
   "status": "proved",
   "theorems": [
    "C04_replies_survive",
    "C04_replies_encoded",
    "C04_change_header_refuted",
    "C04_empty_symbols_refuted"
   ],
   "note": "The relation `means` says what each call stands for; the two refutations are the inputs it excludes."
  },
  {
   "property": "C05",
   "status": "partial",
   "theorems": [
    "C05_command_session_partial",
    "C05_reply_session_partial",
    "C05_late_negotiate_refuted"
   ],
   "note": "Proved when negotiate is sent first; refuted otherwise, because encoding a negotiate does not clear the encoder's buffer."
  },
  {
   "property": "C06",
   "status": "partial",
   "theorems": [
    "C06_commands_stay_inside_partial",
    "C06_replies_stay_inside_partial",
    "C06_command_streams_partial",
    "C06_zero_length_refuted",
    "C06_zero_length_reply_refuted",
    "C06_unix_path_refuted",
    "C06_insert_header_refuted"
   ],
   "note": "Proved for all packets except the listed forms, on which it is refuted."
  },
  {
   "property": "C07",
   "status": "partial",
   "theorems": [
    "C07_commands_wellformed_partial",
    "C07_replies_wellformed_partial",
    "C07_define_macro_refuted",
    "C07_add_recipient_refuted"
   ],
   "note": "Exact characterisation against the packet grammar for all packets except the unguarded forms."
  },
  {
   "property": "C08",
   "status": "partial",
   "theorems": [
    "C08_failure_is_final_partial",
    "C08_reply_failure_is_final_partial",
    "C08_nothing_after_failure",
    "C08_error_is_set_refuted"
   ],
   "note": "One failing call and nothing reported afterwards is proved; that an error is always set is refuted."
  },
  {
   "property": "C09",
   "status": "proved",
   "theorems": [
    "C09_end_of_stream",
    "C09_end_of_reply_stream",
    "C09_split_exists_unique"
   ],
   "note": ""
  },
  {
   "property": "C10",
   "status": "proved",
   "theorems": [
    "C10_macros_survive"
   ],
   "note": ""
  },
  {
   "property": "C100",
   "status": "partial",
   "theorems": [
    "C100_answers",
    "C100_one_answer",
    "C100_operations",
    "C100_negotiation",
    "C100_dash_refuted",
    "C100_reply_refuted",
    "C100_abort_refuted",
    "C100_delay_refuted"
   ],
   "note": "Proved for every list of sessions if no status is given by a name with a dash. Refuted: for names with a dash, for the reply sent with the answer, for abort, and for a session that asked for time."
  },
  {
   "property": "C101",
   "status": "partial",
   "theorems": [
    "C101_address",
    "C101_spec",
    "C101_path_partial",
    "C101_case",
    "C101_domain",
    "C101_domain_partial",
    "C101_quoted_refuted"
   ],
   "note": "Proved for every argument. Refuted that it is the address of the path when a quoted local part contains an angle bracket."
  },
  {
   "property": "C102",
   "status": "partial",
   "theorems": [
    "C102_given_up",
    "C102_without_output",
    "C102_mapped_refuted",
    "C102_dual_stack_refuted",
    "C102_tcp46_refuted",
    "C102_gone_refuted"
   ],
   "note": "Proved for every output with lines for tcp, tcp4 and tcp6 in which IPv6 addresses have no dots. Refuted: connections shown as IPv4 addresses in lines for tcp6 or as mapped addresses are not recognised; a line for tcp46 makes every check useless; a connection that is gone counts as there."
  },
  {
   "property": "C103",
   "status": "partial",
   "theorems": [
    "C103_interface",
    "C103_runs",
    "C103_lifetime_refuted"
   ],
   "note": "Proved for every history. Refuted: that the output is kept for the lifetime of the database; netstat is run at every check."
  },
  {
   "property": "C104",
   "status": "partial",
   "theorems": [
    "C104_stress",
    "C104_no_postfix",
    "C104_given",
    "C104_one_refuted",
    "C104_type_refuted",
    "C104_name_refuted",
    "C104_continued_refuted",
    "C104_postconf_refuted"
   ],
   "note": "Proved for every master.cf with all columns of a service on one line and limits below 2^51 (no rounding). Refuted: a limit of one process; the service is found by its name only, not by its type or port; a limit on a line that continues; the postconf asked is that of the running Postfix."
  },
  {
   "property": "C105",
   "status": "partial",
   "theorems": [
    "C105_contents",
    "C105_order_refuted",
    "C105_changed_refuted",
    "C105_other_edits_refuted",
    "C105_reentrant_refuted"
   ],
   "note": "Proved for every history in which no calls are made from within the report or the signals of edits; status and state are C27, recipients C41. Refuted: headers of one name are listed latest first; a changed header is listed as added; new sender, recipients and body are not in the report; what handlers of the report begin is lost."
  },
  {
   "property": "C106",
   "status": "partial",
   "theorems": [
    "C106_opendkim",
    "C106_clamav",
    "C106_enma",
    "C106_spec",
    "C106_trailing_refuted",
    "C106_blank_refuted"
   ],
   "note": "Proved for lines without anything behind the value. Refuted: white space, a carriage return or a comment behind the value becomes part of the spec; a name followed by blanks only is given a blank."
  },
  {
   "property": "C107",
   "status": "partial",
   "theorems": [
    "C107_socket",
    "C107_delay",
    "C107_continued_refuted",
    "C107_behind_refuted"
   ],
   "note": "Proved for files without continued lines and without comments behind values. Refuted: continued lines are not put together, so a delay on the second is not seen; anything behind the mode of a socket leaves the quotes in the spec; a delay in a comment counts."
  },
  {
   "property": "C108",
   "status": "partial",
   "theorems": [
    "C108_values",
    "C108_shell_refuted"
   ],
   "note": "Proved for files of assignments to names in capitals whose references are to variables that are set. Refuted: a number sign within quotes, a second assignment on a line, a dollar sign within single quotes, references to variables that are not set, names with small letters, and commands that look like assignments are read otherwise than the shell does."
  },
  {
   "property": "C109",
   "status": "partial",
   "theorems": [
    "C109_socket",
    "C109_opendkim",
    "C109_clamav",
    "C109_greylist",
    "C109_absent",
    "C109_comment_refuted",
    "C109_text_refuted",
    "C109_reset_refuted",
    "C109_override_refuted"
   ],
   "note": "Proved for units and environment files without continued lines; splitting a command line into words is a parameter; rspamd is left out. Refuted: comments that begin with a semicolon, number signs and dollar signs in environment files, empty values that take back earlier ones, and units of the administrator are read otherwise than systemd does."
  },
  {
   "property": "C11",
   "status": "proved",
   "theorems": [
    "C11_set_reply",
    "C11_stored_reply"
   ],
   "note": ""
  },
  {
   "property": "C110",
   "status": "partial",
   "theorems": [
    "C110_enabled",
    "C110_absent",
    "C110_nameless",
    "C110_comment_refuted",
    "C110_true_refuted",
    "C110_empty_refuted",
    "C110_profiles_refuted"
   ],
   "note": "Proved for scripts that give no variable two defaults and for rc.conf with one assignment of a value without = a line, which may refer to variables the script sets once to a plain text. Refuted: a comment or a blank behind the value, TRUE, ON and 1, an assignment of nothing; with profiles of OpenDKIM an exception is raised."
  },
  {
   "property": "C111",
   "status": "partial",
   "theorems": [
    "C111_own",
    "C111_listens",
    "C111_greylist",
    "C111_equals_refuted",
    "C111_colon_refuted",
    "C111_commented_refuted",
    "C111_args_refuted",
    "C111_late_refuted",
    "C111_short_refuted",
    "C111_long_refuted"
   ],
   "note": "Proved under the conditions of C110; splitting a command line into words and what rspamd answers are parameters; values may refer to variables the script sets once to a plain text. Refuted: references to other variables of rc.conf, values with =, defaults with :=, defaults in comments, arguments that mention two variables, assignments behind load_rc_config."
  },
  {
   "property": "C112",
   "status": "partial",
   "theorems": [
    "C112_enabled",
    "C112_listens",
    "C112_greylist",
    "C112_rcvar_refuted"
   ],
   "note": "For scripts and rc.conf as in C110. Refuted: rcvar in the script is not followed, rcvar in rc.conf is."
  },
  {
   "property": "C113",
   "status": "partial",
   "theorems": [
    "C113_enabled",
    "C113_absent",
    "C113_listens",
    "C113_greylist",
    "C113_described",
    "C113_no_refuted",
    "C113_branch_refuted",
    "C113_late_refuted",
    "C113_header_refuted",
    "C113_shell_refuted",
    "C113_colon_refuted",
    "C113_clamd_refuted"
   ],
   "note": "Proved for scripts whose lines are comments, lines without an assignment and assignments of a whole line, run from the first line to the last, then the settings. Refuted: no and false for ENABLED, branches not taken, assignments behind the one that reads the settings, an empty header, a header behind an option of the shell, a colon in a description, a script that names clamd's file and clamav-milter's."
  },
  {
   "property": "C114",
   "status": "partial",
   "theorems": [
    "C114_enabled",
    "C114_absent",
    "C114_listens",
    "C114_greylist",
    "C114_off_refuted",
    "C114_name_refuted",
    "C114_option_refuted"
   ],
   "note": "Proved for scripts as in C113; what rspamd answers is a parameter. Refuted: a service that is only stopped in the runlevels counts as used, a variable called name is not expanded, an option of a command with = is taken for an assignment."
  },
  {
   "property": "C115",
   "status": "partial",
   "theorems": [
    "C115_debian",
    "C115_redhat",
    "C113_described",
    "C115_tab_refuted",
    "C115_header_refuted",
    "C115_short_refuted",
    "C113_colon_refuted",
    "C113_shell_refuted"
   ],
   "note": "Proved for headers whose lines begin with a number sign and a blank and whose texts have no colon. Refuted: a colon in a text, a line continued behind a tab, a script of Red Hat with the header only, a script with a short description only, a header behind an option of the shell."
  },
  {
   "property": "C116",
   "status": "partial",
   "theorems": [
    "C116_job",
    "C116_absent",
    "C116_blank_refuted",
    "C116_others_refuted"
   ],
   "note": "Proved for every job; Shellwords.split is a parameter. Refuted: indented stanzas or more than one blank in them, and other filters, which are never used."
  },
  {
   "property": "C117",
   "status": "partial",
   "theorems": [
    "C117_unit",
    "C117_debian_unit",
    "C117_debian_script",
    "C117_redhat_unit",
    "C117_redhat_job",
    "C117_redhat_script",
    "C117_agrees",
    "C117_start_refuted",
    "C117_command_refuted",
    "C117_disabled_refuted",
    "C117_undefined_refuted",
    "C117_header_refuted"
   ],
   "note": "Proved where the init script, if any, can be read and, for jobs, there is no command service. What rspamd answers and which files are executable are parameters. Refuted: the arguments of /sbin/start where there is a command service, a unit without a command to start it, a unit that is switched off beside or without an init script, an init script whose header raises an exception."
  },
  {
   "property": "C118",
   "status": "partial",
   "theorems": [
    "C118_found",
    "C118_unknown",
    "C118_address",
    "C118_none_refuted",
    "C118_single_refuted",
    "C118_several_refuted",
    "C118_ipv6_refuted"
   ],
   "note": "Proved for workers given as a list, one address each. JSON.parse and the run of rspamadm are parameters. Refuted: no worker that is a filter, workers given as one object, several addresses, addresses of IPv6."
  },
  {
   "property": "C119",
   "status": "partial",
   "theorems": [
    "C119_value",
    "C119_optional",
    "C119_switch",
    "C119_others",
    "C119_runs",
    "C119_untaken",
    "C119_refused",
    "C119_invalid",
    "C119_invalid_refuted",
    "C119_unused_refuted",
    "C119_interval_refuted",
    "C119_status_refuted",
    "C119_relative_refuted",
    "C119_signal_refuted",
    "C119_backend_refuted"
   ],
   "note": "Proved for files whose assignments are right, and for wrong options, unreadable files and wrong specs. A file is its list of assignments; what the client takes, specs, integers and facilities are parameters. That the client takes no text for the interval is assumed in C119_interval_refuted. Refuted: a wrong status ends its file silently, four settings are never handed on, relative paths, handle_signal in files, unknown event loops, the deprecated status option."
  },
  {
   "property": "C12",
   "status": "partial",
   "theorems": [
    "C12_custom_reply_partial",
    "C12_no_extended_code_refuted",
    "C12_no_message_refuted",
    "C12_empty_message_refuted"
   ],
   "note": "Proved with an extended code and a non-empty one-line message; refuted without an extended code, without a message and with an empty message."
  },
  {
   "property": "C120",
   "status": "partial",
   "theorems": [
    "C120_read",
    "C120_nothing",
    "C120_either",
    "C120_each",
    "C120_next_refuted",
    "C120_load_refuted"
   ],
   "note": "Proved for values YAML reads back; YAML.dump and YAML.load are parameters. Refuted: the end of a mail does not clear the shelf, so the manual's promise of data for one mail transaction fails when the MTA sends no abort; one value YAML does not read back makes going through the shelf raise."
  },
  {
   "property": "C13",
   "status": "proved",
   "theorems": [
    "C13_strongest_verdict",
    "C13_verdict_exists",
    "C13_order_irrelevant",
    "C13_compare"
   ],
   "note": ""
  },
  {
   "property": "C14",
   "status": "proved",
   "theorems": [
    "C14_combine"
   ],
   "note": ""
  },
  {
   "property": "C15",
   "status": "proved",
   "theorems": [
    "C15_actions",
    "C15_suppressed",
    "C15_enabled",
    "C15_unknown_steps_dropped",
    "C15_version",
    "C15_order_irrelevant"
   ],
   "note": ""
  },
  {
   "property": "C16",
   "status": "proved",
   "theorems": [
    "C16_add",
    "C16_append",
    "C16_insert",
    "C16_change",
    "C16_change_to_null_deletes",
    "C16_delete",
    "C16_remove",
    "C16_lookup",
    "C16_case_insensitive_refuted"
   ],
   "note": "Names are compared exactly; the refutation shows the difference from the protocol's case-insensitive names."
  },
  {
   "property": "C17",
   "status": "partial",
   "theorems": [
    "C17_same_headers_partial",
    "C17_exact_partial",
    "C17_duplicates_refuted",
    "C17_order_refuted",
    "C17_empty_value_refuted",
    "C17_case_refuted"
   ],
   "note": "Same headers in some order when no original header occurs twice, exact list when the filters keep the order; the general claim is refuted."
  },
  {
   "property": "C18",
   "status": "proved",
   "theorems": [
    "C18_lookup",
    "C18_lookup_settled",
    "C18_message_end",
    "C18_set_macros_refuted",
    "C18_unknown_stage_refuted"
   ],
   "note": "Stages are the nine of the search order; macros of the unknown command are never visible, and a lookup directly after set-macros can answer from a stale cache (both refuted with witnesses)."
  },
  {
   "property": "C19",
   "status": "proved",
   "theorems": [
    "C19_union",
    "C19_each_once",
    "C19_all_filters",
    "C19_idempotent",
    "C19_collation_refuted"
   ],
   "note": "Assumes a locale in which only equal strings collate as equal; the refutation shows the loss otherwise."
  },
  {
   "property": "C20",
   "status": "proved",
   "theorems": [
    "C20_requested_only",
    "C20_history",
    "C20_one_write",
    "C20_braces_refuted"
   ],
   "note": "Names are compared as stored; a name requested in braces is not matched with the stored bare name (refuted with wire-level witness)."
  },
  {
   "property": "C21",
   "status": "partial",
   "theorems": [
    "C21_refused",
    "C21_performed",
    "C21_empty_name_refuted",
    "C21_quarantine_refuted",
    "C21_recipient_parameters_refuted"
   ],
   "note": "Both directions proved for header, sender, recipient and body calls; the quarantine call checks nothing, recipient parameters need no permission and an empty header name is silently ignored."
  },
  {
   "property": "C22",
   "status": "partial",
   "theorems": [
    "C22_session_partial",
    "C22_message_partial",
    "C22_abort_leak_refuted",
    "C22_empty_quarantine_refuted",
    "C22_progress_before_negotiation_refuted"
   ],
   "note": "Whole sessions of any length and any buffer size, up to the place of progress notifications, assuming the writer accepts, every end-of-message is answered before the next command and strings are valid; refuted for aborts during a pending end-of-message and for an empty quarantine reason."
  },
  {
   "property": "C23",
   "status": "partial",
   "theorems": [
    "C23_replace_body",
    "C23_empty_body_refuted",
    "C23_body_packet",
    "C23_body_prefix",
    "C23_body_complete",
    "C23_leak_refuted",
    "C23_refused_call_refuted"
   ],
   "note": "Filter side: proved, an empty replacement body is never sent.  Manager side: packets of at most 65535 bytes whose concatenation is a prefix of what was given, all of it once the filter has answered the packets; refuted for the rest of a body after a final answer and for a refused body call."
  },
  {
   "property": "C24",
   "status": "partial",
   "theorems": [
    "C24_no_second_command",
    "C24_answer_between_partial",
    "C24_refused",
    "C24_body_refuted",
    "C24_abort_refuted",
    "C24_failed_abort_refuted"
   ],
   "note": "Proved for all commands but body packets and between aborts; refuted for body packets, after an abort and after an abort that could not be written."
  },
  {
   "property": "C25",
   "status": "partial",
   "theorems": [
    "C25_modification",
    "C25_only_at_end_of_message",
    "C25_late_refuted"
   ],
   "note": "The stage is end of message from the delivery of that command on, so that modifications after the filter's final answer are still passed on (refuted part)."
  },
  {
   "property": "C26",
   "status": "proved",
   "theorems": [
    "C26_silent_after_quit",
    "C26_quit_lasts"
   ],
   "note": ""
  },
  {
   "property": "C27",
   "status": "partial",
   "theorems": [
    "C27_report",
    "C27_once_partial",
    "C27_late_edit_refuted",
    "C27_accept_refuted"
   ],
   "note": "Between two reports there is a message command, a stop, a refusal or an edit, if handlers of edits make no calls; refuted for one report per message."
  },
  {
   "property": "C28",
   "status": "partial",
   "theorems": [
    "C28_order",
    "C28_reports_partial",
    "C28_report_count_partial",
    "C28_agent_progress_partial",
    "C28_shutdown_refuted",
    "C28_forgotten_flush_refuted",
    "C28_forgotten_nested_refuted",
    "C28_flushed_after_error_refuted"
   ],
   "note": "Order, no loss and no duplication up to what the channel has taken are proved for every schedule and every behaviour of the signal handlers. Completion reports are proved for runs without write errors and shutdown; the refuted theorems show that a shutdown drops bytes, that flush requests are forgotten and that a flush is reported after a failed write."
  },
  {
   "property": "C29",
   "status": "partial",
   "theorems": [
    "C29_answered_once",
    "C29_not_before_all_answered",
    "C29_never_answered_twice",
    "C29_end_not_before_asked",
    "C29_end_answered_as_body_refuted",
    "C29_failure_while_writing_refuted",
    "C29_plain_reply_code_refuted",
    "C29_two_answers_refuted",
    "C29_late_accept_refuted"
   ],
   "note": "Proved for any number of filters, any earlier history, any interleaving of outcomes (verdict, timeout, error, close). Hypotheses: the filters asked are connected and idle, writes are not refused, no stop handler interferes, reply codes are acceptable to the MTA's context. The refuted theorems show what happens outside: no answer when a filter fails while the command is being written or gives a reply code without enhanced status code, two answers after the last filter is gone. That no command gets more responses than it was sent is proved without hypotheses."
  },
  {
   "property": "C30",
   "status": "partial",
   "theorems": [
    "C30_failure_is_fallback",
    "C30_failed_filter_is_out",
    "C30_failed_filter_is_ignored",
    "C30_later_filters_bypassed_refuted",
    "C30_late_edit_crash_refuted",
    "C30_closed_while_waiting_refuted"
   ],
   "note": "Proved for the commands that go to all filters. For the message content it is false: when a filter times out at the end of the message the filters behind it are bypassed, and a filter that closes its connection while another has the message is waited for without end."
  },
  {
   "property": "C31",
   "status": "partial",
   "theorems": [
    "C31_refusals_do_not_count",
    "C31_modifications_ignored",
    "C31_later_filters_bypassed_refuted",
    "C31_failure_counts_refuted",
    "C31_reply_code_shown_refuted"
   ],
   "note": "Proved for verdicts on the commands that go to all filters and for all modification requests. Refuted for a refusal of the message content (later filters are bypassed), for failures (the fallback counts) and for reply codes (shown to the MTA)."
  },
  {
   "property": "C32",
   "status": "partial",
   "theorems": [
    "C32_earlier_messages_do_not_count",
    "C32_refused_once_refused_ever_refuted",
    "C32_first_header_lost_refuted",
    "C32_header_of_earlier_message_refuted",
    "C32_body_skipped_for_ever_refuted"
   ],
   "note": "Proved for the commands that go to all filters, for any two histories. Refuted for the message content: a message refused at its end makes all later ones refused; the first header after an aborted message is lost; a header accepted early is given again in the next message; a skipped body is skipped for ever."
  },
  {
   "property": "C33",
   "status": "partial",
   "theorems": [
    "C33_filters_see_the_changes_partial",
    "C33_changes_passed_on",
    "C33_emptied_body_refuted",
    "C33_no_header_left_refuted",
    "C33_last_piece_refuted",
    "C33_added_body_refuted",
    "C33_replaced_for_ever_refuted"
   ],
   "note": "Proved for any number of filters that take the whole message and answer every command, any headers, body pieces and modification requests, evaluation mode included. Filters that accept or refuse early are in C81. Not covered: filters that decline commands, and body data sent with end-of-message. The refuted theorems show an emptied body, a message left without headers, data sent with end-of-message, a body given to a message without one, and the replaced flag leaking into later messages."
  },
  {
   "property": "C34",
   "status": "partial",
   "theorems": [
    "C34_accepted",
    "C34_accepts",
    "C34_rejects_partial",
    "C34_overread_refuted",
    "C34_given_table_refuted"
   ],
   "note": "Exactly the grammar is accepted; rejection without leaving the argument is proved for arguments without quotes and brackets and refuted for unterminated ones; a caller's own table ends up with freed strings."
  },
  {
   "property": "C35",
   "status": "partial",
   "theorems": [
    "C35_names_partial",
    "C35_rejects_partial",
    "C35_printed_back",
    "C35_long_path_refuted",
    "C35_large_port_refuted"
   ],
   "note": "Name lookup and address printing are parameters; refuted for socket paths over 107 bytes and ports from 2^32 on."
  },
  {
   "property": "C36",
   "status": "proved",
   "theorems": [
    "C36_modes",
    "C36_documented_refuted"
   ],
   "note": "The documented example u+rw is rejected."
  },
  {
   "property": "C37",
   "status": "partial",
   "theorems": [
    "C37_packets",
    "C37_commands",
    "C37_only",
    "C37_replies_partial",
    "C37_launch_partial",
    "C37_status_refuted",
    "C37_nul_refuted",
    "C37_launch_refuted",
    "C37_runs_on_refuted"
   ],
   "note": "Proved for any sequence and any cutting of the stream: commands with texts without NUL below 2^31 bytes; replies other than status below 2^24 bytes; launch requests with non-empty fields. Refuted outside: the status reply is not understood, NULs in a configuration, empty user names and command lines, packets of 2^24 bytes behind an error message."
  },
  {
   "property": "C38",
   "status": "partial",
   "theorems": [
    "C38_one_reply",
    "C38_truth_partial",
    "C38_reload_refuted",
    "C38_status_refuted"
   ],
   "note": "One reply always; truthful except for reload, which always claims success, and the status, which is a constant."
  },
  {
   "property": "C39",
   "status": "proved",
   "theorems": [
    "C39_one_reply",
    "C39_distinct",
    "C39_known_are_living"
   ],
   "note": "Hypothesis on the kernel for the last one: a pid of a living child is not given to another."
  },
  {
   "property": "C40",
   "status": "partial",
   "theorems": [
    "C40_definition",
    "C40_merge_partial",
    "C40_condition",
    "C40_ignored_refuted",
    "C40_not_kept_refuted",
    "C40_options_refuted"
   ],
   "note": "Per setting, with the conditions under which merging does what it should; refuted for fallback status and evaluation mode (ignored), and for enabled, timeouts, conditions and options not mentioned (not kept)."
  },
  {
   "property": "C41",
   "status": "partial",
   "theorems": [
    "C41_refused",
    "C41_conserved",
    "C41_has_accepted",
    "C41_late_refuted",
    "C41_hasty_refuted",
    "C41_accounting_partial",
    "C41_distinct_partial",
    "C41_has_accepted_partial",
    "C41_duplicates_refuted",
    "C41_second_refusal_refuted"
   ],
   "note": "Proved for every history in which no calls are made from within the report: recipients in any order, named again, named before the one before is answered, refused late. The lists together are the recipients named if no refusal comes before the first recipient of the message. That the data command passes over filters with no recipient left is part of C29. Refuted: a recipient named twice may be in two lists; a second refusal of one recipient crashes; a refusal after the report is charged to the next message; a recipient that was never sent is listed."
  },
  {
   "property": "C42",
   "status": "proved",
   "theorems": [
    "C42_stage_round_trip",
    "C42_stages"
   ],
   "note": ""
  },
  {
   "property": "C43",
   "status": "partial",
   "theorems": [
    "C43_answer_partial",
    "C43_honest_filters_partial",
    "C43_actions_refuted"
   ],
   "note": "Proved for every history, any filters, timing and failures: version, steps, and actions when the filters keep to the offer. Refuted for actions: a filter asking for more makes the manager ask for more."
  },
  {
   "property": "C44",
   "status": "partial",
   "theorems": [
    "C44_offered_partial",
    "C44_late_filter_refuted"
   ],
   "note": "Proved for every filter connected before any filter has answered (version capped at 6). Refuted for filters connected later: they are offered the option as changed by the earlier answers."
  },
  {
   "property": "C45",
   "status": "proved",
   "theorems": [
    "C45_message_processed",
    "C45_once_per_message"
   ],
   "note": ""
  },
  {
   "property": "C46",
   "status": "proved",
   "theorems": [
    "C46_first_decisive",
    "C46_undecided"
   ],
   "note": ""
  },
  {
   "property": "C47",
   "status": "partial",
   "theorems": [
    "C47_only_wanted",
    "C47_left_out_unwanted",
    "C47_command_of_call",
    "C47_data_before_negotiation_refuted"
   ],
   "note": "The rest of a body is sent without looking at the option again; the data call before a negotiation crashes."
  },
  {
   "property": "C48",
   "status": "partial",
   "theorems": [
    "C48_fits_stage",
    "C48_late_negotiation_refuted"
   ],
   "note": "Passing on is proved; that a misplaced negotiation answer has no effect is refuted."
  },
  {
   "property": "C49",
   "status": "proved",
   "theorems": [
    "C49_every_string",
    "C49_last_decides",
    "C49_untouched",
    "C49_unknown",
    "C49_enum"
   ],
   "note": ""
  },
  {
   "property": "C50",
   "status": "partial",
   "theorems": [
    "C50_pieces",
    "C50_everything",
    "C50_hangup_refuted",
    "C50_after_stop_refuted"
   ],
   "note": "Proved for every channel behaviour and every owner. Refuted: bytes that the peer sent before closing may not be handed over, and pieces are handed over after the owner stopped the reader."
  },
  {
   "property": "C51",
   "status": "proved",
   "theorems": [
    "C51_commands",
    "C51_replies"
   ],
   "note": "For every split on both sides. Hypotheses are those of C05: fields without NUL, negotiate first, packets below 2^31 bytes."
  },
  {
   "property": "C52",
   "status": "partial",
   "theorems": [
    "C52_exactly_partial",
    "C52_flow",
    "C52_body_refuted"
   ],
   "note": "Exactly the data without NUL before the last byte arrive; others are read outside of a copy."
  },
  {
   "property": "C53",
   "status": "partial",
   "theorems": [
    "C53_fresh_partial",
    "C53_platform_refuted",
    "C53_failed_reload_refuted"
   ],
   "note": "Evaluation of the files is a parameter. Refuted: a failed reload leaves an empty configuration; the platform once unset stays so."
  },
  {
   "property": "C54",
   "status": "partial",
   "theorems": [
    "C54_saved_is_loaded_partial",
    "C54_shadowed_refuted"
   ],
   "note": "Proved when existing custom files are writable; refuted otherwise."
  },
  {
   "property": "C55",
   "status": "proved",
   "theorems": [
    "C55_filters"
   ],
   "note": "Timeouts below zero are clamped."
  },
  {
   "property": "C56",
   "status": "partial",
   "theorems": [
    "C56_runs_as_partial",
    "C56_refused_refuted"
   ],
   "note": "Proved when the system grants the change; refuted when it does not."
  },
  {
   "property": "C57",
   "status": "partial",
   "theorems": [
    "C57_removed_partial",
    "C57_same_name_refuted"
   ],
   "note": "Proved for distinct names, which nothing enforces."
  },
  {
   "property": "C58",
   "status": "partial",
   "theorems": [
    "C58_callbacks_partial",
    "C58_content_partial",
    "C58_last_piece_lost_refuted"
   ],
   "note": "Proved for callbacks whose calls have a meaning; the exact sequence for sessions in order, the contents for any session. Refuted: without xxfi_eom the last piece of the body is lost."
  },
  {
   "property": "C59",
   "status": "partial",
   "theorems": [
    "C59_on_the_wire_partial",
    "C59_success",
    "C59_reply_success",
    "C59_negative_code",
    "C59_other_values",
    "C59_all_options_refuted",
    "C59_undefined_refuted"
   ],
   "note": "Proved for callbacks whose calls have a meaning, under the conditions of C22 on texts and reply codes. Refuted: SMFIS_ALL_OPTS is not answered; a missing code and a wrong body size are undefined behaviour."
  },
  {
   "property": "C60",
   "status": "partial",
   "theorems": [
    "C60_negotiation_partial",
    "C60_flags_refuted",
    "C60_default_refuted",
    "C60_context_refuted",
    "C60_symbols_refuted"
   ],
   "note": "Proved for what xxfi_negotiate chooses. Refuted: xxfi_flags are ignored, a filter without xxfi_negotiate takes the whole offer, xxfi_negotiate gets something else as its context, smfi_setsymlist has no effect."
  },
  {
   "property": "C61",
   "status": "partial",
   "theorems": [
    "C61_abort_partial",
    "C61_close",
    "C61_closed",
    "C61_unknown_refuted",
    "C61_lost_refuted",
    "C61_decided_refuted"
   ],
   "note": "Closing is proved for every history; aborts for sessions in order. Refuted: abort after an unknown command outside of a message, no abort when the connection is lost, abort after a verdict."
  },
  {
   "property": "C62",
   "status": "partial",
   "theorems": [
    "C62_lines_partial",
    "C62_one_line",
    "C62_nothing_to_say",
    "C62_refused",
    "C62_more_lines_refuted",
    "C62_passed_on_refuted",
    "C62_class_refuted"
   ],
   "note": "Acceptance and the text of the packet are proved. Refuted: a reply of more than one line is never an SMTP reply, a manager repeats the codes inside of it, a 4xx code is used for SMFIS_REJECT."
  },
  {
   "property": "C63",
   "status": "partial",
   "theorems": [
    "C63_accounting_partial",
    "C63_reports_all",
    "C63_accept_thread_refuted",
    "C63_thread_pool_refuted"
   ],
   "note": "Proved for the single loop and for workers, for fewer than 2^32 events (beyond that the counters wrap). Refuted for the accepting thread, which loses updates of the count, and for the thread pool, whose thread function swaps its arguments."
  },
  {
   "property": "C64",
   "status": "partial",
   "theorems": [
    "C64_limit",
    "C64_resumes_refuted"
   ],
   "note": "The limit is proved. Refuted: the connection that comes at the limit puts the only thread to sleep for ever."
  },
  {
   "property": "C65",
   "status": "proved",
   "theorems": [
    "C65_maintains"
   ],
   "note": "For the single loop and workers, fewer than 2^32 events."
  },
  {
   "property": "C66",
   "status": "partial",
   "theorems": [
    "C66_shutdown",
    "C66_keeps_running",
    "C66_closes_socket_partial",
    "C66_closes_socket_refuted"
   ],
   "note": "Proved for the single loop and workers unless the limit of connections was hit before. Refuted: a program that listened before it ran (milter-manager does) keeps the socket open."
  },
  {
   "property": "C67",
   "status": "partial",
   "theorems": [
    "C67_accept_failure_partial",
    "C67_accept_failure_refuted"
   ],
   "note": "Proved for the single loop below the limit. Refuted for workers: one failure and they take no connection ever again."
  },
  {
   "property": "C68",
   "status": "partial",
   "theorems": [
    "C68_in_place_partial",
    "C68_elsewhere",
    "C68_stop_partial",
    "C68_taken_over_refuted",
    "C68_failed_start_refuted",
    "C68_left_behind_refuted"
   ],
   "note": "Proved for daemons that have no path and port in common, and for allowed removals. Refuted otherwise: a second daemon takes over the socket of a running one, a failed start removes the PID file of a running one, a failed start leaves its socket behind."
  },
  {
   "property": "C69",
   "status": "proved",
   "theorems": [
    "C69_restart",
    "C69_needs_removal"
   ],
   "note": "For daemons that have no path and port in common, when the system allows the calls."
  },
  {
   "property": "C70",
   "status": "partial",
   "theorems": [
    "C70_dropped_partial",
    "C70_others",
    "C70_groups_refuted",
    "C70_owner_refuted"
   ],
   "note": "Proved when a group is configured. Refuted: without one the groups of root are kept; a socket that cannot be given to the user is no failure."
  },
  {
   "property": "C71",
   "status": "partial",
   "theorems": [
    "C71_order",
    "C71_rights",
    "C71_failure_partial",
    "C71_success",
    "C71_failure_refuted",
    "C71_custom_refuted"
   ],
   "note": "Settings are taken not to change between the loads. Refuted: a failure to run is reported as success; the custom configuration directory, which belongs to the effective user, is evaluated as root."
  },
  {
   "property": "C72",
   "status": "partial",
   "theorems": [
    "C72_known",
    "C72_freed_once",
    "C72_close_partial",
    "C72_close_refuted"
   ],
   "note": "Proved for every history, the end with the connection for sessions that have negotiated. Refuted: a connection that ends before negotiating is kept for ever."
  },
  {
   "property": "C73",
   "status": "partial",
   "theorems": [
    "C73_every_session",
    "C73_lost",
    "C73_off",
    "C73_on_partial",
    "C73_on_refuted"
   ],
   "note": "The bound is twice the number of batches of 30 sessions. Refuted: once a check ended the only session, later sessions are not checked until all have ended."
  },
  {
   "property": "C74",
   "status": "partial",
   "theorems": [
    "C74_kept_partial",
    "C74_packet_buffer_refuted",
    "C74_facility_refuted",
    "C74_mode_refuted"
   ],
   "note": "Proved for ten settings. Refuted: the packet buffer size is lost at a reload and never reaches a session; the facility of the system log is lost at a reload; mode 000 means no mode."
  },
  {
   "property": "C75",
   "status": "partial",
   "theorems": [
    "C75_files_partial",
    "C75_syslog_partial",
    "C75_syslog_refuted"
   ],
   "note": "Proved with the package platform and options kept (see C53). Refuted: the system log turned off and on again uses the facility of before."
  },
  {
   "property": "C76",
   "status": "partial",
   "theorems": [
    "C76_packet_buffer",
    "C76_n_workers_partial",
    "C76_max_pending_partial",
    "C76_account_partial",
    "C76_negative_refuted",
    "C76_empty_refuted",
    "C76_wraps_refuted"
   ],
   "note": "Exact for the packet buffer size. Refuted: negative numbers of workers and sessions are accepted as huge ones; nothing is the number 0, hence root; 4294967296 is root."
  },
  {
   "property": "C77",
   "status": "partial",
   "theorems": [
    "C77_starts",
    "C77_last_partial",
    "C77_meaning_partial",
    "C77_syslog",
    "C77_spec_refuted"
   ],
   "note": "Left out: mode 000. Refuted: a refused spec loses the one before."
  },
  {
   "property": "C78",
   "status": "partial",
   "theorems": [
    "C78_ids",
    "C78_life",
    "C78_refused",
    "C78_removal",
    "C78_stays_partial",
    "C78_stays_refuted"
   ],
   "note": "Proved for every history, the last for fewer than 2^32 sources. Refuted beyond: a callback that removed itself can destroy a source that got its ID."
  },
  {
   "property": "C79",
   "status": "partial",
   "theorems": [
    "C79_conditions",
    "C79_again_partial",
    "C79_errors_refuted",
    "C79_pri_refuted",
    "C79_zero_refuted"
   ],
   "note": "Proved for reading and writing. Refuted: errors and hangups are never reported, urgent data is reported as any data, a timer of interval 0 is called once only."
  },
  {
   "property": "C80",
   "status": "partial",
   "theorems": [
    "C80_run",
    "C80_iterate_partial",
    "C80_iterate_refuted"
   ],
   "note": "Runs are proved for every history. Refuted: a callback that iterates the loop itself spoils the value of the outer iteration."
  },
  {
   "property": "C81",
   "status": "partial",
   "theorems": [
    "C81_course_partial"
   ],
   "note": "Proved for any number of filters, evaluation mode included, any headers, body pieces, modification requests and any earlier history in which the envelope is done and nothing is pending. Missing: messages without headers, or without body when a filter is given one that another left; skip; filters that negotiated not to get or not to answer some commands; failures and timeouts during the content."
  },
  {
   "property": "C82",
   "status": "partial",
   "theorems": [
    "C82_reliable_partial"
   ],
   "note": "Proved for the courses of C81, with the same things missing."
  },
  {
   "property": "C83",
   "status": "partial",
   "theorems": [
    "C83_given_up",
    "C83_left_alone",
    "C83_body",
    "C83_body_refuted",
    "C83_late_progress_refuted"
   ],
   "note": "Proved for every history, with any handlers calling back. Refuted: no timeout runs for the answer to a body chunk, and a progress report after the final answer starts one. The lengths of the timeouts and the connection timeout are not modelled."
  },
  {
   "property": "C84",
   "status": "partial",
   "theorems": [
    "C84_mail_file",
    "C84_bad_address",
    "C84_bad_line",
    "C84_crash_partial",
    "C84_crash_refuted",
    "C84_nul_refuted",
    "C84_case_refuted",
    "C84_recipients_refuted",
    "C84_sender_twice_refuted",
    "C84_header_options_refuted"
   ],
   "note": "Proved for well formed mails without NUL. Refuted: a file starting with white space crashes the program; the mail ends at a NUL; lower case field names are not recognised; a field with several recipients gives one, with the comma; a sender given before and after the file is freed twice; equal --header options are reversed."
  },
  {
   "property": "C85",
   "status": "partial",
   "theorems": [
    "C85_report",
    "C85_headers",
    "C85_charset",
    "C85_made_partial",
    "C85_empty_body_refuted",
    "C85_insert_refuted",
    "C85_recipients_refuted"
   ],
   "note": "Proved for header names of one line. Refuted: a body replaced by nothing is shown as it was; a header inserted with an empty value crashes the program; after the deletion of a recipient those behind are marked as gone and new."
  },
  {
   "property": "C86",
   "status": "partial",
   "theorems": [
    "C86_conversation",
    "C86_macros_refuted",
    "C86_stalls_refuted",
    "C86_exit_refuted",
    "C86_code_refuted",
    "C86_shutdown_refuted",
    "C86_long_chunk_refuted"
   ],
   "note": "Proved for every course in which the filter answers in turn, chunks of at most 65535 bytes, at most one requested macro for a stage and no gap of unanswered commands. Refuted without: two requested macros hang the program; gaps stall it without a timeout; a longer chunk loses its rest; exit status and reply code do not follow the decision; a shutdown at the end of the message is told as pass."
  },
  {
   "property": "C87",
   "status": "partial",
   "theorems": [
    "C87_message",
    "C87_header_refused",
    "C87_macros",
    "C87_macro_refused",
    "C87_plan",
    "C87_timeouts_partial",
    "C87_end_of_message_timeout_refuted",
    "C87_empty_macro_refuted"
   ],
   "note": "Proved for every list of options; for messages with well formed mail files and no sender before and after one with a sender. Refuted: --end-of-message-timeout sets the writing timeout instead of its own; an empty macro argument is read out of bounds."
  },
  {
   "property": "C88",
   "status": "proved",
   "theorems": [
    "C88_macros",
    "C88_command_line"
   ],
   "note": "For every run of the program; the filter's macro requests name stages the protocol has requests for, as the reply decoder delivers them."
  },
  {
   "property": "C89",
   "status": "partial",
   "theorems": [
    "C89_who",
    "C89_level_strings",
    "C89_item_strings",
    "C89_string_calls",
    "C89_no_level",
    "C89_start",
    "C89_rotation",
    "C89_stdout",
    "C89_one_line",
    "C89_facility",
    "C89_one_line_refuted",
    "C89_level_property_refuted",
    "C89_two_syslogs_refuted",
    "C89_failed_path_refuted",
    "C89_failed_reopen_refuted",
    "C89_off_refuted",
    "C89_fatal_refuted",
    "C89_identity_refuted",
    "C89_syslog_follows_refuted"
   ],
   "note": "Proved for every history without levels set as GObject properties, without the reserved names of interesting levels and with one syslog logger at a time; outside of that refuted. Also refuted: one message is one line (a line break in it is written as it is), a failed change of path keeps the old one, turning the last level off turns logging off."
  },
  {
   "property": "C90",
   "status": "partial",
   "theorems": [
    "C90_document",
    "C90_injective",
    "C90_load",
    "C90_load_new",
    "C90_load_own",
    "C90_whole_refuted",
    "C90_user_refuted",
    "C90_command_refuted",
    "C90_fallback_refuted",
    "C90_condition_unknown",
    "C90_options_refuted",
    "C90_control_refuted"
   ],
   "note": "Proved for definitions a file can carry (valid non-empty spec, command together with options, one of the four fallback statuses of the configuration language, known conditions, no control characters). Refuted: the text of the whole configuration can be read back (it cannot when it has conditions or a modification time), user name and timeouts survive, a command without options can be read."
  },
  {
   "property": "C91",
   "status": "partial",
   "theorems": [
    "C91_lines",
    "C91_statement",
    "C91_statement_only",
    "C91_lookup",
    "C91_behaviour",
    "C91_error",
    "C91_variables",
    "C91_number",
    "C91_network",
    "C91_network_error",
    "C91_flags",
    "C91_after_block_refuted",
    "C91_twice_refuted",
    "C91_slash_refuted",
    "C91_flag_refuted",
    "C91_unbalanced_refuted",
    "C91_number_refuted"
   ],
   "note": "Proved as Postfix means it for tables in which nothing follows a block and answers without a dollar sign; C91_behaviour says exactly what happens for every well-nested table. Refuted: a rule after endif is independent of the block, captured text is not replaced again, an action may contain a slash and a space, the flags i and x mean something, unbalanced endif is a parse error, the reported line number. Regular expressions and addresses are parameters (any engine)."
  },
  {
   "property": "C92",
   "status": "partial",
   "theorems": [
    "C92_literal",
    "C92_read_back",
    "C92_settings",
    "C92_failed",
    "C92_read_back_refuted",
    "C92_stoppers_refuted",
    "C92_controller_refuted"
   ],
   "note": "Proved for settings a manager can have and filters with a connection spec, command options and one of the four fallback statuses. Refuted: without those the text cannot be read back; conditions stop nothing after reading; the controller's settings for removing its socket are the manager's. Which connection specs are valid and which log files can be opened are parameters."
  },
  {
   "property": "C93",
   "status": "partial",
   "theorems": [
    "C93_stopped",
    "C93_told",
    "C93_takes_part",
    "C93_objected",
    "C93_recorded",
    "C93_message_partial",
    "C93_set_macro",
    "C93_macro_name",
    "C93_message_refuted",
    "C93_set_macro_refuted",
    "C93_body_refuted"
   ],
   "note": "Proved for every session, who is stopped, told or passed over. Refuted: stopped at MAIL without an abort before it, a filter is told the rest of the message all the same; macros set at HELO are not told with it; a stopper of the body gets the condition's name instead of the chunk."
  },
  {
   "property": "C94",
   "status": "partial",
   "theorems": [
    "C94_conditions",
    "C94_refused",
    "C94_order",
    "C94_redefined_refuted",
    "C94_order_refuted"
   ],
   "note": "Proved for every configuration, with each condition as it was when the filter named it. Refuted: a redefinition does not reach filters that named the condition before; naming a filter again moves it behind the others."
  },
  {
   "property": "C95",
   "status": "partial",
   "theorems": [
    "C95_remote_network",
    "C95_s25r",
    "C95_s25r_lists",
    "C95_dnsbl",
    "C95_dnsbl_query",
    "C95_no_stress",
    "C95_stress_notify",
    "C95_authenticated",
    "C95_trust_partial",
    "C95_trust_form",
    "C95_sendmail",
    "C95_sendmail_id",
    "C95_trust_refuted"
   ],
   "note": "Proved for each condition; Trust for senders whose local part has no @. Refuted for quoted local parts and for trusted domains written with capital letters. Inclusion in a network, what DNS and netstat answer and the number of sessions are parameters."
  },
  {
   "property": "C96",
   "status": "partial",
   "theorems": [
    "C96_accounts_partial",
    "C96_account_list",
    "C96_accounts_refuted"
   ],
   "note": "Proved: which recipients are told, and that the content is kept back if and only if a recipient that is not restricted was not followed by macros for a recipient. Refuted: that the content is told if a restricted account is among the recipients."
  },
  {
   "property": "C97",
   "status": "partial",
   "theorems": [
    "C97_connect",
    "C97_helo",
    "C97_from",
    "C97_recipient",
    "C97_data",
    "C97_policies_refuted"
   ],
   "note": "Proved: exactly when a filter is stopped at each stage. Refuted: that a missing pattern does not matter, that a pattern for HELO has an effect, and that policies for other filters do not matter."
  },
  {
   "property": "C98",
   "status": "partial",
   "theorems": [
    "C98_answers",
    "C98_method",
    "C98_abort",
    "C98_received_partial",
    "C98_no_session",
    "C98_own_code_refuted",
    "C98_stored_reply_refuted",
    "C98_last_chunk_refuted",
    "C98_negotiate_refuted",
    "C98_fallback_refuted"
   ],
   "note": "Proved for every session and every sequence of commands; what is received under the hypotheses of C22 (everything can be written, no answer is left for later). Refuted: that the code of a refusal can be chosen without the extended code, that a later refusal has its own text, that the end of the body is given to the session, that a failed negotiation is answered, that any fallback status works."
  },
  {
   "property": "C99",
   "status": "proved",
   "theorems": [
    "C99_negotiation"
   ],
   "note": "For every offer and set of methods."
  }
 ]
}