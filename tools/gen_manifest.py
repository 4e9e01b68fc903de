"""Writes MANIFEST.json and rocq/_CoqProject."""
import json, os
C = []
def c(prop, status, theorems, note=""):
    C.append({"property": prop, "status": status, "theorems": theorems.split(), "note": note})

c("C01", "proved", "C01_verdict_from_first_match C01_no_match_denied C01_deny_decides C01_allow_decides C01_ask_decides C01_later_rules_irrelevant",
  "Columns naming a disposable template by uuid are excluded when the call target is @dispvm (see C05).")
c("C02", "proved", "C02_answer_authorised")
c("C03", "proved", "C03_fails_closed C03_policy_error_denied C03_system_error_denied C03_refused_call_denied C03_denied_call_denied",
  "Where the code raises another exception there is no answer at all.")
c("C04", "proved", "C04_token_grammar")
c("C05", "partial", "C05_target_column_partial C05_source_column C05_uuid_dispvm_refuted",
  "False of the code for @dispvm:uuid: columns against @dispvm calls; proved otherwise.")
c("C06", "partial", "C06_matching_total_partial C06_matching_total_refuted",
  "False of the code for @dispvm calls by qubes without default_dispvm.")
c("C07", "proved", "C07_C08_calls C07_unknown_is_default")
c("C08", "proved", "C07_C08_calls C08_only_relay")
c("C09", "proved", "C09_choices")
c("C10", "partial", "C10_ask_total_partial C10_ask_total_refuted", "False of the code when a rule names a disposable template that does not exist.")
c("C11", "proved", "C11_default_offered")
c("C12", "proved", "C12_answer_binding C12_grants_choice")
c("C13", "partial", "C13_offered_grantable_partial C13_offered_grantable_refuted", "False of the code for redirects to @dispvm or missing qubes.")
c("C14", "partial", "C14_no_loopback_partial C14_no_loopback_refuted C14_ask_never_offers_caller", "False of the code for uuid: designations of the caller.")
c("C15", "proved", "C15_no_autostart C15_answer_says_so")
c("C18", "proved", "C18_rule_grammar C18_rules_wf")
c("C19", "partial", "C19_print_parse_partial C19_spelled_partial C19_print_parse_refuted", "False of the code for notify=, autostart= and the wildcard service.")
c("C20", "proved", "C20_loaded_policy C20_unique C20_shadowing C20_listing_order")
c("C21", "proved", "C21_bad_name_refused C21_missing_dir_refused C21_only_policy_files C21_ignored")
c("C22", "proved", "C22_malformed_refused C22_unreadable_refused C22_legacy_lines C22_rules_of_all_lines")
c("C23", "proved", "C23_in_place C23_as_if_written C23_same_decision")
c("C24", "proved", "C24_confined")
c("C25", "partial", "C25_decided_by_own_file C25_allow_comes_from_own_file C25_dialog_partial C25_dialog_dom0_refuted",
  "False of the code for the dialog entry dom0 of an ask rule; everything else is proved.")
c("C26", "proved", "C26_inert C26_insert_line C26_add_blanks")
c("C27", "partial", "C27_error_changes_nothing_partial C27_directory_refuted",
  "False of the code when the name designates a directory (the temporary file stays); proved otherwise.")
c("C28", "partial", "C28_replace C28_replace_include_partial C28_remove C28_read_only C28_get_after_replace C28_temp_name_refuted",
  "Proved for policy files, Remove and the reading services; false of the code for include files when a file named !NAME exists.")
c("C29", "proved", "C29_replace_token C29_remove_token C29_token_meaning C29_history C29_log_total C29_no_lost_update")
c("C30", "proved", "C30_changes_confined C30_get_confined C30_names C30_no_argument C30_no_payload C30_unknown_service", "No symbolic links in the model.")
c("C31", "partial", "C31_old_or_new C31_include_loads_partial C31_stopped_in_between_refuted",
  "Old-or-new content is proved at every stage; that the tree loads is false of the code for policy files (temporary file !NAME.policy), proved for include files.")
c("C32", "partial", "C32_replace_loads_partial C32_remove_loads_partial C32_upper_case_refuted C32_carriage_return_refuted C32_legacy_include_refuted C32_temp_name_refuted",
  "Proved under four side conditions, each shown necessary by a counterexample of the code.")
c("C33", "partial", "C33_get_sound C33_get_complete C33_replace C33_remove C33_list_partial C33_list_given C33_get_files_partial C33_empty_list_refuted",
  "False of the code for the list of an empty directory; file names with line breaks excluded.")
c("C16", "proved", "C16_allow_understood C16_deny_understood C16_every_answer C16_allow_needs_allow C16_exactly_allow C16_exactly_deny")
c("C17", "proved", "C17_request_understood C17_no_injection")
c("C36", "proved", "C36_answers_valid_requests C36_invalid_ignored C36_one_reading",
  "The 64 KiB line limit of the reader is not modelled. A last line cut off by the end of the stream is accepted as a complete line (this is what the code does).")
c("C37", "proved", "C37_evaluation_service C37_quiet C37_never_prompts")
c("C38", "proved", "C38_exit_status C38_path_option_dies", "The --path option makes the program fail before evaluating anything.")
c("C39", "partial", "C39_python_sanitisers C39_c_sanitiser C39_cleaning C39_strict C39_services_agree_partial C39_agree_refuted",
  "Everything but the agreement of the alphabets is proved; that is false of the code for colons in targets and at signs in services.")
c("C43", "proved", "C43_headers C43_other_headers_stop C43_handshake C43_service_messages")
c("C44", "proved", "C44_identifiers C44_service_names C44_identifier_kept")
c("C51", "proved", "C51_dom0_agrees C51_dom0_names")
c("C57", "proved", "C57_only_authorised_calls_run C57_authorised_calls_run C57_uuid",
  "Policies naming disposable templates by uuid in the target column are excluded (C05).")
c("C58", "partial", "C58_fallback_partial C58_fallback_refuted",
  "False of the code for calls on behalf of a remote qube; proved otherwise.")
c("C59", "partial", "C59_deprecated_mode_partial C59_remote_refuted",
  "False of the code for remote qubes; proved otherwise.")
c("C56", "partial", "C56_offered_agree_partial C56_offered_agree_refuted", "False of the code for dom0 and disposables.")

c("C41", "partial", "C41_exclusive_partial C41_one_peer C41_pair C41_available C41_all_ones_refuted",
  "Proved for all histories in which no local client names domain 0xFFFFFFFF (which the code takes for the mark of an unused port); false of the code otherwise.")
c("C42", "partial", "C42_at_most_once C42_no_replay C42_connection_needs_call C42_answered_partial C42_refused_at_once C42_table C42_signal_refuted C42_leak_refuted C42_failed_connect_refuted C42_success_first_refuted",
  "At most one answer: proved for all histories. At least one: false of the code when the policy process is killed, when a connect request fails, or when it is read after the process has ended; proved otherwise.")
c("C60", "proved", "C60_forwarded")

c("C45", "proved", "C45_fifo C45_no_abort C45_early_abort", "C45_early_abort: the limit applies to old and new copy together, so removing may abort at half the limit")
c("C46", "proved", "C46_prefix C46_drains")
c("C47", "proved", "C47_write_all C47_read_all C47_copy_fd_all C47_copy_succeeds C47_send_succeeds C47_sendmsg_all C47_vchan C47_read_to_malloc C47_write_running C47_read_running C47_copy_running C47_send_running C47_malloc_running C47_vchan_running")
c("C48", "proved", "C48_sender C48_receiver C48_roundtrip")
c("C61", "proved", "C61_from_service C61_from_client", "with prefix data the client's direction is proved until the exit code of the service is received; C62_prefix_refuted shows what happens then")
c("C62", "partial", "C62_service_sends C62_client_gets_partial C62_exit_code_travels C62_return_value C62_prefix_refuted", "refuted for clients with prefix data not yet sent when the exit code arrives; the service sends everything if reads are not reset and exit-on-stdin-eof is not set")
c("C63", "partial", "C63_bounded C63_one_eof_partial C63_usr1_refuted", "refuted for a service that sends SIGUSR1 and closes stdout: the end can be announced twice")
c("C49", "partial", "C49_command_lines C49_other_lines_refused C49_unambiguous C49_name_limit C49_search_stays_inside_partial C49_dotdot_refuted",
  "Parsing is proved completely; the search uses entries of the configured directories only, but . and .. count as entries, so a call of the service .. is taken for the parent directory.")
c("C50", "proved", "C50_ports")
c("C52", "proved", "C52_direct C52_shell C52_nothing_else C52_no_abort C52_refused_status",
  "The login shell is modelled as an interpreter of the fragment of POSIX sh that the script uses; the profile may change the environment arbitrarily but not the positional parameters.")
c("C64", "proved", "C64_sound C64_complete C64_absent", "Completeness for paths below the 1024 byte limit of the code. The file system does not change during the search.")
c("C65", "proved", "C65_only_configured C65_fixed_host")
c("C66", "partial", "C66_in_a_qube_partial C66_in_dom0_partial C66_colon_in_user_refuted", "False of the code for user names with a colon in the policy; calls with more than 65000 bytes or names of more than 255 bytes are refused by the receiving side.")
c("C67", "proved", "C67_config_file C67_unambiguous C67_unknown_keys C67_blank_line_refused", "C67_blank_line_refused: a line of blanks only makes the file malformed (this is what the code does).")
c("C68", "proved", "C68_configuration C68_no_mix C68_bad_file_refused", "For paths below the 1024 byte limit of the code. The file system does not change during the search.")
c("C69", "proved", "C69_exactly_once C69_session_end C69_at_once C69_waits", "C69_own_session_refuted: the session waited for may be that of another user whose call came first. The death of the agent and failures of malloc are not modelled.")
c("C70", "proved", "C70_ends_reported C70_balance", "The two conditions are needed: C70_failed_fork_refuted (entries of failed forks are never released) and C70_too_many_refuted.")
c("C71", "proved", "C71_socket_number C71_connect_socket C71_answer_to_caller C71_forwarded", "Composed with the daemon's side (DaemonAgent). That the daemon sends back the identifier unchanged between handle_message_from_agent and its answer is by construction of the messages in the statement.")
c("C72", "proved", "C72_when C72_fork_server", "The write to the server is assumed complete (else the command is run without it).")
c("C73", "partial", "C73_granted_partial C73_denied C73_user_refuses C73_evaluation_silent C73_announced_refuted", "C73_announced_refuted: with notify=yes a call can be announced as allowed and then be denied (loopback, or a relayed call).")
c("C74", "proved", "C74_text C74_installed utf8_spec")
c("C75", "proved", "C75_stderr_copied")
c("C76", "proved", "C76_service_ends C76_client_ends C76_not_before C76_peer_gone")
c("C77", "proved", "C77_command C77_other_times")
c("C78", "proved", "C78_end_told C78_only_then", "The kernel is assumed to give new connections descriptors that are not in use.")
c("C79", "partial", "C79_keyword C79_kills_only_created C79_killed_at_the_end_partial C79_failed_start_refuted", "C79_failed_start_refuted: a disposable that was created but could not be started is not killed. An answer of the wrong type by the daemon of the target makes the program abort.")
c("C80", "proved", "C80_no_autostart C80_started_only_if_not_running C80_killed_only_by_wrong_answer C80_messages C80_to_the_target C80_number_of_caller C80_callers_distinct")
c("C81", "proved", "C81_same_connection", "For domain numbers below 2^31 and identifiers of at most 31 characters (the size of the field). That a daemon answers its client with its own domain and the port is written_to_client in SpecMeet.v.")
c("C82", "proved", "C82_only_hello C82_agent_and_dom0 C82_two_agents C82_own C82_control C82_data C82_tool_connects C82_daemon_takes", "On the control connection only for agents that are not newer than the daemon: C82_newer_agent_refuted (the daemon repeats the version of the agent).")
c("C83", "partial", "C83_replace_accepted_partial C83_remove_accepted_partial C83_replace_iff_partial", "For contents without carriage return, no file with the name of the temporary file, no legacy file that reads the changed file; for include files only if no line includes their directory as a whole (C83_include_dir_refuted: the validator then reads the include file as policy text); removal only of names the loader accepts (C83_stuck_refuted: a file that blocks the policy by its name cannot be removed).")
c("C34", "partial", "C34_current_partial C34_source C34_no_old_policy C34_watched C34_cached C34_notified", "C34_watched (which directories), C34_cached and C34_notified (when it loads), C34_source and C34_no_old_policy hold for all histories. That the answer is what the files now mean (C34_current_partial) is proved for changes below the watched directories that are not only changes of permissions; not for permissions (C34_permissions_refuted), files included from elsewhere (C34_outside_refuted), nor the directories themselves (C34_moved_directory_refuted).")
c("C35", "partial", "C34_current_partial C35_lazy", "False as it stands: a change between loading and setting up the watches is missed (C35_refuted). Proved: nothing is missed if no change falls in between (C34_current_partial), or with lazy_load=True, which the daemon does not use (C35_lazy).")
c("C40", "partial", "C40_outcome C40_registers_partial C40_others_unaffected C40_registered_allowed C40_once C40_at_most_once C40_plus_refuted C40_empty_refuted C40_no_newline_refuted C40_shadowed_refuted",
  "Every call: success only for a good argument not registered yet, one line appended, else nothing changes (C40_outcome, unconditional). The policy then is the old one plus exactly this rule, provided the service is a plain word without plus, the file has whole lines, is not shadowed in /run and not included elsewhere; each condition is shown to be needed by a counterexample.")

c("C53", "proved", "C53_no_reaction C53_allowed C53_button C53_reacts", "GTK events and GLib timers are arbitrary, except that time does not go back and timers do not go off early.")
c("C54", "proved", "C54_listed C54_answers C54_obeyed C54_changed_after_click_refuted", "The target allowed is one of the list, selected when the window is closed; the daemon obeys the answer. It need not be the one selected at the time of the click, as GTK closes the window later (C54_changed_after_click_refuted).")
c("C84", "proved", "C84_escaped C84_dialog C84_notification", "GLib.markup_escape_text is modelled for ASCII text without NUL; bytes above 127 are kept.")
c("C85", "partial", "C85_selectable C85_default C85_offered_partial C85_nothing_to_choose C85_names C85_redirect_refuted", "Proved for rules without target=, when the default disposable template of the caller is a template for disposables. False for ask target=@dispvm: the dialog has no entry for it, the user can only refuse (C85_redirect_refuted).")

c("C86", "partial", "C86_sound C86_complete_partial loaded_cols C86_empty_argument_refuted C86_gone_qube_refuted C86_service_option_refuted C86_loop_refuted C86_fails", "C86_sound and C86_complete_partial hold whenever the program ends normally; C86_complete_partial excepts arguments not mentioned by the rules of a service that has a rule for the empty argument (C86_empty_argument_refuted: such calls are not shown). The program dies for ask target= a qube that is gone (C86_gone_qube_refuted) and with --service if a rule for all services exists (C86_service_option_refuted). Calls of a qube to itself are shown although they are refused later (C86_loop_refuted). The hypothesis on the rules holds of all rules that load (loaded_cols).")
c("C55", "partial", "C55_kept_partial C55_only_old C55_text C55_old_files_off lines_erase C55_argument_refuted C55_parameters_refuted C55_denial_refuted C55_input_refuted C55_order_refuted", "The claim is false. C55_kept_partial: a rule of the old files is written, or has the same text (or the same file and line) as a rule in the new files, or is or follows a rule that denies the service to all, or is not the first rule for an input device of a qube. C55_only_old: only rules of the old files are written, in order for each file and service. C55_text: what is written reads back as those rules, before what was in the file, unless a rule has other parameters notify= or autostart= than the default, an empty user= or an empty service. C55_old_files_off: afterwards the old files have no effect. Not preserved, each with a witness: the implicit denials of files for one argument (unnoticed by the check of the tool), parameters autostart= and notify= (unnoticed), denials to all, input rules for other arguments, the order of rules of a service that go to two files.")
c("C87", "proved", "C87_nothing_lost", "")
c("C88", "partial", "C88_restored_partial C88_without_question_partial C88_question C88_never_reverted_refuted C88_left_behind_refuted C88_no_question_refuted", "The claim is false: the tool never gets back (C88_never_reverted_refuted, for all inputs): it dies when it tries to remove an old file that it has renamed. C88_restored_partial: the files in the new format that were there are as before; the old ones stay put aside and new files stay. C88_left_behind_refuted: what was denied before is then allowed. C88_no_question_refuted: no question is asked if the converted policy does not load. C88_without_question_partial: if there is no question, each call that was let through looks (caller, destination, service, argument and action of the rule, question or not) like one that is let through now, and the other way round; C88_question: if there is one, the graphs differ.")
c("C89", "partial", "C89_faults_reported C89_only_faults_partial C89_total C89_clean_loads C89_fault_refused C89_service_faults_reported C89_service_only_faults C89_service_total C89_service_clean_loads C89_service_fault_refused C89_exit C89_status C89_printed C89_relative_path_refuted C89_deeper_path_refuted C89_old_include_refuted C89_include_dir_refuted C89_main_refuted C89_recursion_refuted C89_second_file_refuted", "Proved for included paths as they are usually written (a name, or include/ and a name); with other paths right lines are reported or the tool dies (C89_relative_path_refuted, C89_deeper_path_refuted, C89_old_include_refuted, C89_recursion_refuted). Wrong lines that are not reported: C89_include_dir_refuted (only with -i), C89_main_refuted. Of several faulty files only the first is reported (C89_second_file_refuted); the exit code is right.")
c("C90", "partial", "C90_place_partial C90_redirect_refuted C90_letters_refuted", "C90_place_partial: exactly for the rules of the form (fits), but for the exceptions listed in fits_not: calls for a disposable that are sent elsewhere (C90_redirect_refuted: the check looks at target= only if there is none), questions with the letters allow in a name (C90_letters_refuted), questions for input devices with another default.")
c("C91", "proved", "C91_saved C91_quit C91_failed C91_saves C91_include_refuted", "A file of ordinary rules that is included with !include cannot be saved: the linter is always run as for !include-service (C91_include_refuted); the property holds since it speaks of what the linter accepts.")
c("C92", "proved", "C92_list_partial C92_get C92_replace C92_remove C92_failed C92_usage C92_round_trip", "C92_list_partial: file names without line breaks, at least one file (with none, an empty line is printed).")

c("C93","partial","C93_command_line C93_call_partial C93_answer C93_option_names C93_exit_status C93_python_in_vm C93_python_refuses C93_python_in_dom0 C93_python_local C93_long_target_refuted",
  "Proved for names of at most 63 bytes; longer targets and sources are cut silently (C93_long_target_refuted; C93_call_partial says to what). The outcome of C93_call_partial is tied to the answer of the daemon by C71_answer_to_caller.")
c("C94","partial","C94_command_line_partial C94_any_arguments C94_option_names C94_exit_status C94_unknown_option_refuted",
  "Proved except for the last clause: an unknown option ends the program with status 0 (C94_unknown_option_refuted).")
c("C95","partial","C95_started C95_agent_tells C95_just_exec C95_dom0_started C95_dom0_tells_partial C95_no_connection C95_caller_returns C95_unparsable_refuted C95_local_refuted C95_local_takes_part",
  "C95_dom0_tells_partial: command lines that can be parsed. For others (for example a service name of more than 255 bytes) the process that answers for dom0 crashes (cmd->cmdline is read from a null pointer), and the caller gets no exit code: C95_unparsable_refuted. qrexec-client -l crashes the same way whenever its local command cannot be started: C95_local_refuted. C95_caller_returns is about a caller whose loop ends normally (not by an error on the connection).")
c("C96","partial","C96_runs_as_named C96_or_not_at_all C96_runs_partial C96_not_root C96_status C96_which_user C96_fork_server C96_dom0_user C96_long_home_refuted C96_dom0_force_user_refuted",
  "Not every user: one with a home directory of more than 58 bytes (shell: 57, name: 55) can run nothing (C96_long_home_refuted), C96_runs_partial is about the others. A user named in the configuration of a dom0 service is ignored (C96_dom0_force_user_refuted). PAM, getpwnam and the system calls are the environment of the model; that a fork server belongs to the user its socket is named after is assumed. Socket services are connected to by the agent itself.")
c("C97","proved","C97_local C97_asked C97_shown C97_header C97_only C97_understood C97_answer C97_no_answer C97_both C97_json C97_unambiguous C97_roundtrip",
  "JSON is specified by its grammar (SpecJson). The header of a remote request is from qrexec-agent: C97_header (a service whose configuration suppresses it gets no answer). Targets with characters outside ASCII cannot be answered: the call is refused.")
c("C98","proved","C98_limit C98_no_limit C98_result C98_no_abort C98_start C98_busy_refuted C98_abort",
  "Observation (C98_busy_refuted): without a limit, a descriptor that is ready with POLLHUP only keeps the program busy.")
c("C99","proved","C99_answer C99_info C99_only C99_cut C99_unavailable C99_safe C99_question C99_call C99_call_unambiguous",
  "C99_info discharges the hypothesis wf_info of the theorems about the policy. Simplified: a member of the wrong kind is an exception at once; Python raises when it is used. Answers outside ASCII are not modelled (json.dumps in qubesd writes ASCII).")
c("C100","partial","C100_call C100_async_partial C100_async_refuted",
  "False of the code for call_async: without input, or with a file, it raises KeyError and runs nothing (C100_async_refuted). For bytes and text it is equal to call().")
c("C101","proved","C101_reachable C101_starts C101_clean C101_only_own C101_race C101_overlap_refuted C101_number_refuted",
  "Both conditions are needed: C101_overlap_refuted (the daemon of the qube's previous run removes the links of the new one) and C101_number_refuted. Failures of symlink() are only logged by the code and are not modelled.")
c("C102","proved","C102_ready C102_order C102_own_status C102_works C102_nowait C102_command_line C102_option_names C102_number C102_wrap_refuted C102_limit C102_connect",
  "With QREXEC_STARTUP_NOWAIT success is reported at once (C102_nowait). A number outside the range of an int is read as another one and text after a number is ignored (C102_wrap_refuted).")
c("C103","proved","C103_service C103_starts C103_login C103_just_exec C103_policy_program C103_local_program C103_session C103_session_refuted C103_checked C103_refuses C103_goes_on C103_check_needed C103_local_starts C103_just_exec_starts C103_policy_starts C103_session_starts",
  "The condition on the standard descriptors holds for all five programs (C103_checked) and is needed (C103_check_needed). qubes.WaitForSession, which is not a call, inherits descriptors of the agent (C103_session_refuted). Kernels without close_range: descriptors from 256 on must be close-on-exec.")
c("C104","proved","C104_turn C104_history C104_room C104_space C104_served C104_new_apart",
  "Failures of the vchan inside a handler are not modelled. C104_new_apart assumes that accept does not give the number of an open descriptor. A turn has a finite number of messages of the agent: one that sends without pause keeps the loop in 1809 busy.")
c("C105","proved","C105_turn C105_own C105_room","Failures of the vchan inside a handler are not modelled.")
c("C106","proved","C106_right_server C106_connects C106_short C106_clean C106_relative_refuted","For absolute names. A long relative name, possible only if QREXEC_SERVICE_PATH has relative entries, is never reached (C106_relative_refuted).")
c("C107","partial","C107_serves_partial C107_only_its_name C107_long_refuted C107_trigger C107_trigger_refuted C107_fork_server_partial C107_long_users_refuted C107_successor_refuted C107_which",
  "Names of more than 107 bytes are cut silently (C107_long_refuted: the server is not found and cannot be started again), so two users with the same first 78 bytes in their names share a fork server (C107_long_users_refuted). A fork server that ends removes the socket of its successor (C107_successor_refuted). The address used by qrexec-client-vm is uninitialised from byte 107 on (C107_trigger_refuted).")
c("C108","proved","C108_one C108_each","The contents of connections are events; that reading from one of them does not come to an end is not modelled.")
c("C109","proved","C109_rules C109_decides C109_writers_read C109_nobody C109_default_denies","The installed files are written into the model line by line (ShippedPolicy). Whoever may write may read: for calls that are allowed without asking, and when no other rules come before.")
c("C110","proved","C110_command_line C110_format C110_fork_server C110_default_server C110_empty C110_no_fork_server C110_sigterm C110_ends C110_only_its_name C110_serves C110_next C110_handlers C110_statuses C110_broken","For names of at most 107 bytes (see C107 for longer ones). Other programs do not change names meanwhile. Templates other than %s once and %% have no defined meaning in C.")
c("C111","proved","C111_service_knows C111_allowed_runs C111_from_the_caller","Composition of C93, C71, C43, C17, C57 and C66. A colon in a user name of the policy breaks it (C66_colon_in_user_refuted), so these are excluded (well_set_up). The connection over which the data of the call flows is C53 and following. Fallback when the policy daemon does not answer: see C58.")
c("C112","proved","C112_both_ends","Composition of C57, C66, C81 and C111 with the steps of the two agents, with the same conditions as C111. Domain numbers below 2^31, descriptors below 2^31, and default users without a colon. That the two messages are delivered unchanged by the vchan to the agents is assumed. For calls to dom0 see C111 and C95.")
c("C113","partial","C113_waits C113_first_time_there C113_does_not_wait C113_finds_session_partial C113_other_user_refuted C113_listens_refuted","The script ignores its standard input, on which the agent writes the name of the user: it always waits for the default user, so the call of another user is run without his session (C113_other_user_refuted). Waiting ends when there is a file of the name of the socket, even if no server listens there, yet or any more (C113_listens_refuted). Given an argument it complains, but ends with status 0 (C113_does_not_wait). Users of at most 73 bytes. What systemctl does is an event.")
c("C114","proved","C114_both_ends C114_same_connection C114_identifier_sent C114_nothing_without_the_daemon","Composition of C57, C66 and C111 with run_qrexec_to_dom0 from its first line (Dom0Call.v), the daemon's handler and the agent's step; same conditions as C111; domain numbers and descriptors below 2^31. The 32 bytes of the identifier are any that hold it. That the daemon's answer reaches the program unchanged is a hypothesis (answer = written_to_client ...). A daemon that ends the call (C114_same_connection, second case) has written nothing. An answer with another message type kills the program by its assert.")
c("C115","partial","C115_to_a_file C115_to_stdout C115_failure_partial C115_old_drawing_refuted C115_same_file_refuted","The file for the output is opened, and emptied, before the description of the system and the policy are read: a run that fails after that leaves it empty or with the beginning of a drawing (C115_failure_partial, C115_old_drawing_refuted), and with the same file as --system-info the description is lost (C115_same_file_refuted). The policy, too, is read with that file already empty (load f1 in C115_to_a_file), which matters if it is a file of the policy. Paths without links; reading JSON, qubesd and the policy loader are parameters (the loader is modelled elsewhere); writing does not fail.")
ORDER = """Base SysInfo Token Rule Policy PolicyExec FileSys Loader Admin SpecPolicy SpecRule SpecLoader SpecAdmin
TokenProofs MatchProofs EvalProofs AskProofs ExecProofs SysInfoProofs RuleProofs RulePrint Props_Policy
TextProofs LoaderProofs SelectProofs LoaderExt Props_Loader
AdminProofs AdminLoad Props_Admin
Sanitize PolicyDaemon DaemonPolicy DaemonAgent SpecDaemon SpecAgent SpecCall
SanitizeProofs DaemonProofs EvalSvc AgentProofs CallProofs ExecTool Props_Daemon
DaemonState SpecState StateProofs CallsProofs Props_State
Io IoProofs Stream SpecStream StreamProofs RemoteProofs ProcessIo SpecPio ProcessIoProofs PioProofs Props_Stream Props_Pio
Exec SpecExec SpecLookup ExecCProofs LookupProofs EnvProofs Props_Exec
Toml SpecToml TomlProofs Props_Toml
Agent SpecMain MainProofs TriggerProofs Props_Main
SpecUtf8 Utf8Proofs SpecNotify Props_Notify Props_More Props_Ends Props_Clients
SpecPortEnd PortEnd ExecuteVm SpecVm Props_Vm SpecMeet Props_Meet Handshake Props_Handshake AdminAccept Props_Accept
Cache Props_Cache Props_Watch
RegisterArgument SpecRegister RegProofs Props_Register Props_Also
Dialog SpecDialog DialogProofs Props_Dialog
Graph SpecGraph GraphProofs LoadAll Props_Graph LineLoader Convert SpecConvert ConvertProofs ConvertText ConvertFs ConvertRun Props_Convert Props_ConvertEx
Lint SpecLint LintProofs Props_Lint SpecPlace Props_Place
Editor SpecEditor Props_Editor Props_Cli
ClientTools SpecClient ClientProofs Props_Client Props_Options
Spawn SpecSpawn SpawnProofs Props_Spawn Login SpecLogin Props_Login Json SpecJson JsonProofs Server SpecServer Props_Server VchanTimeout SpecTimeout Props_Timeout Qubesd SpecQubesd Props_Qubesd PyClient Props_PyClient
SocketDir SpecSocketDir Props_SocketDir DaemonStart SpecDaemonStart Props_DaemonStart Fds SpecFds Props_Fds
DaemonLoop SpecDaemonLoop Props_DaemonLoop AgentLoop SpecAgentLoop Props_AgentLoop
SpecAnswer Props_Answer Props_Running Props_GraphEnds
UnixSocket SpecSocket Props_Socket
ShippedPolicy Props_Shipped
AgentStart SpecAgentStart Props_AgentStart
SpecEndToEnd Props_EndToEnd Props_WholeCall
WaitSession Props_Session Dom0Call Props_Dom0Call GraphFile Props_GraphFile""".split()
if __name__ == "__main__":
    root = os.path.dirname(os.path.dirname(os.path.abspath(__file__)))
    C.sort(key=lambda x: x["property"])
    json.dump({"claims": C}, open(os.path.join(root, "MANIFEST.json"), "w"), indent=1)
    have = {f[:-2] for f in os.listdir(os.path.join(root, "rocq/theories")) if f.endswith(".v")}
    assert have == set(ORDER), have ^ set(ORDER)
    with open(os.path.join(root, "rocq/_CoqProject"), "w") as f:
        f.write("-Q theories Verif\n\n" + "".join("theories/%s.v\n" % m for m in ORDER))
    props = {json.loads(l)["id"] for l in open(os.path.join(root, "properties.jsonl"))}
    print("missing:", sorted(props - {x["property"] for x in C}))
