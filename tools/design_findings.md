## Findings

Where a property is false of the code, a `_refuted` theorem gives a concrete run. The most important ones, and
others noticed while modelling (those without a theorem are marked †):

Policy evaluation and files
* A call for `@dispvm` by a qube without default_dispvm makes rule matching raise AttributeError when a
  `@dispvm:x` rule exists (C06_matching_total_refuted); an ask rule naming a missing disposable template does the same (C10_ask_total_refuted).
* `@dispvm` resolves to the default disposable template without checking template_for_dispvms † (F17).
* A caller named by uuid is not recognised as itself: loopback is allowed (C14_no_loopback_refuted).
* Printing a rule loses notify=, autostart=, and the wildcard service (C19_print_parse_refuted, C55_parameters_refuted).
* `!include //abs/path` leaves the policy directory † (F18). `!include-dir` of a directory makes the validation read include files as policy
  files (C83_include_dir_refuted) and can make a directory unchangeable (C83_stuck_refuted).
* A policy file read while being replaced: the temporary file `!NAME.policy` is loaded by others
  (C31_stopped_in_between_refuted); a directory with the name of a policy file leaves the temporary file behind (C27_directory_refuted).
* Registration of an argument accepts a service with `+`, or an empty one, and then no policy loads any more (C40_plus_refuted,
  C40_empty_refuted); an unterminated last line swallows the rule (C40_no_newline_refuted).
* The cached policy: changes between loading and setting up the watches are missed (C35_refuted); so are changes of
  permissions, of included files outside and a moved policy directory (C34_*_refuted).
* A notification can announce "allowed" before the call is denied (C73_announced_refuted).
* The dialog has no entry for `ask target=@dispvm` (C85_redirect_refuted); a change of the system after the click is not noticed (C54_changed_after_click_refuted).
* qrexec-policy-exec falls back with a stale policy source for remote calls (C58_fallback_refuted, C59_remote_refuted); `--path` is fatal (C38_path_option_dies).
* A source unknown to the system with notify=yes raises KeyError †.

Tools
* The legacy conversion loses denials, parameters, implicit denials for other arguments, and the order of rules split between files (C55_*_refuted); it cannot be
  taken back: restoring dies (C88_never_reverted_refuted), and nothing is offered if the converted policy does not load (C88_no_question_refuted).
* The graph misses calls, dies on missing qubes and with --service (C86_*_refuted).
* The linter: see C89_*_refuted; the editor checks include files always as `!include-service` files (C91_include_refuted).
* An empty list of include files is returned as one empty name (C33_empty_list_refuted).
* qrexec_policy_restore.py calls a function that does not exist †; ToposortMixIn.dfs does not sort †.
* `client.call_async` without input raises KeyError † (F60).
* qrexec-client ends with status 0 for unknown options (C94_unknown_option_refuted); qrexec-client-vm cuts names after 63 bytes (C93_long_target_refuted).

Daemon and agent
* A policy process killed by a signal: the call is never answered and its slot is lost; after 256 of these all calls are refused (C42_signal_refuted, C42_leak_refuted).
  A failed connect request and one that is read after the process ended are not answered either (C42_failed_connect_refuted, C42_success_first_refuted);
  the log message there reads one element behind the table when 255 calls are pending † (F24).
* Domain number 0xFFFFFFFF is taken for "unused port" (C41_all_ones_refuted).
* A disposable that was created but could not be started is not killed (C79_failed_start_refuted).
* An agent that announces a newer protocol still gets and sends messages of version 4 (C82_newer_agent_refuted).
* `..` as the name of a service designates the parent directory (C49_dotdot_refuted); a dangling link is skipped (C64_dangling_link_skipped).
* User names with a colon change the meaning of the command (C66_colon_in_user_refuted).
* A failed fork in the agent loses a command (C70_failed_fork_refuted); the 257th connection is never reported (C70_too_many_refuted);
  a command in its own session runs without waiting (C69_own_session_refuted).
* SIGUSR1 and the end of stdout can announce the end twice (C63_usr1_refuted); prefix data can be lost when the exit code comes first (C62_prefix_refuted).
* handle_service_refused closes an uninitialised descriptor if the identifier has no number † (F38); stderr of plain commands is duplicated to descriptor 0 † (F26);
  load_service_config (old interface) frees a wrong pointer † (F29); the command length limits of qrexec_execute_vm and the daemon differ by 8 †;
  `write` returning 0 makes flush_client_data loop †; EINTR is an error there †; wait_for_session_maybe waits for the wrong process id †;
  connect_unix_socket leaks a descriptor when the handshake fails †.
* A blank line of spaces in a service configuration file is refused (C67_blank_line_refused); unknown kinds of targets (C52_unknown_kind).
* The process that answers a call to dom0 reads a null pointer when the command line cannot be parsed (C95_unparsable_refuted), and so does
  qrexec-client -l when its local command cannot be started (C95_local_refuted).
* Users whose home directory has a name of more than 58 bytes cannot run anything (C96_long_home_refuted); `force-user` in the configuration of a
  dom0 service is accepted and ignored (C96_dom0_force_user_refuted).
* A remote exit code that is a multiple of 256 becomes exit status 0 of qrexec-client †; a fork server says nothing to anybody about a command it cannot parse †.
* qubes-policy-restore (qrexec_policy_restore.py) calls `parser.toposort`, which does not exist (toposort is a method of ToposortMixIn): it creates the
  directories and ends with an exception, nothing is ever restored †. ToposortMixIn itself puts sets into a set in toposort() and would raise too †.
* A dialog cannot return a target whose name is not ASCII (C97_no_answer): such a call is refused. A request with characters outside ASCII in its text is dropped.
* Waiting without a limit for a descriptor on which only POLLHUP is reported is a busy loop (C98_busy_refuted).
* call_async() without input (its default) or with a file always raises KeyError and runs nothing (C100_async_refuted): kwds.pop("input") without a default.
* A domain whose uuid is null in the answer of qubesd makes get_system_info raise TypeError for every call (only a missing uuid is caught); all calls fail, none is allowed.
* A daemon that notices late that its agent is gone (it waits for the qube to come back) removes the name and uuid links of the daemon of the
  restarted qube when it ends (C101_overlap_refuted): the new qube is then unreachable by name. A qube whose name is a number would take over the
  socket of the qube with that id (C101_number_refuted).
* `qrexec-daemon 4294967301 name` serves the domain with id 5, and so does `5abc` (C102_wrap_refuted). With QREXEC_STARTUP_NOWAIT failure is never reported.
* qubes.WaitForSession is started with the agent's other descriptors (C103_session_refuted).
* qubes.WaitForSession does not read the user's name that qrexec-agent (and dom0) writes to its standard input: it waits for the session of the default
  user, whatever user the call is for; the call of another user is then run without a session (C113_other_user_refuted). It takes a socket file as a
  server, also when the server has bound it but does not listen yet, or was killed (C113_listens_refuted). With an argument it complains and ends with status 0.
* Whether the session was reached is ignored by the agent: the calls held back are run whatever the status of qubes.WaitForSession.
* wait_for_session_maybe of the daemon waits for `local_pid` (0: any child of the process group) instead of the child it has started †.
* † The daemon reads from its clients with blocking calls and takes all messages of the agent before it
  turns to the clients: a local client that sends half a message, or an agent that sends without pause,
  keeps it from serving the others (C104 speaks of turns that come to an end).
* Sockets: get_server_socket and try_fork_server cut names at 107 bytes without an error (C107_long_refuted). A server with a longer name
  removes one name and binds another, so it cannot be started twice; two users whose names agree in the first 78 bytes get the same fork server,
  so the command for one is run by the other (C107_long_users_refuted; such names cannot be made with useradd). connect_unix_socket of qrexec-client-vm
  never writes the last byte of the address and takes its length with strlen (C107_trigger_refuted).
* A fork server whose accept fails removes the socket even if a newer server has taken it over (C107_successor_refuted). Any failure of accept
  (for example EMFILE) ends it.
* Long relative entries in QREXEC_SERVICE_PATH never work (C106_relative_refuted).
* qrexec-policy-graph opens (and empties) the file of --output before it reads the description of the system and the policy: a run that fails leaves
  an empty or unfinished drawing in place of the old one (C115_old_drawing_refuted); `--output F --system-info F` destroys F and always fails
  (C115_same_file_refuted); an output file inside the policy directory is read as an empty policy file in that run.
