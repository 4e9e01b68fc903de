{"id": "C01", "title": "First matching rule decides", "statement": "The verdict on a call is the verdict of the first rule, in load order, whose service, argument, source and target columns match the call; when no rule matches the call is denied. Rules after the first match cannot turn a deny into anything else, nor change what an allow rule grants.", "quantifier": "every rule list, every call, every system description", "why_tests_cant": "an unbounded number of policies; tests sample a few dozen", "anchors": ["qrexec/policy/parser.py: AbstractPolicy.find_matching_rule, AbstractPolicy.evaluate, Rule.is_match"]}
{"id": "C02", "title": "No allow without authority", "statement": "Whenever policy evaluation of a call answers result=allow, the first matching rule is an allow rule, or it is an ask rule and the target chosen by the user (or assumed) is one of the offered targets; the target named in the answer is the rule's redirect, the call's own target or the chosen target, with @adminvm written as dom0 and @dispvm replaced by the caller's default disposable template.", "quantifier": "every policy, call, system description and user answer", "why_tests_cant": "security property over all policies and all answers of an untrusted or confused agent", "anchors": ["qrexec/policy/parser.py: Allow.evaluate, Ask.evaluate, AllowResolution.execute, AskResolution.handle_user_response", "qrexec/tools/qrexec_policy_exec.py: handle_request"]}
{"id": "C03", "title": "Evaluation fails closed", "statement": "If loading the policy, validating the request or evaluating it is refused for any reason, the answer of the evaluation service is exactly result=deny; every answer it gives is either result=deny or an allow answer produced by an allow resolution.", "quantifier": "every policy text, call, system description and user answer", "why_tests_cant": "universal over error paths", "anchors": ["qrexec/tools/qrexec_policy_exec.py: handle_request"]}
{"id": "C04", "title": "Token grammar per column", "statement": "A source, target, redirect or requested-target field is accepted exactly when it is a non-empty plain name, or one of the keywords documented for that position (with a non-empty value, not itself starting with @, after a prefix keyword); an accepted token prints back as exactly the text it was parsed from.", "quantifier": "all strings in each of the four positions", "why_tests_cant": "infinite set of strings", "anchors": ["qrexec/policy/parser.py: VMToken.__new__, Source, Target, Redirect, IntendedTarget"]}
{"id": "C05", "title": "Meaning of source and target columns", "statement": "A column matches a qube exactly according to its documented meaning: a plain name or uuid: matches that qube under either designation, @adminvm/dom0/the zero uuid match only dom0, @anyvm matches everything except dom0, * matches everything, @type:/@tag: match existing qubes with that type/tag, @default and @dispvm match only themselves, @dispvm:NAME and @dispvm:@tag: match disposable requests whose template is NAME / carries the tag.", "quantifier": "all tokens, qubes and system descriptions in which evaluation does not crash", "why_tests_cant": "quantifies over all system descriptions", "anchors": ["qrexec/policy/parser.py: VMToken.match and its overrides, match_strings, is_dom0"]}
{"id": "C06", "title": "Rule matching never crashes", "statement": "Deciding whether a rule matches a call always yields yes or no.", "quantifier": "all rules, calls and well-formed system descriptions", "why_tests_cant": "absence of exceptions for every input", "anchors": ["qrexec/policy/parser.py: DispVMTemplate.match, DispVMTag.match, Rule.is_match"]}
{"id": "C07", "title": "Unknown and invalid targets", "statement": "A call to a qube that does not exist is evaluated as a call to @default; a call to @dispvm:NAME is refused unless NAME is an existing template for disposables; an empty target means @default.", "quantifier": "all calls and system descriptions", "why_tests_cant": "universal over inputs", "anchors": ["qrexec/policy/parser.py: IntendedTarget.verify, DispVMTemplate.verify, Request.__init__"]}
{"id": "C08", "title": "Only the relay may speak for a remote qube", "statement": "A call made on behalf of another source is evaluated with that source only if it exists, is a RemoteVM and names the actual caller as its relay; in every other case the call is refused; without such a claim the source is the actual caller.", "quantifier": "all calls, claimed sources and system descriptions", "why_tests_cant": "authorisation property over all inputs", "anchors": ["qrexec/policy/parser.py: Request.__init__"]}
{"id": "C09", "title": "Choices offered for ask", "statement": "The targets offered to the user by an ask rule without redirect are exactly those for which, among the rules matching service, argument and source, the first rule whose target specification covers that target is not a deny rule, after resolving @dispvm and @adminvm and removing the caller itself and internal qubes.", "quantifier": "all rule lists, calls and system descriptions (when collection does not crash)", "why_tests_cant": "set-valued result over arbitrary rule lists", "anchors": ["qrexec/policy/parser.py: AbstractPolicy.collect_targets_for_ask"]}
{"id": "C10", "title": "Ask evaluation never crashes", "statement": "Evaluating an ask rule yields a list of choices or a refusal, whatever other rules are in the policy.", "quantifier": "all policies, calls, well-formed system descriptions", "why_tests_cant": "absence of exceptions for every policy", "anchors": ["qrexec/policy/parser.py: DispVMTemplate.expand, AbstractPolicy.collect_targets_for_ask"]}
{"id": "C11", "title": "Default choice is offered", "statement": "The preselected choice of an ask dialog is either absent or one of the offered targets, and at least one target is offered.", "quantifier": "all ask rules, calls and system descriptions", "why_tests_cant": "universal over policies", "anchors": ["qrexec/policy/parser.py: Ask.evaluate, AskResolution.__init__"]}
{"id": "C12", "title": "The user's answer is binding", "statement": "After ask, a negative, malformed or out-of-list answer always ends in denial, and a positive one grants exactly the chosen target, with the user= and autostart= of the ask rule.", "quantifier": "all ask resolutions and all answer strings of the policy agent", "why_tests_cant": "the answer is an arbitrary string from another qube", "anchors": ["qrexec/policy/parser.py: AskResolution.handle_user_response, AllowResolution.from_ask_resolution", "qrexec/tools/qrexec_policy_exec.py: AgentAskResolution.execute"]}
{"id": "C13", "title": "Every offered choice can be granted", "statement": "If the user picks one of the offered targets, the call is allowed to that target.", "quantifier": "all ask resolutions", "why_tests_cant": "universal over policies and system descriptions", "anchors": ["qrexec/policy/parser.py: Ask.evaluate, AllowResolution.execute"]}
{"id": "C14", "title": "No loopback", "statement": "No call is ever allowed with the caller itself as target, under any designation of the caller.", "quantifier": "all policies, calls and system descriptions", "why_tests_cant": "universal over policies", "anchors": ["qrexec/policy/parser.py: AllowResolution.execute"]}
{"id": "C15", "title": "autostart=no", "statement": "An allow granted by a rule with autostart=no always names dom0 or a qube that is running according to the system description, never a new disposable, and says autostart=False; targets offered by an ask rule with autostart=no obey the same restriction.", "quantifier": "all policies, calls, system descriptions", "why_tests_cant": "universal over policies", "anchors": ["qrexec/policy/parser.py: ActionType.allow_no_autostart, Allow.evaluate, Ask.evaluate"]}
{"id": "C16", "title": "Policy answer is understood by the daemon", "statement": "Every allow answer produced by policy evaluation for fields without line breaks is parsed by the qrexec daemon as allow with the same user, target, requested target, autostart flag, and (when present) target uuid, service and policy source; every deny answer is parsed as deny.", "quantifier": "all resolutions with newline-free fields", "why_tests_cant": "cross-language protocol agreement for every value", "anchors": ["qrexec/policy/parser.py: AllowResolution.execute", "daemon/qrexec-daemon.c: parse_policy_response"]}
{"id": "C17", "title": "Daemon request is understood by the policy daemon", "statement": "For every call with sanitised names, the request text written by the qrexec daemon is parsed by the policy daemon into exactly the source, intended target, service and claimed source that were sent; no value can inject another request field.", "quantifier": "all domain names, targets, service descriptors after sanitisation", "why_tests_cant": "injection freedom for all inputs", "anchors": ["daemon/qrexec-daemon.c: send_request_to_daemon", "qrexec/tools/qrexec_policy_daemon.py: handle_client_connection"]}
{"id": "C18", "title": "Rule line grammar", "statement": "A policy line is accepted as a rule exactly when it has at least five fields, valid service and argument, valid tokens, a known action and only distinct, known parameters with valid values for that action, and is not an allow rule for @default without redirect; the rule carries exactly those fields.", "quantifier": "all lines", "why_tests_cant": "infinite input space", "anchors": ["qrexec/policy/parser.py: Rule.from_line, Rule.__init__, validate_service_and_argument"]}
{"id": "C19", "title": "Printed rules mean the same", "statement": "Printing a rule and parsing the text again gives an equivalent rule.", "quantifier": "all rules", "why_tests_cant": "round trip for all rules", "anchors": ["qrexec/policy/parser.py: Rule.__str__, Allow.__str__, Ask.__str__", "qrexec/tools/qrexec_legacy_convert.py"]}
{"id": "C20", "title": "Policy directories: shadowing and order", "statement": "A policy file name present in several policy directories is taken only from the first directory that has it, files are loaded in byte order of their names whatever directory they come from, and the result does not depend on directory listing order.", "quantifier": "all directory contents and listing orders", "why_tests_cant": "all permutations of listings, arbitrary numbers of files", "anchors": ["qrexec/policy/parser.py: filter_filepaths, AbstractFileSystemLoader.load_policy_dirs"]}
{"id": "C21", "title": "Bad file names stop the load", "statement": "Files without the .policy suffix, hidden files and non-files are ignored; if any remaining file name has a character outside [0-9a-z_.-] the whole load is refused; no rule is taken from a subset of the files.", "quantifier": "all directory contents", "why_tests_cant": "universal over directory contents", "anchors": ["qrexec/policy/parser.py: filter_filepaths"]}
{"id": "C22", "title": "Policy loading is all-or-nothing", "statement": "If any line of any file reached by the load (directly or through includes) is malformed, the load as a whole is refused; if it succeeds, the policy contains the rules of every line of every loaded file, in order.", "quantifier": "all file sets", "why_tests_cant": "arbitrary include trees", "anchors": ["qrexec/policy/parser.py: AbstractParser.load_policy_file, AbstractFileLoader.handle_include"]}
{"id": "C23", "title": "Includes are spliced in place", "statement": "The rules of an included file appear exactly at the place of the include directive, and including a file behaves as if its lines were written there.", "quantifier": "all include trees that terminate", "why_tests_cant": "arbitrary nesting", "anchors": ["qrexec/policy/parser.py: AbstractFileLoader.handle_include, handle_include_dir, load_policy_dir"]}
{"id": "C24", "title": "Service includes are confined", "statement": "Every rule that comes from a service-specific include has the service and argument named by the include directive, so it can never match another service or argument, whatever the file says.", "quantifier": "all included files and nesting", "why_tests_cant": "security property over untrusted file contents", "anchors": ["qrexec/policy/parser.py: load_policy_file_service, handle_include_service, Rule.from_line_service"]}
{"id": "C25", "title": "Legacy argument-specific policy is final", "statement": "With !compat-4.0, a legacy policy file for SERVICE+ARGUMENT fully decides calls with that argument made by qubes: no later rule, in particular none from the argument-less legacy file or from later policy, can allow such a call to a qube, a disposable, the default target or dom0.", "quantifier": "all legacy directories, calls from sources other than dom0", "why_tests_cant": "universal over directory contents", "anchors": ["qrexec/policy/parser_compat.py: Compat40Parser.execute, _sorted_compat_files"]}
{"id": "C26", "title": "Comments and blank lines are inert", "statement": "Adding or removing empty lines, comment lines and leading or trailing blanks never changes the loaded rules.", "quantifier": "all policy texts", "why_tests_cant": "all positions and contents", "anchors": ["qrexec/policy/parser.py: AbstractParser.load_policy_file"]}
{"id": "C27", "title": "Failed admin request changes nothing", "statement": "A policy administration request that ends in an error leaves every file of the policy tree unchanged.", "quantifier": "all file trees, requests", "why_tests_cant": "all error paths", "anchors": ["qrexec/policy/admin.py: PolicyAdmin.handle_request, _common_replace, _common_remove"]}
{"id": "C28", "title": "Admin requests touch only the named file", "statement": "A successful Replace leaves exactly the given content under the named file and every other file unchanged; a successful Remove removes exactly the named file; List, Get and GetFiles change nothing; Get after Replace returns the content and its token.", "quantifier": "all file trees and requests", "why_tests_cant": "frame property over the whole tree", "anchors": ["qrexec/policy/admin.py: _common_replace, _common_remove, _common_get, _common_list"]}
{"id": "C29", "title": "Tokens prevent lost updates", "statement": "In any history of serialised admin requests, a Replace or Remove carrying a sha256 token succeeds only if the file still has the content that token was computed from (up to hash collisions), and one carrying token new succeeds only if the file does not exist.", "quantifier": "all histories of requests by any number of clients", "why_tests_cant": "histories and interleavings", "anchors": ["qrexec/policy/admin.py: _check_token, _lock, compute_token"]}
{"id": "C30", "title": "Admin paths are confined", "statement": "Every file created, replaced, read or removed through Get/Replace/Remove lies directly in the policy directory (with suffix .policy) or directly in its include directory, whatever the argument.", "quantifier": "all argument strings", "why_tests_cant": "path traversal resistance for all strings", "anchors": ["qrexec/policy/admin.py: _get_path"]}
{"id": "C31", "title": "Replace is crash-safe", "statement": "If the machine stops at any point during Replace, the named file has either its complete old or complete new content and the policy tree can still be loaded.", "quantifier": "every crash point, every tree and content", "why_tests_cant": "crash points", "anchors": ["qrexec/policy/admin.py: _common_replace", "qrexec/policy/parser.py: filter_filepaths"]}
{"id": "C32", "title": "Validated changes load", "statement": "After a successful Replace or Remove the policy directory still loads without error.", "quantifier": "all trees and requests", "why_tests_cant": "agreement between validator and loader for all contents", "anchors": ["qrexec/policy/admin.py: _validate", "qrexec/policy/parser.py: ValidateParser, FilePolicy"]}
{"id": "C33", "title": "Admin client and server agree", "statement": "What the client library returns for policy_get, policy_list and policy_get_files is the content/token and the lists the server holds, and policy_replace installs the given content under the given token.", "quantifier": "all names, contents and trees", "why_tests_cant": "round trip for all contents", "anchors": ["qrexec/policy/admin_client.py: PolicyClient", "qrexec/policy/admin.py"]}
{"id": "C34", "title": "Cached policy is current", "statement": "A policy served by the policy daemon reflects every file change whose notification was delivered before the request; a failed reload is never papered over with an older policy.", "quantifier": "all interleavings of file changes, notifications and requests", "why_tests_cant": "schedules", "anchors": ["qrexec/policy/utils.py: PolicyCache.get_policy, PolicyWatcher"]}
{"id": "C35", "title": "No change is missed at start-up", "statement": "A policy change made after the policy daemon has started is eventually reflected in its answers.", "quantifier": "all interleavings of start-up steps and file changes", "why_tests_cant": "schedules", "anchors": ["qrexec/policy/utils.py: PolicyCache.__init__, initialize_watcher"]}
{"id": "C36", "title": "Policy socket protocol", "statement": "The policy daemon answers a request only if every line is a distinct known field with valid value and source, target and service are present; it writes at most one answer, and never interprets one field as another.", "quantifier": "all byte streams on the socket", "why_tests_cant": "arbitrary input streams", "anchors": ["qrexec/tools/qrexec_policy_daemon.py: handle_client_connection"]}
{"id": "C37", "title": "EvalGUI is limited to the GUI provider", "statement": "policy.EvalGUI answers only if both qubes exist and carry the guivm- tag of the caller; policy.EvalSimple and EvalGUI never prompt the user nor notify, and answer only requests with well-formed names.", "quantifier": "all requests, callers and system descriptions", "why_tests_cant": "authorisation over all inputs", "anchors": ["qrexec/tools/qrexec_policy_daemon.py: qrexec_policy_eval"]}
{"id": "C38", "title": "Exit code of qrexec-policy-exec", "statement": "The exit status of an evaluation is 0 exactly when the answer is allow; in particular nothing in the call can make a denied call report success.", "quantifier": "all answers", "why_tests_cant": "injection freedom over all field values", "anchors": ["qrexec/tools/qrexec_policy_exec.py: main, get_result"]}
{"id": "C39", "title": "Sanitisers", "statement": "Sanitising yields only allowed characters, leaves allowed strings unchanged, is idempotent, preserves length, and the Python and C sanitisers agree on allowed characters; strict mode refuses exactly the strings that would change.", "quantifier": "all strings", "why_tests_cant": "infinite domain, two implementations", "anchors": ["qrexec/utils.py: _sanitize_name, _sanitize_char", "daemon/qrexec-daemon.c: sanitize_name"]}
{"id": "C40", "title": "Argument registration", "statement": "policy.RegisterArgument adds exactly one allow rule for the given service, argument, frontend and backend, only if no rule for that exact service and argument exists and the argument is 1..64 valid characters; afterwards the policy still loads.", "quantifier": "all calls and policy states", "why_tests_cant": "universal over file contents", "anchors": ["qubes-rpc-dom0/policy.RegisterArgument"]}
{"id": "C41", "title": "Vchan ports are exclusive", "statement": "No data-channel port is handed out twice before it is released, the daemons of the two ends of a pair of qubes never hand out the same port for that pair, and a port can be released only for the peer it was allocated to.", "quantifier": "all histories of connections and terminations, all domain id pairs", "why_tests_cant": "unbounded histories of two independent daemons", "anchors": ["daemon/qrexec-daemon.c: allocate_vchan_port, release_vchan_port, handle_cmdline_body_from_client"]}
{"id": "C42", "title": "Every service call is answered at most once", "statement": "Each pending service call of a qube receives exactly one of connection or refusal once its policy process has ended or its connection was requested, and a connection is granted only for a request identifier that is pending; it cannot be replayed.", "quantifier": "all histories of triggers, policy child exits and client connections", "why_tests_cant": "schedules", "anchors": ["daemon/qrexec-daemon.c: handle_execute_service, handle_cmdline_body_from_client, reap_children"]}
{"id": "C43", "title": "Agent messages are checked", "statement": "A message header from an agent is processed only if its type is allowed for the negotiated protocol version and its length is within the bounds of that type.", "quantifier": "all headers", "why_tests_cant": "all 32-bit field combinations", "anchors": ["daemon/qrexec-daemon.c: sanitize_message_from_agent, handle_agent_hello"]}
{"id": "C44", "title": "Request identifiers and service names", "statement": "A request identifier from an agent is accepted exactly if it is NUL terminated, has only allowed characters before and only NUL bytes after the first NUL; a service name is accepted exactly if it is non-empty, does not start with + and is not too long.", "quantifier": "all byte arrays", "why_tests_cant": "all inputs", "anchors": ["daemon/qrexec-daemon.c: validate_request_id, validate_service_name, sanitize_name"]}
{"id": "C45", "title": "Buffer is a FIFO", "statement": "Bytes leave the stdin buffer in the order they were appended, none lost or duplicated, and the memory accounting never exceeds the limit.", "quantifier": "all sequences of append and remove", "why_tests_cant": "unbounded operation sequences", "anchors": ["libqrexec/buffer.c"]}
{"id": "C46", "title": "Stream integrity towards the local process", "statement": "Whatever the schedule of partial writes, would-block conditions and new data, the bytes written to the local process are a prefix of the bytes received, and all of them once buffering drains.", "quantifier": "all schedules of write results", "why_tests_cant": "schedules", "anchors": ["libqrexec/write-stdin.c: write_stdin, flush_client_data"]}
{"id": "C47", "title": "Exact I/O helpers", "statement": "write_all reports success only after the whole buffer was written in order, read_all only after exactly the requested number of bytes was read, for any pattern of short reads, short writes and interruptions.", "quantifier": "all schedules of syscall results", "why_tests_cant": "schedules", "anchors": ["libqrexec/ioall.c: write_all, read_all, qubes_read_all_to_malloc"]}
{"id": "C48", "title": "Message framing", "statement": "The payload bytes carried by stdin/stdout messages are the bytes read, in order, each message within the limit of the protocol version; end of input is signalled by exactly one empty message; the receiver reconstructs the stream.", "quantifier": "all byte streams and chunkings", "why_tests_cant": "all chunkings", "anchors": ["libqrexec/remote.c: handle_input_v2, handle_remote_data_v2"]}
{"id": "C49", "title": "Service command parsing", "statement": "A QUBESRPC command line is split into service descriptor, service name, argument and source domain exactly as documented, over-long or malformed lines being refused; the search for a service implementation never leaves the configured directories by name.", "quantifier": "all command strings", "why_tests_cant": "all inputs", "anchors": ["libqrexec/exec.c: parse_qubes_rpc_command, find_file"]}
{"id": "C50", "title": "Port validation", "statement": "A TCP port string is accepted exactly if it is the canonical decimal representation of a number in 1..65535.", "quantifier": "all strings", "why_tests_cant": "all inputs", "anchors": ["libqrexec/exec.c: validate_port"]}
{"id": "C51", "title": "dom0 is dom0 everywhere", "statement": "The policy engine and the daemon agree on which target names mean dom0.", "quantifier": "all strings", "why_tests_cant": "two implementations", "anchors": ["qrexec/policy/parser.py: is_dom0", "daemon/qrexec-daemon-common.c: target_refers_to_dom0"]}
{"id": "C52", "title": "Environment of services", "statement": "Services started by qrexec see none of the environment variables reserved for qrexec from the caller's environment; the reserved variables they see are the ones set for this call.", "quantifier": "all environments", "why_tests_cant": "all inputs", "anchors": ["libqrexec/exec.c: should_strip_env_var, exec_qubes_rpc2"]}
{"id": "C53", "title": "Focus stealing protection", "statement": "The confirmation dialog reacts to the allow button only when the window has had focus continuously for the required time, whatever the sequence of focus, timer and key events.", "quantifier": "all event sequences", "why_tests_cant": "schedules", "anchors": ["qrexec/tools/qrexec_policy_agent.py: FocusStealingHelper, GtkOneTimerHelper"]}
{"id": "C54", "title": "Confirmation returns only whitelisted targets", "statement": "The policy agent's dialog confirms only targets from the list sent by the policy engine.", "quantifier": "all inputs typed by the user", "why_tests_cant": "all inputs", "anchors": ["qrexec/tools/qrexec_policy_agent.py: VMListModeler, RPCConfirmationWindow"]}
{"id": "C55", "title": "Lossless legacy conversion", "statement": "Converting the old policy to the new format keeps every rule: each rule of the old files is written to a file in the new format, in the same order for each service, and reads back as the same rule; nothing else is written, and the old files have no effect afterwards. So every call is decided as before.", "quantifier": "all old and new policy files, all calls", "why_tests_cant": "all inputs", "anchors": ["qrexec/tools/qrexec_legacy_convert.py: main, split_input_rules, RuleWrapper"]}
{"id": "C56", "title": "Offered choices agree with direct calls", "statement": "A target is offered by an ask dialog exactly when a direct call to that target by the same caller would be decided by a rule that is not a deny rule.", "quantifier": "all policies, callers and targets", "why_tests_cant": "all inputs", "anchors": ["qrexec/policy/parser.py: AbstractPolicy.collect_targets_for_ask, AbstractPolicy.find_matching_rule"]}
{"id": "C57", "title": "Only authorised calls run", "statement": "Whatever bytes a qube's agent sends, the daemon runs a command for it only if the policy engine decided in favour of exactly that call (caller, target, service and argument, claimed remote source), and then it runs the decided service at the decided target as the decided user on behalf of the decided caller; a decision in favour is carried out, a refusal ends the call with status 126.", "quantifier": "all agent messages, policies, systems, user answers and behaviours of a failing fallback", "why_tests_cant": "the composition of sanitising, request text, evaluation, answer text and parsing must hold for every input", "anchors": ["daemon/qrexec-daemon.c: handle_message_from_agent, connect_daemon_socket, parse_policy_response, handle_execute_service_child", "qrexec/tools/qrexec_policy_daemon.py: handle_client_connection"]}
{"id": "C58", "title": "Fallback evaluation is equivalent", "statement": "When qrexec-policy-daemon is unavailable, the fallback evaluation by qrexec-policy-exec authorises exactly the same call, including the remote qube on whose behalf it is made.", "quantifier": "all calls, policies and systems", "why_tests_cant": "all inputs", "anchors": ["daemon/qrexec-daemon.c: connect_daemon_socket", "qrexec/tools/qrexec_policy_exec.py: get_result"]}
{"id": "C59", "title": "Deprecated run mode runs the decided call", "statement": "qrexec-policy-exec invoked with a domain id and a process ident starts qrexec-client only if the call was allowed, for the decided target, user and service; a refusal exits with status 1.", "quantifier": "all calls, policies and systems", "why_tests_cant": "all inputs", "anchors": ["qrexec/tools/qrexec_policy_exec.py: get_result"]}
{"id": "C60", "title": "Commands are forwarded unchanged", "statement": "What the daemon sends to an agent as a command is what one client sent: same type, peer domain and text, except that the user DEFAULT in front of a command is replaced by the default user; the announced length is that of the text; the port is the one the client named, in the range of data ports, or the one handed out to it.", "quantifier": "all states of the daemon and all events", "why_tests_cant": "all inputs and all reachable states", "anchors": ["daemon/qrexec-daemon.c: handle_cmdline_body_from_client"]}
{"id": "C61", "title": "End-to-end stream integrity", "statement": "While the data connection is alive and the socket switch (SIGUSR1) is not used, what the client's end has written to its local process is at any time a prefix of what the service wrote to stdout, and what the service got on stdin is a prefix of what the client sent (its prefix data first), whatever the schedules of both ends; nothing is lost, duplicated, reordered or mixed with stderr.", "quantifier": "all pairs of schedules of the two ends (short reads and writes, would-block, signals, hang-ups), all data", "why_tests_cant": "the space of interleavings and chunkings is unbounded", "anchors": ["libqrexec/process_io.c: qrexec_process_io", "libqrexec/remote.c: handle_remote_data_v2, handle_input_v2", "libqrexec/write-stdin.c: write_stdin, flush_client_data"]}
{"id": "C62", "title": "Exit code comes last and is delivered", "statement": "A service's exit code is sent once, after all its output and exactly one end of each stream; a client that got it returns exactly that code, having delivered the complete output.", "quantifier": "all pairs of schedules of the two ends, all data and exit codes", "why_tests_cant": "the space of interleavings and chunkings is unbounded", "anchors": ["libqrexec/process_io.c: qrexec_process_io", "libqrexec/remote.c: send_exit_code, handle_remote_data_v2"]}
{"id": "C63", "title": "Bounded memory and single end of stream", "statement": "An end of a call keeps at most one chunk in memory for a local process that does not read, and never aborts for lack of it; it announces the end of each stream at most once.", "quantifier": "all schedules of one end, whatever the peer sends", "why_tests_cant": "the space of schedules is unbounded", "anchors": ["libqrexec/process_io.c: qrexec_process_io", "libqrexec/remote.c: handle_remote_data_v2", "libqrexec/buffer.c: buffer_append, buffer_remove"]}
{"id": "C64", "title": "Which implementation of a service runs", "statement": "A call of SERVICE+ARG is served by the first entry named SERVICE+ARG in the configured directories, in their order, and only if there is none by the first one named SERVICE: a socket is connected to (and greeted with the command unless the service is configured otherwise), an executable is run; the call fails as not found exactly if there is no such entry.", "quantifier": "all file systems, search paths and calls", "why_tests_cant": "all inputs and file system contents", "anchors": ["libqrexec/exec.c: find_file, find_qrexec_service"]}
{"id": "C65", "title": "TCP services connect only where configured", "statement": "A call leads to a TCP connection only if the entry found is a link to /dev/tcp; the connection goes to the host and port in the link, parts missing there being taken from the argument, and an argument is refused if nothing is missing; the port is a number in 1..65535.", "quantifier": "all file systems, links and arguments", "why_tests_cant": "all inputs and file system contents", "anchors": ["libqrexec/exec.c: find_qrexec_service, qubes_tcp_connect"]}
{"id": "C66", "title": "The service learns who called it", "statement": "A service started for an allowed call sees as QREXEC_REMOTE_DOMAIN, QREXEC_SERVICE_FULL_NAME and QREXEC_SERVICE_ARGUMENT the caller, service and argument that the policy decided on, in dom0 also the requested target, and runs as the user that the policy decided on.", "quantifier": "all allowed calls, environments and login profiles", "why_tests_cant": "it spans policy engine, daemon, agent and shell, for all inputs", "anchors": ["daemon/qrexec-daemon.c: handle_execute_service", "libqrexec/exec.c: parse_qubes_rpc_command, exec_qubes_rpc2", "agent/qrexec-agent.c: do_exec"]}
{"id": "C67", "title": "Service configuration is read strictly", "statement": "A service configuration file is accepted exactly if every line is empty, a comment or key = value in the supported subset of TOML, there is no NUL byte, and each known key occurs at most once with a value of its type; then exactly the settings stated are in effect, everything else has its default; unknown keys change nothing.", "quantifier": "all file contents", "why_tests_cant": "the space of file contents is unbounded", "anchors": ["libqrexec/toml.c: qubes_toml_config_parse, parse_toml_value"]}
{"id": "C68", "title": "Which configuration governs a call", "statement": "The settings of a call of SERVICE+ARG come from the first file SERVICE+ARG in the configuration directories, and only if there is none from the first file SERVICE; without either the defaults apply. An unreadable or malformed file refuses the call, and so does a file that forces a user together with a setting that bypasses the user's session server.", "quantifier": "all file systems, file contents, search paths and calls", "why_tests_cant": "all inputs and file system contents", "anchors": ["libqrexec/exec.c: load_service_config_raw, load_service_config_v2, find_file", "libqrexec/toml.c: qubes_toml_config_parse"]}
{"id": "C69", "title": "A command received is carried out exactly once", "statement": "Every command that the agent of a qube receives is carried out exactly once, with the settings read when it was received: at once, unless it is a service call whose settings ask to wait for a user session (and which is not marked as needing none); those held back are carried out when the process that waits for the session ends, and there is such a process as long as one is held back.", "quantifier": "all histories of messages, process ends, forks that fail, file systems", "why_tests_cant": "the space of histories is unbounded", "anchors": ["agent/qrexec-agent.c: handle_server_exec_request_init, handle_server_exec_request_do, wait_for_session_maybe, reap_children"]}
{"id": "C70", "title": "The end of a connection is reported exactly once", "statement": "While fork succeeds and at most 256 connections exist at a time, the agent reports the end of each connection that it set up exactly once to the daemon, when the process serving it or its socket ends, with the domain and port of that connection.", "quantifier": "all histories of messages, process ends, socket events and local calls", "why_tests_cant": "the space of histories is unbounded", "anchors": ["agent/qrexec-agent.c: register_vchan_connection, release_connection, terminate_connection, reap_children, handle_terminated_fork_client, main"]}
{"id": "C71", "title": "An answer goes to the local client that asked", "statement": "Whatever a local client sends, its call reaches the daemon with an identifier chosen by the agent: the connection parameters of the answer are written to that client's socket and to no other, a refusal closes that client's socket and no other, and no such call makes the daemon stop. A malformed call is dropped.", "quantifier": "all messages of local clients, all socket numbers", "why_tests_cant": "the space of messages is unbounded", "anchors": ["agent/qrexec-agent.c: handle_trigger_io, handle_server_exec_request_do, handle_service_refused", "daemon/qrexec-daemon.c: handle_message_from_agent, validate_request_id"]}
{"id": "C72", "title": "The fork server runs the same command", "statement": "A command that the agent hands to the session server of a user is parsed there as the same command, service, argument and caller; it goes to the server of the user that the command is to run as, and only with settings that this server follows.", "quantifier": "all commands, configurations and histories", "why_tests_cant": "the space of commands and histories is unbounded", "anchors": ["agent/qrexec-agent.c: try_fork_server, handle_server_exec_request_do", "agent/qrexec-fork-server.c: handle_single_command", "libqrexec/exec.c: qrexec_cmd_use_fork_server, parse_qubes_rpc_command"]}
{"id": "C73", "title": "Notifications tell what was decided", "statement": "A call decided by an allow or deny rule is announced to the user exactly as the rule's notify setting says: in the qube with the user's screen of the calling qube, at most once, with the service, the caller and the real target; a call refused by the user, and a mere evaluation of the policy, announce nothing more than the policy asks for.", "quantifier": "all policies, system descriptions, calls, answers of the user", "why_tests_cant": "all inputs", "anchors": ["qrexec/tools/qrexec_policy_exec.py: NotifyAllowedResolution, notify, handle_request", "qrexec/policy/parser.py: Action"]}
{"id": "C74", "title": "Policy text is UTF-8", "statement": "A policy file is read as text only if all of its bytes form valid UTF-8 (RFC 3629: shortest form, no surrogates, at most U+10FFFF), and such a file is; a change of the policy whose content is not valid UTF-8 is refused and changes nothing.", "quantifier": "all byte strings", "why_tests_cant": "all inputs", "anchors": ["qrexec/policy/parser.py: AbstractFileLoader.load_policy_file", "qrexec/policy/admin.py: PolicyAdmin"]}
{"id": "C75", "title": "The log of a service gets its stderr", "statement": "When the stderr of a service is to be copied to the log of the agent, the log gets exactly the bytes read from it, in order; when it is not, nothing.", "quantifier": "all schedules of reads, writes, signals and process ends, all data", "why_tests_cant": "the space of schedules is unbounded", "anchors": ["libqrexec/remote.c: handle_input_v2", "libqrexec/process_io.c: qrexec_process_io"]}
{"id": "C76", "title": "A call ends when it is over, and not before", "statement": "An end of a connection leaves its loop at the next iteration once its three streams are closed and the local process has ended (the service then sends the exit code; the client also needs to have it), or once the peer has closed the connection and all it sent is delivered; it does not leave it before, unless waiting for events fails.", "quantifier": "all schedules and states of the connection", "why_tests_cant": "the space of schedules is unbounded", "anchors": ["libqrexec/process_io.c: qrexec_process_io", "libqrexec/remote.c: send_exit_code"]}
{"id": "C77", "title": "One command per connection to the daemon", "statement": "Each connection of a local client to the daemon of a qube leads to at most one command sent to the agent, and only after the client said hello in a known version. A message that does not lead to a command disconnects the client, and so does anything sent after the command. Other clients are not affected.", "quantifier": "all histories of messages of clients", "why_tests_cant": "the space of messages and histories is unbounded", "anchors": ["daemon/qrexec-daemon.c: handle_message_from_client, handle_cmdline_message_from_client, handle_cmdline_body_from_client, handle_client_hello, terminate_client"]}
{"id": "C78", "title": "The client of a call is told of its end", "statement": "When the agent of a qube reports the end of a connection, the local client that set this connection up is disconnected from the daemon at once, and no other client is.", "quantifier": "all histories of the daemon in which no client names the domain 0xFFFFFFFF", "why_tests_cant": "the space of histories is unbounded", "anchors": ["daemon/qrexec-daemon.c: handle_cmdline_body_from_client, release_vchan_port, terminate_client, handle_message_from_agent"]}
{"id": "C79", "title": "A disposable lives as long as its call", "statement": "A call to a new disposable kills nothing but the qube that it created, at most once and after all else. A qube that was created for a call is killed at the end of the call, whatever goes wrong; once the connection is set up, not before the connection has ended.", "quantifier": "all answers of qubesd and of the daemons, all arguments", "why_tests_cant": "all inputs and failure points", "anchors": ["daemon/qrexec-daemon-common.c: qrexec_execute_vm, qubesd_call, negotiate_connection_params"]}
{"id": "C80", "title": "A call reaches the qube it is for", "statement": "Running a call sends the command at most once, to the daemon of the target (or of the disposable created for it), with the number of the calling qube; then, if that daemon has chosen a connection, exactly its parameters go to the daemon of the calling qube for the identifier of the call; success is reported only if both were sent. Without autostart nothing is started or created.", "quantifier": "all answers of qubesd and of the daemons, all arguments", "why_tests_cant": "all inputs and failure points", "anchors": ["daemon/qrexec-daemon-common.c: qrexec_execute_vm, negotiate_connection_params, send_service_connect, connect_unix_socket"]}
{"id": "C81", "title": "Both qubes of a call are told about the same connection", "statement": "When a call from one qube to another succeeds, the agent of the target gets the command and the agent of the caller the identifier of its call; each is told the number of the other qube, and both the same port.", "quantifier": "all states of both daemons, all calls", "why_tests_cant": "all inputs and states", "anchors": ["daemon/qrexec-daemon-common.c: qrexec_execute_vm", "daemon/qrexec-daemon.c: handle_cmdline_body_from_client"]}
{"id": "C82", "title": "Both ends speak the same version", "statement": "After the handshake on a connection both ends use the same version of the protocol, the highest that both speak, or both have given up; so both have the same limit for the size of messages, and what one end sends arrives whole.", "quantifier": "all versions at both ends, whoever speaks first, all data and schedules", "why_tests_cant": "all inputs and schedules", "anchors": ["agent/qrexec-agent-data.c: handle_handshake", "daemon/qrexec-daemon-common.c: handle_agent_handshake", "daemon/qrexec-daemon.c: handle_agent_hello", "libqrexec/libqrexec-utils.h: max_data_chunk_size"]}
{"id": "C83", "title": "A change that leaves a valid policy is accepted", "statement": "If the policy would load after a change of a policy file or include file, and the token of the request holds, then the request succeeds, and afterwards the file has the requested content (or is gone) and nothing else has changed. So a request is accepted exactly if the policy loads afterwards.", "quantifier": "all file trees, names, contents and tokens", "why_tests_cant": "all inputs and trees", "anchors": ["qrexec/policy/admin.py: PolicyAdmin._common_replace, _common_remove, _validate", "qrexec/policy/parser.py: ValidateParser"]}
{"id": "C84", "title": "Names cannot act as markup", "statement": "Service, argument, source and target names are shown in the confirmation dialog and in notifications exactly as they are, whatever characters they contain; nothing in them is interpreted as markup.", "quantifier": "all names", "why_tests_cant": "all strings", "anchors": ["qrexec/tools/qrexec_policy_agent.py: escape_and_format_rpc_text, PolicyAgent.notify"]}
{"id": "C85", "title": "Every offered target can be chosen", "statement": "Each target the policy engine offers for an ask rule is listed in the confirmation dialog and can be selected and confirmed; the default target is selected from the start.", "quantifier": "all policies, calls and system states", "why_tests_cant": "all inputs", "anchors": ["qrexec/tools/qrexec_policy_exec.py: AgentAskResolution.execute", "qrexec/tools/qrexec_policy_agent.py: VMListModeler, RPCConfirmationWindow"]}
{"id": "C86", "title": "The policy graph shows what the policy lets through", "statement": "Every edge of the graph that qrexec-policy-graph draws is a call that the policy lets through (red without, orange after a question) from that qube to that target; and each call that the policy lets through between qubes of the system is an edge of the graph, whatever its service and argument.", "quantifier": "all policies, systems, options, calls", "why_tests_cant": "all inputs", "anchors": ["qrexec/tools/qrexec_policy_graph.py: main, handle_single_action", "qrexec/policy/parser.py: AbstractPolicy.evaluate"]}
{"id": "C87", "title": "The conversion of the old policy loses no file", "statement": "Wherever qrexec-legacy-convert is stopped, everything that was in the policy directories before is still there with its content, under its name or with .bak or .rpmsave appended, and no two things under the same name.", "quantifier": "all file trees, policies, answers and points at which the tool is stopped, also in the middle of writing a file", "why_tests_cant": "all crash points and inputs", "anchors": ["qrexec/tools/qrexec_legacy_convert.py: main"]}
{"id": "C88", "title": "The conversion of the old policy can be taken back", "statement": "If the policy after the conversion is not the same as before, the user is asked, and if they want the initial state back, all policy files are again as they were.", "quantifier": "all file trees and policies", "why_tests_cant": "all inputs", "anchors": ["qrexec/tools/qrexec_legacy_convert.py: main"]}
{"id": "C89", "title": "The linter finds exactly the faulty lines", "statement": "qubes-policy-lint reports each line of a policy file (or, with -i, of a file for !include-service) that is not right in itself, whatever the included files are, and no other line; it exits with 0 exactly if nothing is reported. Files without reports load, if what they include can be loaded; a policy with a reported file does not load.", "quantifier": "all texts, file trees, lists of files", "why_tests_cant": "all strings", "anchors": ["qrexec/tools/qubes_policy_lint.py: lint, parse_file, parse_string_policy, main", "qrexec/policy/parser.py: StringPolicy, StringLoader, ToposortMixIn"]}
{"id": "C90", "title": "Converted rules go where they can be edited", "statement": "qrexec-legacy-convert puts a rule into a file of the configuration tool (50-config-*) only if it is of a form that this tool has there, and into 30-user otherwise.", "quantifier": "all policies and rules", "why_tests_cant": "all inputs", "anchors": ["qrexec/tools/qrexec_legacy_convert.py: RuleWrapper.is_rule_compatible, main"]}
{"id": "C91", "title": "Editing a policy file is safe", "statement": "qubes-policy-editor saves exactly the text that the editor left last, to exactly the file that was asked for, and only if the linter finds nothing wrong in it, the server accepts it, and the file has not been changed or created by anyone else since it was read. If it does not save, nothing changes and the text is kept. A text that the linter and the server accept is saved.", "quantifier": "all files, edits, answers of the user and changes by others while the editor runs", "why_tests_cant": "all inputs and histories", "anchors": ["qrexec/tools/qubes_policy_editor.py: main, validate_name, PolicyManager"]}
{"id": "C92", "title": "qubes-policy does what was asked or nothing", "statement": "qubes-policy lists the files, prints a file, replaces a file by the standard input, or removes a file: with status 0 it has done exactly this to exactly the file named; with any other status nothing has changed; status 2 means that the arguments name no file. Saving what it printed does not change the policy.", "quantifier": "all arguments, inputs and states of the policy", "why_tests_cant": "all inputs and states", "anchors": ["qrexec/tools/qubes_policy.py: main, run_method"]}
{"id": "C93", "title": "Calls go out as they were asked for", "statement": "A call made with qrexec-client-vm, or from Python with qrexec.client.call, asks the policy for exactly the target and the service that were named, with the name and the argument of the service joined by +, $ in the target written as @, and nothing taken for an option that was not one: the request passes through the agent and is understood by the daemon as that call if the service has a name and fits, and is refused otherwise. In dom0 the same call becomes a command line that the target understands as that call by dom0; a call to dom0 itself runs the program of the service.", "quantifier": "all targets, services, arguments and command lines spelled with the documented options", "why_tests_cant": "the inputs are arbitrary texts and the request passes through three programs; tests use a few names", "anchors": ["agent/qrexec-client-vm.c:main", "agent/qrexec-client-vm.c:convert_target_name_keyword", "qrexec/client.py:make_command", "agent/qrexec-agent.c:handle_trigger_io", "daemon/qrexec-client.c:main"]}
{"id": "C94", "title": "What qrexec-client does is decided by its options", "statement": "qrexec-client makes a call, answers a call of another qube, or runs a service for dom0, exactly as its options say: at most one of -e, -l and -c; an identifier, a name and a number in C notation for -c; dom0 never appears as the caller of a connection, and dom0 runs nothing for itself but a service. Everything else ends the program without doing anything, with a status that is not 0 unless help was asked for.", "quantifier": "all command lines; for the documented options all their spellings, orders and values", "why_tests_cant": "command lines are unbounded; options interact", "anchors": ["daemon/qrexec-client.c:main", "daemon/qrexec-client.c:parse_connect", "daemon/qrexec-client.c:parse_int", "daemon/qrexec-daemon-common.c:target_refers_to_dom0"]}
{"id": "C95", "title": "A call that cannot be started is reported to its caller", "statement": "For every command line that reaches a qube or dom0 over a connection that works: exactly the calls that can be started (the service is there and can be run or connected to, a process can be created) are served; for all others the caller is sent the end of both streams and an exit code, 127 if the machine has no such service and 125 otherwise, and no schedule makes the caller return another code once this has arrived. A call nobody waits for is answered with 0 exactly if it was started.", "quantifier": "all command lines, file systems, configurations, failures of the connection after any number of bytes and schedules of the caller", "why_tests_cant": "the failure may happen at any point and any part of the answer may be lost; the caller reads it in any pieces", "anchors": ["libqrexec/exec.c:execute_parsed_qubes_rpc_command", "agent/qrexec-agent-data.c:handle_just_exec", "agent/qrexec-agent-data.c:handle_new_process_common", "daemon/qrexec-daemon-common.c:run_qrexec_to_dom0", "daemon/qrexec-daemon-common.c:handshake_and_go", "daemon/qrexec-daemon-common.c:handle_failed_exec", "daemon/qrexec-client.c:main"]}
{"id": "C96", "title": "A command runs as the user named, or not at all", "statement": "What the agent starts runs with the user id, the group ids and the login environment of the user named in the command line, or by the configuration of the service, after the system let that user in; if any step fails nothing runs and the status is 125. Every user who is let in can run commands. The status is the exit code of the command, or 128 plus the signal. An agent that is not root serves its own user only.", "quantifier": "all users, accounts, commands, configurations and failures of each step", "why_tests_cant": "every step may fail; the accounts and the environment are arbitrary", "anchors": ["agent/qrexec-agent.c:do_exec", "agent/qrexec-fork-server.c:do_exec", "daemon/qrexec-daemon.c:do_exec", "daemon/qrexec-client.c:do_exec", "libqrexec/exec.c:load_service_config_v2"]}
{"id": "C97", "title": "The question reaches the user as asked, and the answer comes back as given", "statement": "What the policy engine asks the user (caller, service, argument, choices, default) is what the policy agent puts into its dialog, and what it wants to be announced is what the agent shows, whatever characters the names contain, both for an agent in dom0 and for one in another qube. The agent asks nothing that a well-formed request for policy.Ask does not say. The engine receives the answer of the dialog unchanged, and no failure on the way is ever taken for consent.", "quantifier": "all requests, names, icons, all byte strings sent to the agent, all JSON texts, all histories of the dialog, all failures of the transport", "why_tests_cant": "The transport carries arbitrary Unicode text in JSON, in a stream with a textual header; tests use a few names.", "anchors": ["qrexec/server.py:SocketService._client_connected", "qrexec/server.py:call_socket_service", "qrexec/tools/qrexec_policy_agent.py:PolicyAgent.handle_request", "qrexec/tools/qrexec_policy_exec.py:AgentAskResolution.execute"]}
{"id": "C98", "title": "Waiting for a connection ends in time", "statement": "With a time limit, a program that waits for its peer waits exactly until the limit and not longer, however often it is interrupted; it succeeds exactly if the peer connects before that. Without a limit it waits as long as it takes. It never crashes because of the clock.", "quantifier": "all limits, all start times, all sequences of clock readings, signals, and events of the vchan", "why_tests_cant": "Depends on the interleaving of signals, time and events, with borrows between seconds and nanoseconds.", "anchors": ["libqrexec/vchan_timeout.c:qubes_wait_for_vchan_connection_with_timeout"]}
{"id": "C99", "title": "The policy engine knows exactly the system that qubesd describes", "statement": "The policy engine asks qubesd over its internal socket for a description of the system. From a well-formed answer it knows every domain, under its name and under its uuid, with exactly the tags, type, templates, state and GUI domain that the answer gives it, and no other domain. If qubesd reports an error every call is denied, and any other answer, also one that is cut short at any byte, never leads to a decision about a smaller or different system. What is written for a call to qubesd says unambiguously which call it is.", "quantifier": "all answers (all byte strings, all JSON texts), all systems, all points at which the connection breaks, all calls", "why_tests_cant": "The answer is an arbitrary text and the connection may break anywhere in it; names and uuids share one dictionary.", "anchors": ["qrexec/utils.py:qubesd_call", "qrexec/utils.py:get_system_info", "qrexec/tools/qrexec_policy_exec.py:handle_request"]}
{"id": "C100", "title": "A call from Python gives its input and returns the output", "statement": "call() and call_async() run the client program of this machine once, with the destination and service asked for and with exactly the input given (nothing, bytes, text or a file); they return everything the program wrote if it succeeded, and raise CalledProcessError with its status if not.", "quantifier": "all destinations, services, inputs, and all behaviours of the program", "why_tests_cant": "The two versions share a helper whose result depends on the kind of input; only some kinds are tested.", "anchors": ["qrexec/client.py:call", "qrexec/client.py:call_async", "qrexec/utils.py:prepare_subprocess_kwds"]}
{"id": "C101", "title": "A running qube is reachable under its name, uuid and id, and under nothing else", "statement": "Provided a daemon is started for a qube only once the daemon that served it before has ended, and names are as Qubes allows them, connecting to the socket named after the name, the uuid or the id of a running qube leads to the daemon of that qube and to no other, whatever other qubes start, stop or crash in the meantime and whatever was left in the directory before. A daemon that ends in an orderly way leaves none of its three names behind, and no daemon touches names other than its own.", "quantifier": "all initial contents of the directory, all interleavings of starts, steps, losses of the agent, and ends of any number of daemons", "why_tests_cant": "Depends on the interleaving of file system operations of independent processes.", "anchors": ["daemon/qrexec-daemon.c:create_qrexec_socket", "daemon/qrexec-daemon.c:unlink_qrexec_socket", "daemon/qrexec-daemon.c:handle_agent_restart", "libqrexec/unix-server.c:get_server_socket"]}
{"id": "C102", "title": "qrexec-daemon reports readiness truthfully", "statement": "The program qrexec-daemon ends with status 0 exactly if the daemon it left in the background serves the qube: then it is connected to the agent, has agreed with it on a protocol version and has created its sockets. It ends with status 3 exactly if the agent could not be reached within the time limit, which is QREXEC_STARTUP_TIMEOUT seconds if that is a positive number and 60 seconds otherwise, and with 1 for every other failure, also when the daemon is killed. Options, ids and numbers are read as documented, a missing uuid or an id that is not positive is an error.", "quantifier": "all command lines, environments, all points at which a step fails or the daemon is killed, all histories of the connection", "why_tests_cant": "The outcome depends on which of many steps in another process fails, and on time.", "anchors": ["daemon/qrexec-daemon.c:main", "daemon/qrexec-daemon.c:init", "libqrexec/vchan_timeout.c:qubes_wait_for_vchan_connection_with_timeout"]}
{"id": "C103", "title": "Programs get their own ends of the call, and nobody keeps a copy", "statement": "A program that is started (a service, a command, the local program of a client, the logger, the policy program) has as its standard input, output and errors exactly the ends meant for it, and of qrexec's other descriptors it inherits none (the local program of qrexec-client-vm also has its caller's standard descriptors, in the numbers its environment names). Qrexec has the other ends, and neither it, nor the process that waits for a log-in session, nor a program started later, keeps a copy of an end it has given away, so that the end of a stream is noticed. This holds whatever descriptors are open; a program of qrexec whose standard input, output or errors are closed refuses to run.", "quantifier": "all descriptor tables and limits, all combinations of flags, kernels with and without close_range", "why_tests_cant": "Descriptor numbers depend on everything opened before; a leak shows only as a hang.", "anchors": ["libqrexec/log.c:setup_logging", "libqrexec/exec.c:fix_fds", "libqrexec/exec.c:do_fork_exec", "libqrexec/open_logger.c:open_logger", "agent/qrexec-agent-data.c:handle_just_exec", "agent/qrexec-agent.c:do_exec", "agent/qrexec-client-vm.c:main", "daemon/qrexec-daemon.c:connect_daemon_socket"]}
{"id": "C104", "title": "The daemon attends to exactly those that are ready", "statement": "In each turn of its loop the daemon handles the children that have ended and then, if poll was not interrupted and the agent is connected, the new client (if there is one), all messages of the agent, and every connected client that has something, each once, and no other client. It accepts and reads clients only when there is space to pass on their messages. A client that connects in a turn is not taken for one that was polled in it, even if that one's descriptor is closed in the same turn. The table passed to poll has room for all clients, the assertion about it holds, and whatever happens over the turns is one of the histories all other statements about the daemon speak of.", "quantifier": "all histories of turns, all results of poll, all orders of events, all messages", "why_tests_cant": "Depends on which descriptors become ready and are closed and reused within a single turn.", "anchors": ["daemon/qrexec-daemon.c:main", "daemon/qrexec-daemon.c:handle_new_client"]}
{"id": "C105", "title": "The agent ends exactly the connections whose peers are gone", "statement": "In each turn of its loop the agent handles the children that have ended and then, if poll was not interrupted, closes and reports exactly those connections whose own descriptor has something, in the order of the table, then handles all messages of the daemon, then the local client that connects. Connections and local clients count only when there is space in the vchan. The entries of the table passed to poll and the connections are matched correctly: the program never aborts and none of its assertions about them fails, and the table has room. Whatever happens over the turns is one of the histories all other statements about the agent speak of.", "quantifier": "all tables of connections, all histories, all results of poll", "why_tests_cant": "Two loops over the same table have to agree on positions for every content of the table.", "anchors": ["agent/qrexec-agent.c:main", "agent/qrexec-agent.c:handle_terminated_fork_client", "agent/qrexec-agent.c:release_connection"]}
{"id": "C106", "title": "A socket service is reached under a name of any length", "statement": "When a service is a socket, the connection that is made is to the server that listens under the name of the service, also if the name does not fit into a socket address, if there are links on the way, and if connecting is interrupted. It is made whenever the system calls succeed. While it is made, nothing outside of one new directory in /tmp changes, and in the end, also after an error, everything is as it was.", "quantifier": "all absolute names of any length, all contents of the file system, all failures and interruptions of system calls", "why_tests_cant": "Names of 108 bytes and more, link loops and failures between two steps are not covered by any list of examples.", "anchors": ["libqrexec/exec.c:qubes_connect", "libqrexec/exec.c:find_qrexec_service"]}
{"id": "C107", "title": "Servers are found under the names they were started with", "statement": "A server that has been started on a socket is found under its name, whatever was there before, and no other name changes. A command for a user is given to the fork server that this user has started last, never to that of another user. qrexec-client-vm connects to the socket it was told to.", "quantifier": "all names, all file systems, all histories of fork servers that are started and ended by any users", "why_tests_cant": "Depends on the lengths of names and on the order in which servers come and go.", "anchors": ["libqrexec/unix-server.c:get_server_socket", "agent/qrexec-agent.c:try_fork_server", "agent/qrexec-client-vm.c:connect_unix_socket", "agent/qrexec-fork-server.c:main"]}
{"id": "C108", "title": "A fork server runs each command it is given, once", "statement": "For each connection in the order in which they come, the fork server runs the command if its length is announced correctly and its only NUL byte is at the end, and nothing otherwise. What comes in on one connection changes nothing for the others. It goes on until no more connections can be accepted.", "quantifier": "all sequences of connections with any contents", "why_tests_cant": "All sequences of good and bad requests.", "anchors": ["agent/qrexec-fork-server.c:main", "agent/qrexec-fork-server.c:handle_single_command"]}
{"id": "C109", "title": "The installed policy gives the policy services to those named in two files, and to nobody when these are as installed", "statement": "With the installed files, a call of a policy service is decided as if its place held, for the five reading services, the lines of include/admin-policy-rwx followed by the lines of include/admin-policy-ro, for the four writing services the lines of include/admin-policy-rwx only, each for that service and all arguments, and for any other service nothing. Whoever may write may read. When no line has been added to these files and there are no other policy files, every call of every service is refused.", "quantifier": "all lines added to the two files, all files these include, all rules before and after, all calls", "why_tests_cant": "Depends on lines that administrators will write, combined with every call.", "anchors": ["policy.d/90-admin-policy-default.policy", "policy.d/include/admin-policy-ro", "policy.d/include/admin-policy-rwx", "policy.d/35-compat.policy", "qrexec/policy/parser.py:AbstractFileSystemLoader"]}
{"id": "C110", "title": "qrexec-agent does what its command line says, and leaves no socket behind when told to end", "statement": "The agent listens on the socket given last on its command line, looks for fork servers where it was said last (with the name of the user put in), and hands nothing over to fork servers if it was said last that there are none; with --help it only prints its usage (status 2). When it reports that it is ready, the daemon is connected and the socket is served by it. No other name changes. On SIGTERM it ends with status 0 after the turn it is in, whatever else would come, and the name of the socket is gone; it ends with status 0 for no other reason. After any other end the next agent can serve the name.", "quantifier": "all command lines, all sequences of turns, all times of SIGTERM, all failures at start", "why_tests_cant": "Depends on the order of options and on when the signal comes.", "anchors": ["agent/qrexec-agent.c:main", "agent/qrexec-agent.c:init", "agent/qrexec-agent.c:try_fork_server"]}
{"id": "C111", "title": "A service learns the true caller and the true service, on the whole way from the qube that calls", "statement": "Whatever is started because a qube asked for a service (qrexec-client-vm, its agent, the daemon for the qube, the policy daemon, the daemon's child, the agent of the called qube or dom0) was decided for by the policy for exactly this call, with the text of target and service as sanitized. It is the program of the service that is started, as the user of the rule, with the argument of the call; its QREXEC_REMOTE_DOMAIN is the calling qube, or a remote qube that the calling qube relays for, never another one; in dom0 it also learns the target that was asked for. What the policy decides for is started. (For service names of up to 255 bytes, calls of up to 64000, users without a colon in the policy, transport services without blanks and plus signs.)", "quantifier": "all contents of the messages, all policies, all systems of qubes, all answers of the user, all states of the receiving agent", "why_tests_cant": "The claim is about the composition of six programs: a gap between what one writes and the next reads shows only for particular contents.", "anchors": ["agent/qrexec-client-vm.c:main", "agent/qrexec-agent.c:handle_trigger_io", "daemon/qrexec-daemon.c:handle_message_from_agent", "daemon/qrexec-daemon.c:handle_execute_service_child", "qrexec/tools/qrexec_policy_daemon.py:handle_client_connection", "qrexec/policy/parser.py:AllowResolution", "libqrexec/exec.c:parse_qubes_rpc_command", "libqrexec/exec.c:exec_qubes_rpc2"]}
{"id": "C112", "title": "Both ends of an allowed call between two qubes get to know each other", "statement": "A program in one qube asks its agent for a service; the policy decides for another qube, and qrexec-daemon has sent its messages to both daemons without an error. Then one port was reserved by the daemon of the called qube, and (as the first command for this call) its agent is given the port and the number of the calling qube, with a command that runs the service as the user of the rule, or as the default user of the called qube when the rule names none, with the true caller and service. The agent of the calling qube is either told nothing (its daemon has forgotten the call, as after a termination) or gives the program that asked, over the very descriptor on which it asked, the number of the called qube and the same port.", "quantifier": "all contents of the messages, all policies, all systems of qubes, all answers of the user, all states of the two daemons and of the two agents", "why_tests_cant": "Seven processes in three machines take part; that the same call, port and descriptor is meant throughout depends on the state of each of them.", "anchors": ["agent/qrexec-agent.c:handle_trigger_io", "agent/qrexec-agent.c:handle_server_exec_request_init", "daemon/qrexec-daemon.c:handle_message_from_agent", "daemon/qrexec-daemon.c:handle_cmdline_body_from_client", "daemon/qrexec-daemon-common.c:qrexec_execute_vm", "qrexec/tools/qrexec_policy_daemon.py:handle_client_connection"]}
{"id": "C113", "title": "A call that waits for a session finds the session of its user", "statement": "qubes.WaitForSession ends, in a qube with a graphical interface, at the first time that it finds a session server of the user, and then with the status of the user's systemd; in dom0 and without a graphical interface it does not wait for a server; an argument is refused. A call that qrexec-agent has held back for the session of its user is, when the waiting process ends, handed over to the server of this session, if the server is still there and takes such calls.", "quantifier": "all times at which session servers start and end, all times of looking, all histories of the agent, all calls", "why_tests_cant": "Depends on what happens while a script sleeps, and on two programs that agree on the name of a file.", "anchors": ["qubes-rpc-base/qubes.WaitForSession", "agent/qrexec-agent.c:wait_for_session_maybe", "agent/qrexec-agent.c:reap_children", "agent/qrexec-agent.c:try_fork_server", "libqrexec/exec.c:exec_wait_for_session"]}
{"id": "C114", "title": "Both ends of a call that is served in dom0 get to know each other", "statement": "A program in a qube asks its agent for a service and the policy decides that it is served in dom0. The program that serves it asks the daemon of that qube for a connection. If the daemon has not lost the call and has a free port, the program connects to that qube over the port that the daemon reserved, and serves the command that was decided for, for the true caller; and the agent of the qube gives the program that asked the number 0 and the same port, on the descriptor over which it asked. Otherwise the daemon tells the agent nothing, and the program starts nothing and ends with status 125.", "quantifier": "all contents of the messages, all policies, all systems of qubes, all answers of the user, all states of the daemon and of the agent", "why_tests_cant": "Six processes in two machines take part; that the same call, port and descriptor is meant throughout depends on the state of each of them.", "anchors": ["daemon/qrexec-daemon-common.c:run_qrexec_to_dom0", "daemon/qrexec-daemon-common.c:negotiate_connection_params", "daemon/qrexec-daemon.c:handle_cmdline_body_from_client", "daemon/qrexec-daemon.c:handle_execute_service_child", "agent/qrexec-agent.c:handle_server_exec_request_init", "agent/qrexec-agent.c:handle_trigger_io"]}
{"id": "C115", "title": "The policy graph goes where it was asked for, and nowhere else; what was there stays when it cannot be drawn", "statement": "qrexec-policy-graph with --output writes the graph to that file, puts nothing on its standard output and changes no other file; without --output the graph is on the standard output and no file is changed. It ends with status 0 exactly when there is a description of the system, the policy can be read and the graph can be drawn. With an option that it does not accept it changes nothing. A run that fails leaves the file named for the output as it was.", "quantifier": "all options, all contents of the files, all policies, all systems of qubes, all points of failure", "why_tests_cant": "Depends on the order of opening, reading and writing, and on which files are the same.", "anchors": ["qrexec/tools/qrexec_policy_graph.py:main", "qrexec/tools/qrexec_policy_graph.py:handle_single_action"]}
