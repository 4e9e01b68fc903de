#!/usr/bin/env python3
"""Source of /verif/properties.jsonl (kept so that the list is easy to review and extend)."""
import json
P = []
def p(title, statement, quantifier, why, anchors):
    P.append(dict(id="C%02d" % (len(P)+1), title=title, statement=statement,
                  quantifier=quantifier, why_tests_cant=why, anchors=anchors))
PP="qrexec/policy/parser.py"
p("First matching rule decides",
  "The verdict on a call is the verdict of the first rule, in load order, whose service, argument, source and target columns match the call; when no rule matches the call is denied. Rules after the first match cannot turn a deny into anything else, nor change what an allow rule grants.",
  "every rule list, every call, every system description",
  "an unbounded number of policies; tests sample a few dozen",
  [PP+": AbstractPolicy.find_matching_rule, AbstractPolicy.evaluate, Rule.is_match"])
p("No allow without authority",
  "Whenever policy evaluation of a call answers result=allow, the first matching rule is an allow rule, or it is an ask rule and the target chosen by the user (or assumed) is one of the offered targets; the target named in the answer is the rule's redirect, the call's own target or the chosen target, with @adminvm written as dom0 and @dispvm replaced by the caller's default disposable template.",
  "every policy, call, system description and user answer",
  "security property over all policies and all answers of an untrusted or confused agent",
  [PP+": Allow.evaluate, Ask.evaluate, AllowResolution.execute, AskResolution.handle_user_response", "qrexec/tools/qrexec_policy_exec.py: handle_request"])
p("Evaluation fails closed",
  "If loading the policy, validating the request or evaluating it is refused for any reason, the answer of the evaluation service is exactly result=deny; every answer it gives is either result=deny or an allow answer produced by an allow resolution.",
  "every policy text, call, system description and user answer",
  "universal over error paths",
  ["qrexec/tools/qrexec_policy_exec.py: handle_request"])
p("Token grammar per column",
  "A source, target, redirect or requested-target field is accepted exactly when it is a non-empty plain name, or one of the keywords documented for that position (with a non-empty value, not itself starting with @, after a prefix keyword); an accepted token prints back as exactly the text it was parsed from.",
  "all strings in each of the four positions",
  "infinite set of strings",
  [PP+": VMToken.__new__, Source, Target, Redirect, IntendedTarget"])
p("Meaning of source and target columns",
  "A column matches a qube exactly according to its documented meaning: a plain name or uuid: matches that qube under either designation, @adminvm/dom0/the zero uuid match only dom0, @anyvm matches everything except dom0, * matches everything, @type:/@tag: match existing qubes with that type/tag, @default and @dispvm match only themselves, @dispvm:NAME and @dispvm:@tag: match disposable requests whose template is NAME / carries the tag.",
  "all tokens, qubes and system descriptions in which evaluation does not crash",
  "quantifies over all system descriptions",
  [PP+": VMToken.match and its overrides, match_strings, is_dom0"])
p("Rule matching never crashes",
  "Deciding whether a rule matches a call always yields yes or no.",
  "all rules, calls and well-formed system descriptions",
  "absence of exceptions for every input",
  [PP+": DispVMTemplate.match, DispVMTag.match, Rule.is_match"])
p("Unknown and invalid targets",
  "A call to a qube that does not exist is evaluated as a call to @default; a call to @dispvm:NAME is refused unless NAME is an existing template for disposables; an empty target means @default.",
  "all calls and system descriptions",
  "universal over inputs",
  [PP+": IntendedTarget.verify, DispVMTemplate.verify, Request.__init__"])
p("Only the relay may speak for a remote qube",
  "A call made on behalf of another source is evaluated with that source only if it exists, is a RemoteVM and names the actual caller as its relay; in every other case the call is refused; without such a claim the source is the actual caller.",
  "all calls, claimed sources and system descriptions",
  "authorisation property over all inputs",
  [PP+": Request.__init__"])
p("Choices offered for ask",
  "The targets offered to the user by an ask rule without redirect are exactly those for which, among the rules matching service, argument and source, the first rule whose target specification covers that target is not a deny rule, after resolving @dispvm and @adminvm and removing the caller itself and internal qubes.",
  "all rule lists, calls and system descriptions (when collection does not crash)",
  "set-valued result over arbitrary rule lists",
  [PP+": AbstractPolicy.collect_targets_for_ask"])
p("Ask evaluation never crashes",
  "Evaluating an ask rule yields a list of choices or a refusal, whatever other rules are in the policy.",
  "all policies, calls, well-formed system descriptions",
  "absence of exceptions for every policy",
  [PP+": DispVMTemplate.expand, AbstractPolicy.collect_targets_for_ask"])
p("Default choice is offered",
  "The preselected choice of an ask dialog is either absent or one of the offered targets, and at least one target is offered.",
  "all ask rules, calls and system descriptions",
  "universal over policies",
  [PP+": Ask.evaluate, AskResolution.__init__"])
p("The user's answer is binding",
  "After ask, a negative, malformed or out-of-list answer always ends in denial, and a positive one grants exactly the chosen target, with the user= and autostart= of the ask rule.",
  "all ask resolutions and all answer strings of the policy agent",
  "the answer is an arbitrary string from another qube",
  [PP+": AskResolution.handle_user_response, AllowResolution.from_ask_resolution", "qrexec/tools/qrexec_policy_exec.py: AgentAskResolution.execute"])
p("Every offered choice can be granted",
  "If the user picks one of the offered targets, the call is allowed to that target.",
  "all ask resolutions",
  "universal over policies and system descriptions",
  [PP+": Ask.evaluate, AllowResolution.execute"])
p("No loopback",
  "No call is ever allowed with the caller itself as target, under any designation of the caller.",
  "all policies, calls and system descriptions",
  "universal over policies",
  [PP+": AllowResolution.execute"])
p("autostart=no",
  "An allow granted by a rule with autostart=no always names dom0 or a qube that is running according to the system description, never a new disposable, and says autostart=False; targets offered by an ask rule with autostart=no obey the same restriction.",
  "all policies, calls, system descriptions",
  "universal over policies",
  [PP+": ActionType.allow_no_autostart, Allow.evaluate, Ask.evaluate"])
p("Policy answer is understood by the daemon",
  "Every allow answer produced by policy evaluation for fields without line breaks is parsed by the qrexec daemon as allow with the same user, target, requested target, autostart flag, and (when present) target uuid, service and policy source; every deny answer is parsed as deny.",
  "all resolutions with newline-free fields",
  "cross-language protocol agreement for every value",
  [PP+": AllowResolution.execute", "daemon/qrexec-daemon.c: parse_policy_response"])
p("Daemon request is understood by the policy daemon",
  "For every call with sanitised names, the request text written by the qrexec daemon is parsed by the policy daemon into exactly the source, intended target, service and claimed source that were sent; no value can inject another request field.",
  "all domain names, targets, service descriptors after sanitisation",
  "injection freedom for all inputs",
  ["daemon/qrexec-daemon.c: send_request_to_daemon", "qrexec/tools/qrexec_policy_daemon.py: handle_client_connection"])
p("Rule line grammar",
  "A policy line is accepted as a rule exactly when it has at least five fields, valid service and argument, valid tokens, a known action and only distinct, known parameters with valid values for that action, and is not an allow rule for @default without redirect; the rule carries exactly those fields.",
  "all lines",
  "infinite input space",
  [PP+": Rule.from_line, Rule.__init__, validate_service_and_argument"])
p("Printed rules mean the same",
  "Printing a rule and parsing the text again gives an equivalent rule.",
  "all rules",
  "round trip for all rules",
  [PP+": Rule.__str__, Allow.__str__, Ask.__str__", "qrexec/tools/qrexec_legacy_convert.py"])
p("Policy directories: shadowing and order",
  "A policy file name present in several policy directories is taken only from the first directory that has it, files are loaded in byte order of their names whatever directory they come from, and the result does not depend on directory listing order.",
  "all directory contents and listing orders",
  "all permutations of listings, arbitrary numbers of files",
  [PP+": filter_filepaths, AbstractFileSystemLoader.load_policy_dirs"])
p("Bad file names stop the load",
  "Files without the .policy suffix, hidden files and non-files are ignored; if any remaining file name has a character outside [0-9a-z_.-] the whole load is refused; no rule is taken from a subset of the files.",
  "all directory contents",
  "universal over directory contents",
  [PP+": filter_filepaths"])
p("Policy loading is all-or-nothing",
  "If any line of any file reached by the load (directly or through includes) is malformed, the load as a whole is refused; if it succeeds, the policy contains the rules of every line of every loaded file, in order.",
  "all file sets",
  "arbitrary include trees",
  [PP+": AbstractParser.load_policy_file, AbstractFileLoader.handle_include"])
p("Includes are spliced in place",
  "The rules of an included file appear exactly at the place of the include directive, and including a file behaves as if its lines were written there.",
  "all include trees that terminate",
  "arbitrary nesting",
  [PP+": AbstractFileLoader.handle_include, handle_include_dir, load_policy_dir"])
p("Service includes are confined",
  "Every rule that comes from a service-specific include has the service and argument named by the include directive, so it can never match another service or argument, whatever the file says.",
  "all included files and nesting",
  "security property over untrusted file contents",
  [PP+": load_policy_file_service, handle_include_service, Rule.from_line_service"])
p("Legacy argument-specific policy is final",
  "With !compat-4.0, a legacy policy file for SERVICE+ARGUMENT fully decides calls with that argument made by qubes: no later rule, in particular none from the argument-less legacy file or from later policy, can allow such a call to a qube, a disposable, the default target or dom0.",
  "all legacy directories, calls from sources other than dom0",
  "universal over directory contents",
  ["qrexec/policy/parser_compat.py: Compat40Parser.execute, _sorted_compat_files"])
p("Comments and blank lines are inert",
  "Adding or removing empty lines, comment lines and leading or trailing blanks never changes the loaded rules.",
  "all policy texts",
  "all positions and contents",
  [PP+": AbstractParser.load_policy_file"])
AD="qrexec/policy/admin.py"
p("Failed admin request changes nothing",
  "A policy administration request that ends in an error leaves every file of the policy tree unchanged.",
  "all file trees, requests",
  "all error paths",
  [AD+": PolicyAdmin.handle_request, _common_replace, _common_remove"])
p("Admin requests touch only the named file",
  "A successful Replace leaves exactly the given content under the named file and every other file unchanged; a successful Remove removes exactly the named file; List, Get and GetFiles change nothing; Get after Replace returns the content and its token.",
  "all file trees and requests",
  "frame property over the whole tree",
  [AD+": _common_replace, _common_remove, _common_get, _common_list"])
p("Tokens prevent lost updates",
  "In any history of serialised admin requests, a Replace or Remove carrying a sha256 token succeeds only if the file still has the content that token was computed from (up to hash collisions), and one carrying token new succeeds only if the file does not exist.",
  "all histories of requests by any number of clients",
  "histories and interleavings",
  [AD+": _check_token, _lock, compute_token"])
p("Admin paths are confined",
  "Every file created, replaced, read or removed through Get/Replace/Remove lies directly in the policy directory (with suffix .policy) or directly in its include directory, whatever the argument.",
  "all argument strings",
  "path traversal resistance for all strings",
  [AD+": _get_path"])
p("Replace is crash-safe",
  "If the machine stops at any point during Replace, the named file has either its complete old or complete new content and the policy tree can still be loaded.",
  "every crash point, every tree and content",
  "crash points",
  [AD+": _common_replace", PP+": filter_filepaths"])
p("Validated changes load",
  "After a successful Replace or Remove the policy directory still loads without error.",
  "all trees and requests",
  "agreement between validator and loader for all contents",
  [AD+": _validate", PP+": ValidateParser, FilePolicy"])
p("Admin client and server agree",
  "What the client library returns for policy_get, policy_list and policy_get_files is the content/token and the lists the server holds, and policy_replace installs the given content under the given token.",
  "all names, contents and trees",
  "round trip for all contents",
  ["qrexec/policy/admin_client.py: PolicyClient", AD])
p("Cached policy is current",
  "A policy served by the policy daemon reflects every file change whose notification was delivered before the request; a failed reload is never papered over with an older policy.",
  "all interleavings of file changes, notifications and requests",
  "schedules",
  ["qrexec/policy/utils.py: PolicyCache.get_policy, PolicyWatcher"])
p("No change is missed at start-up",
  "A policy change made after the policy daemon has started is eventually reflected in its answers.",
  "all interleavings of start-up steps and file changes",
  "schedules",
  ["qrexec/policy/utils.py: PolicyCache.__init__, initialize_watcher"])
p("Policy socket protocol",
  "The policy daemon answers a request only if every line is a distinct known field with valid value and source, target and service are present; it writes at most one answer, and never interprets one field as another.",
  "all byte streams on the socket",
  "arbitrary input streams",
  ["qrexec/tools/qrexec_policy_daemon.py: handle_client_connection"])
p("EvalGUI is limited to the GUI provider",
  "policy.EvalGUI answers only if both qubes exist and carry the guivm- tag of the caller; policy.EvalSimple and EvalGUI never prompt the user nor notify, and answer only requests with well-formed names.",
  "all requests, callers and system descriptions",
  "authorisation over all inputs",
  ["qrexec/tools/qrexec_policy_daemon.py: qrexec_policy_eval"])
p("Exit code of qrexec-policy-exec",
  "The exit status of an evaluation is 0 exactly when the answer is allow; in particular nothing in the call can make a denied call report success.",
  "all answers",
  "injection freedom over all field values",
  ["qrexec/tools/qrexec_policy_exec.py: main, get_result"])
p("Sanitisers",
  "Sanitising yields only allowed characters, leaves allowed strings unchanged, is idempotent, preserves length, and the Python and C sanitisers agree on allowed characters; strict mode refuses exactly the strings that would change.",
  "all strings",
  "infinite domain, two implementations",
  ["qrexec/utils.py: _sanitize_name, _sanitize_char", "daemon/qrexec-daemon.c: sanitize_name"])
p("Argument registration",
  "policy.RegisterArgument adds exactly one allow rule for the given service, argument, frontend and backend, only if no rule for that exact service and argument exists and the argument is 1..64 valid characters; afterwards the policy still loads.",
  "all calls and policy states",
  "universal over file contents",
  ["qubes-rpc-dom0/policy.RegisterArgument"])
D="daemon/qrexec-daemon.c"
p("Vchan ports are exclusive",
  "No data-channel port is handed out twice before it is released, the daemons of the two ends of a pair of qubes never hand out the same port for that pair, and a port can be released only for the peer it was allocated to.",
  "all histories of connections and terminations, all domain id pairs",
  "unbounded histories of two independent daemons",
  [D+": allocate_vchan_port, release_vchan_port, handle_cmdline_body_from_client"])
p("Every service call is answered at most once",
  "Each pending service call of a qube receives exactly one of connection or refusal once its policy process has ended or its connection was requested, and a connection is granted only for a request identifier that is pending; it cannot be replayed.",
  "all histories of triggers, policy child exits and client connections",
  "schedules",
  [D+": handle_execute_service, handle_cmdline_body_from_client, reap_children"])
p("Agent messages are checked",
  "A message header from an agent is processed only if its type is allowed for the negotiated protocol version and its length is within the bounds of that type.",
  "all headers",
  "all 32-bit field combinations",
  [D+": sanitize_message_from_agent, handle_agent_hello"])
p("Request identifiers and service names",
  "A request identifier from an agent is accepted exactly if it is NUL terminated, has only allowed characters before and only NUL bytes after the first NUL; a service name is accepted exactly if it is non-empty, does not start with + and is not too long.",
  "all byte arrays",
  "all inputs",
  [D+": validate_request_id, validate_service_name, sanitize_name"])
L="libqrexec/"
p("Buffer is a FIFO",
  "Bytes leave the stdin buffer in the order they were appended, none lost or duplicated, and the memory accounting never exceeds the limit.",
  "all sequences of append and remove",
  "unbounded operation sequences",
  [L+"buffer.c"])
p("Stream integrity towards the local process",
  "Whatever the schedule of partial writes, would-block conditions and new data, the bytes written to the local process are a prefix of the bytes received, and all of them once buffering drains.",
  "all schedules of write results",
  "schedules",
  [L+"write-stdin.c: write_stdin, flush_client_data"])
p("Exact I/O helpers",
  "write_all reports success only after the whole buffer was written in order, read_all only after exactly the requested number of bytes was read, for any pattern of short reads, short writes and interruptions.",
  "all schedules of syscall results",
  "schedules",
  [L+"ioall.c: write_all, read_all, qubes_read_all_to_malloc"])
p("Message framing",
  "The payload bytes carried by stdin/stdout messages are the bytes read, in order, each message within the limit of the protocol version; end of input is signalled by exactly one empty message; the receiver reconstructs the stream.",
  "all byte streams and chunkings",
  "all chunkings",
  [L+"remote.c: handle_input_v2, handle_remote_data_v2"])
p("Service command parsing",
  "A QUBESRPC command line is split into service descriptor, service name, argument and source domain exactly as documented, over-long or malformed lines being refused; the search for a service implementation never leaves the configured directories by name.",
  "all command strings",
  "all inputs",
  [L+"exec.c: parse_qubes_rpc_command, find_file"])
p("Port validation",
  "A TCP port string is accepted exactly if it is the canonical decimal representation of a number in 1..65535.",
  "all strings",
  "all inputs",
  [L+"exec.c: validate_port"])
p("dom0 is dom0 everywhere",
  "The policy engine and the daemon agree on which target names mean dom0.",
  "all strings",
  "two implementations",
  [PP+": is_dom0", "daemon/qrexec-daemon-common.c: target_refers_to_dom0"])
p("Environment of services",
  "Services started by qrexec see none of the environment variables reserved for qrexec from the caller's environment; the reserved variables they see are the ones set for this call.",
  "all environments",
  "all inputs",
  [L+"exec.c: should_strip_env_var, exec_qubes_rpc2"])
p("Focus stealing protection",
  "The confirmation dialog reacts to the allow button only when the window has had focus continuously for the required time, whatever the sequence of focus, timer and key events.",
  "all event sequences",
  "schedules",
  ["qrexec/tools/qrexec_policy_agent.py: FocusStealingHelper, GtkOneTimerHelper"])
p("Confirmation returns only whitelisted targets",
  "The policy agent's dialog confirms only targets from the list sent by the policy engine.",
  "all inputs typed by the user",
  "all inputs",
  ["qrexec/tools/qrexec_policy_agent.py: VMListModeler, RPCConfirmationWindow"])
p("Lossless legacy conversion",
  "Converting the old policy to the new format keeps every rule: each rule of the old files is written to a file in the new format, in the same order for each service, and reads back as the same rule; nothing else is written, and the old files have no effect afterwards. So every call is decided as before.",
  "all old and new policy files, all calls",
  "all inputs",
  ["qrexec/tools/qrexec_legacy_convert.py: main, split_input_rules, RuleWrapper"])
p("Offered choices agree with direct calls",
  "A target is offered by an ask dialog exactly when a direct call to that target by the same caller would be decided by a rule that is not a deny rule.",
  "all policies, callers and targets",
  "all inputs",
  ["qrexec/policy/parser.py: AbstractPolicy.collect_targets_for_ask, AbstractPolicy.find_matching_rule"])
p("Only authorised calls run",
  "Whatever bytes a qube's agent sends, the daemon runs a command for it only if the policy engine decided in favour of exactly that call (caller, target, service and argument, claimed remote source), and then it runs the decided service at the decided target as the decided user on behalf of the decided caller; a decision in favour is carried out, a refusal ends the call with status 126.",
  "all agent messages, policies, systems, user answers and behaviours of a failing fallback",
  "the composition of sanitising, request text, evaluation, answer text and parsing must hold for every input",
  ["daemon/qrexec-daemon.c: handle_message_from_agent, connect_daemon_socket, parse_policy_response, handle_execute_service_child", "qrexec/tools/qrexec_policy_daemon.py: handle_client_connection"])
p("Fallback evaluation is equivalent",
  "When qrexec-policy-daemon is unavailable, the fallback evaluation by qrexec-policy-exec authorises exactly the same call, including the remote qube on whose behalf it is made.",
  "all calls, policies and systems",
  "all inputs",
  ["daemon/qrexec-daemon.c: connect_daemon_socket", "qrexec/tools/qrexec_policy_exec.py: get_result"])
p("Deprecated run mode runs the decided call",
  "qrexec-policy-exec invoked with a domain id and a process ident starts qrexec-client only if the call was allowed, for the decided target, user and service; a refusal exits with status 1.",
  "all calls, policies and systems",
  "all inputs",
  ["qrexec/tools/qrexec_policy_exec.py: get_result"])
p("Commands are forwarded unchanged",
  "What the daemon sends to an agent as a command is what one client sent: same type, peer domain and text, except that the user DEFAULT in front of a command is replaced by the default user; the announced length is that of the text; the port is the one the client named, in the range of data ports, or the one handed out to it.",
  "all states of the daemon and all events",
  "all inputs and all reachable states",
  ["daemon/qrexec-daemon.c: handle_cmdline_body_from_client"])
p("End-to-end stream integrity",
  "While the data connection is alive and the socket switch (SIGUSR1) is not used, what the client's end has written to its local process is at any time a prefix of what the service wrote to stdout, and what the service got on stdin is a prefix of what the client sent (its prefix data first), whatever the schedules of both ends; nothing is lost, duplicated, reordered or mixed with stderr.",
  "all pairs of schedules of the two ends (short reads and writes, would-block, signals, hang-ups), all data",
  "the space of interleavings and chunkings is unbounded",
  ["libqrexec/process_io.c: qrexec_process_io", "libqrexec/remote.c: handle_remote_data_v2, handle_input_v2", "libqrexec/write-stdin.c: write_stdin, flush_client_data"])
p("Exit code comes last and is delivered",
  "A service's exit code is sent once, after all its output and exactly one end of each stream; a client that got it returns exactly that code, having delivered the complete output.",
  "all pairs of schedules of the two ends, all data and exit codes",
  "the space of interleavings and chunkings is unbounded",
  ["libqrexec/process_io.c: qrexec_process_io", "libqrexec/remote.c: send_exit_code, handle_remote_data_v2"])
p("Bounded memory and single end of stream",
  "An end of a call keeps at most one chunk in memory for a local process that does not read, and never aborts for lack of it; it announces the end of each stream at most once.",
  "all schedules of one end, whatever the peer sends",
  "the space of schedules is unbounded",
  ["libqrexec/process_io.c: qrexec_process_io", "libqrexec/remote.c: handle_remote_data_v2", "libqrexec/buffer.c: buffer_append, buffer_remove"])
p("Which implementation of a service runs",
  "A call of SERVICE+ARG is served by the first entry named SERVICE+ARG in the configured directories, in their order, and only if there is none by the first one named SERVICE: a socket is connected to (and greeted with the command unless the service is configured otherwise), an executable is run; the call fails as not found exactly if there is no such entry.",
  "all file systems, search paths and calls",
  "all inputs and file system contents",
  ["libqrexec/exec.c: find_file, find_qrexec_service"])
p("TCP services connect only where configured",
  "A call leads to a TCP connection only if the entry found is a link to /dev/tcp; the connection goes to the host and port in the link, parts missing there being taken from the argument, and an argument is refused if nothing is missing; the port is a number in 1..65535.",
  "all file systems, links and arguments",
  "all inputs and file system contents",
  ["libqrexec/exec.c: find_qrexec_service, qubes_tcp_connect"])
p("The service learns who called it",
  "A service started for an allowed call sees as QREXEC_REMOTE_DOMAIN, QREXEC_SERVICE_FULL_NAME and QREXEC_SERVICE_ARGUMENT the caller, service and argument that the policy decided on, in dom0 also the requested target, and runs as the user that the policy decided on.",
  "all allowed calls, environments and login profiles",
  "it spans policy engine, daemon, agent and shell, for all inputs",
  ["daemon/qrexec-daemon.c: handle_execute_service", "libqrexec/exec.c: parse_qubes_rpc_command, exec_qubes_rpc2", "agent/qrexec-agent.c: do_exec"])
p("Service configuration is read strictly",
  "A service configuration file is accepted exactly if every line is empty, a comment or key = value in the supported subset of TOML, there is no NUL byte, and each known key occurs at most once with a value of its type; then exactly the settings stated are in effect, everything else has its default; unknown keys change nothing.",
  "all file contents",
  "the space of file contents is unbounded",
  ["libqrexec/toml.c: qubes_toml_config_parse, parse_toml_value"])
p("Which configuration governs a call",
  "The settings of a call of SERVICE+ARG come from the first file SERVICE+ARG in the configuration directories, and only if there is none from the first file SERVICE; without either the defaults apply. An unreadable or malformed file refuses the call, and so does a file that forces a user together with a setting that bypasses the user's session server.",
  "all file systems, file contents, search paths and calls",
  "all inputs and file system contents",
  ["libqrexec/exec.c: load_service_config_raw, load_service_config_v2, find_file", "libqrexec/toml.c: qubes_toml_config_parse"])
p("A command received is carried out exactly once",
  "Every command that the agent of a qube receives is carried out exactly once, with the settings read when it was received: at once, unless it is a service call whose settings ask to wait for a user session (and which is not marked as needing none); those held back are carried out when the process that waits for the session ends, and there is such a process as long as one is held back.",
  "all histories of messages, process ends, forks that fail, file systems",
  "the space of histories is unbounded",
  ["agent/qrexec-agent.c: handle_server_exec_request_init, handle_server_exec_request_do, wait_for_session_maybe, reap_children"])
p("The end of a connection is reported exactly once",
  "While fork succeeds and at most 256 connections exist at a time, the agent reports the end of each connection that it set up exactly once to the daemon, when the process serving it or its socket ends, with the domain and port of that connection.",
  "all histories of messages, process ends, socket events and local calls",
  "the space of histories is unbounded",
  ["agent/qrexec-agent.c: register_vchan_connection, release_connection, terminate_connection, reap_children, handle_terminated_fork_client, main"])
p("An answer goes to the local client that asked",
  "Whatever a local client sends, its call reaches the daemon with an identifier chosen by the agent: the connection parameters of the answer are written to that client's socket and to no other, a refusal closes that client's socket and no other, and no such call makes the daemon stop. A malformed call is dropped.",
  "all messages of local clients, all socket numbers",
  "the space of messages is unbounded",
  ["agent/qrexec-agent.c: handle_trigger_io, handle_server_exec_request_do, handle_service_refused", "daemon/qrexec-daemon.c: handle_message_from_agent, validate_request_id"])
p("The fork server runs the same command",
  "A command that the agent hands to the session server of a user is parsed there as the same command, service, argument and caller; it goes to the server of the user that the command is to run as, and only with settings that this server follows.",
  "all commands, configurations and histories",
  "the space of commands and histories is unbounded",
  ["agent/qrexec-agent.c: try_fork_server, handle_server_exec_request_do", "agent/qrexec-fork-server.c: handle_single_command", "libqrexec/exec.c: qrexec_cmd_use_fork_server, parse_qubes_rpc_command"])
p("Notifications tell what was decided",
  "A call decided by an allow or deny rule is announced to the user exactly as the rule's notify setting says: in the qube with the user's screen of the calling qube, at most once, with the service, the caller and the real target; a call refused by the user, and a mere evaluation of the policy, announce nothing more than the policy asks for.",
  "all policies, system descriptions, calls, answers of the user",
  "all inputs",
  ["qrexec/tools/qrexec_policy_exec.py: NotifyAllowedResolution, notify, handle_request", "qrexec/policy/parser.py: Action"])
p("Policy text is UTF-8",
  "A policy file is read as text only if all of its bytes form valid UTF-8 (RFC 3629: shortest form, no surrogates, at most U+10FFFF), and such a file is; a change of the policy whose content is not valid UTF-8 is refused and changes nothing.",
  "all byte strings",
  "all inputs",
  ["qrexec/policy/parser.py: AbstractFileLoader.load_policy_file", "qrexec/policy/admin.py: PolicyAdmin"])
p("The log of a service gets its stderr",
  "When the stderr of a service is to be copied to the log of the agent, the log gets exactly the bytes read from it, in order; when it is not, nothing.",
  "all schedules of reads, writes, signals and process ends, all data",
  "the space of schedules is unbounded",
  ["libqrexec/remote.c: handle_input_v2", "libqrexec/process_io.c: qrexec_process_io"])
p("A call ends when it is over, and not before",
  "An end of a connection leaves its loop at the next iteration once its three streams are closed and the local process has ended (the service then sends the exit code; the client also needs to have it), or once the peer has closed the connection and all it sent is delivered; it does not leave it before, unless waiting for events fails.",
  "all schedules and states of the connection",
  "the space of schedules is unbounded",
  ["libqrexec/process_io.c: qrexec_process_io", "libqrexec/remote.c: send_exit_code"])
p("One command per connection to the daemon",
  "Each connection of a local client to the daemon of a qube leads to at most one command sent to the agent, and only after the client said hello in a known version. A message that does not lead to a command disconnects the client, and so does anything sent after the command. Other clients are not affected.",
  "all histories of messages of clients",
  "the space of messages and histories is unbounded",
  ["daemon/qrexec-daemon.c: handle_message_from_client, handle_cmdline_message_from_client, handle_cmdline_body_from_client, handle_client_hello, terminate_client"])
p("The client of a call is told of its end",
  "When the agent of a qube reports the end of a connection, the local client that set this connection up is disconnected from the daemon at once, and no other client is.",
  "all histories of the daemon in which no client names the domain 0xFFFFFFFF",
  "the space of histories is unbounded",
  ["daemon/qrexec-daemon.c: handle_cmdline_body_from_client, release_vchan_port, terminate_client, handle_message_from_agent"])
p("A disposable lives as long as its call",
  "A call to a new disposable kills nothing but the qube that it created, at most once and after all else. A qube that was created for a call is killed at the end of the call, whatever goes wrong; once the connection is set up, not before the connection has ended.",
  "all answers of qubesd and of the daemons, all arguments",
  "all inputs and failure points",
  ["daemon/qrexec-daemon-common.c: qrexec_execute_vm, qubesd_call, negotiate_connection_params"])
p("A call reaches the qube it is for",
  "Running a call sends the command at most once, to the daemon of the target (or of the disposable created for it), with the number of the calling qube; then, if that daemon has chosen a connection, exactly its parameters go to the daemon of the calling qube for the identifier of the call; success is reported only if both were sent. Without autostart nothing is started or created.",
  "all answers of qubesd and of the daemons, all arguments",
  "all inputs and failure points",
  ["daemon/qrexec-daemon-common.c: qrexec_execute_vm, negotiate_connection_params, send_service_connect, connect_unix_socket"])
p("Both qubes of a call are told about the same connection",
  "When a call from one qube to another succeeds, the agent of the target gets the command and the agent of the caller the identifier of its call; each is told the number of the other qube, and both the same port.",
  "all states of both daemons, all calls",
  "all inputs and states",
  ["daemon/qrexec-daemon-common.c: qrexec_execute_vm", "daemon/qrexec-daemon.c: handle_cmdline_body_from_client"])
p("Both ends speak the same version",
  "After the handshake on a connection both ends use the same version of the protocol, the highest that both speak, or both have given up; so both have the same limit for the size of messages, and what one end sends arrives whole.",
  "all versions at both ends, whoever speaks first, all data and schedules",
  "all inputs and schedules",
  ["agent/qrexec-agent-data.c: handle_handshake", "daemon/qrexec-daemon-common.c: handle_agent_handshake", "daemon/qrexec-daemon.c: handle_agent_hello", "libqrexec/libqrexec-utils.h: max_data_chunk_size"])
p("A change that leaves a valid policy is accepted",
  "If the policy would load after a change of a policy file or include file, and the token of the request holds, then the request succeeds, and afterwards the file has the requested content (or is gone) and nothing else has changed. So a request is accepted exactly if the policy loads afterwards.",
  "all file trees, names, contents and tokens",
  "all inputs and trees",
  ["qrexec/policy/admin.py: PolicyAdmin._common_replace, _common_remove, _validate", "qrexec/policy/parser.py: ValidateParser"])
p("Names cannot act as markup", "Service, argument, source and target names are shown in the confirmation dialog and in notifications exactly as they are, whatever characters they contain; nothing in them is interpreted as markup.", "all names", "all strings", ["qrexec/tools/qrexec_policy_agent.py: escape_and_format_rpc_text, PolicyAgent.notify"])
p("Every offered target can be chosen", "Each target the policy engine offers for an ask rule is listed in the confirmation dialog and can be selected and confirmed; the default target is selected from the start.", "all policies, calls and system states", "all inputs", ["qrexec/tools/qrexec_policy_exec.py: AgentAskResolution.execute", "qrexec/tools/qrexec_policy_agent.py: VMListModeler, RPCConfirmationWindow"])
p("The policy graph shows what the policy lets through", "Every edge of the graph that qrexec-policy-graph draws is a call that the policy lets through (red without, orange after a question) from that qube to that target; and each call that the policy lets through between qubes of the system is an edge of the graph, whatever its service and argument.", "all policies, systems, options, calls", "all inputs", ["qrexec/tools/qrexec_policy_graph.py: main, handle_single_action", "qrexec/policy/parser.py: AbstractPolicy.evaluate"])
p("The conversion of the old policy loses no file", "Wherever qrexec-legacy-convert is stopped, everything that was in the policy directories before is still there with its content, under its name or with .bak or .rpmsave appended, and no two things under the same name.", "all file trees, policies, answers and points at which the tool is stopped, also in the middle of writing a file", "all crash points and inputs", ["qrexec/tools/qrexec_legacy_convert.py: main"])
p("The conversion of the old policy can be taken back", "If the policy after the conversion is not the same as before, the user is asked, and if they want the initial state back, all policy files are again as they were.", "all file trees and policies", "all inputs", ["qrexec/tools/qrexec_legacy_convert.py: main"])
p("The linter finds exactly the faulty lines", "qubes-policy-lint reports each line of a policy file (or, with -i, of a file for !include-service) that is not right in itself, whatever the included files are, and no other line; it exits with 0 exactly if nothing is reported. Files without reports load, if what they include can be loaded; a policy with a reported file does not load.", "all texts, file trees, lists of files", "all strings", ["qrexec/tools/qubes_policy_lint.py: lint, parse_file, parse_string_policy, main", "qrexec/policy/parser.py: StringPolicy, StringLoader, ToposortMixIn"])
p("Converted rules go where they can be edited", "qrexec-legacy-convert puts a rule into a file of the configuration tool (50-config-*) only if it is of a form that this tool has there, and into 30-user otherwise.", "all policies and rules", "all inputs", ["qrexec/tools/qrexec_legacy_convert.py: RuleWrapper.is_rule_compatible, main"])
p("Editing a policy file is safe",
  "qubes-policy-editor saves exactly the text that the editor left last, to exactly the file that was asked for, and only if the linter finds nothing wrong in it, the server accepts it, and the file has not been changed or created by anyone else since it was read. If it does not save, nothing changes and the text is kept. A text that the linter and the server accept is saved.",
  "all files, edits, answers of the user and changes by others while the editor runs",
  "all inputs and histories",
  ["qrexec/tools/qubes_policy_editor.py: main, validate_name, PolicyManager"])
p("qubes-policy does what was asked or nothing",
  "qubes-policy lists the files, prints a file, replaces a file by the standard input, or removes a file: with status 0 it has done exactly this to exactly the file named; with any other status nothing has changed; status 2 means that the arguments name no file. Saving what it printed does not change the policy.",
  "all arguments, inputs and states of the policy",
  "all inputs and states",
  ["qrexec/tools/qubes_policy.py: main, run_method"])


p("Calls go out as they were asked for",
  "A call made with qrexec-client-vm, or from Python with qrexec.client.call, asks the policy for exactly the target and the service that were named, with the name and the argument of the service joined by +, $ in the target written as @, and nothing taken for an option that was not one: the request passes through the agent and is understood by the daemon as that call if the service has a name and fits, and is refused otherwise. In dom0 the same call becomes a command line that the target understands as that call by dom0; a call to dom0 itself runs the program of the service.",
  "all targets, services, arguments and command lines spelled with the documented options",
  "the inputs are arbitrary texts and the request passes through three programs; tests use a few names",
  ["agent/qrexec-client-vm.c:main", "agent/qrexec-client-vm.c:convert_target_name_keyword", "qrexec/client.py:make_command", "agent/qrexec-agent.c:handle_trigger_io", "daemon/qrexec-client.c:main"])
p("What qrexec-client does is decided by its options",
  "qrexec-client makes a call, answers a call of another qube, or runs a service for dom0, exactly as its options say: at most one of -e, -l and -c; an identifier, a name and a number in C notation for -c; dom0 never appears as the caller of a connection, and dom0 runs nothing for itself but a service. Everything else ends the program without doing anything, with a status that is not 0 unless help was asked for.",
  "all command lines; for the documented options all their spellings, orders and values",
  "command lines are unbounded; options interact",
  ["daemon/qrexec-client.c:main", "daemon/qrexec-client.c:parse_connect", "daemon/qrexec-client.c:parse_int", "daemon/qrexec-daemon-common.c:target_refers_to_dom0"])

p("A call that cannot be started is reported to its caller",
  "For every command line that reaches a qube or dom0 over a connection that works: exactly the calls that can be started (the service is there and can be run or connected to, a process can be created) are served; for all others the caller is sent the end of both streams and an exit code, 127 if the machine has no such service and 125 otherwise, and no schedule makes the caller return another code once this has arrived. A call nobody waits for is answered with 0 exactly if it was started.",
  "all command lines, file systems, configurations, failures of the connection after any number of bytes and schedules of the caller",
  "the failure may happen at any point and any part of the answer may be lost; the caller reads it in any pieces",
  ["libqrexec/exec.c:execute_parsed_qubes_rpc_command", "agent/qrexec-agent-data.c:handle_just_exec", "agent/qrexec-agent-data.c:handle_new_process_common", "daemon/qrexec-daemon-common.c:run_qrexec_to_dom0", "daemon/qrexec-daemon-common.c:handshake_and_go", "daemon/qrexec-daemon-common.c:handle_failed_exec", "daemon/qrexec-client.c:main"])
p("A command runs as the user named, or not at all",
  "What the agent starts runs with the user id, the group ids and the login environment of the user named in the command line, or by the configuration of the service, after the system let that user in; if any step fails nothing runs and the status is 125. Every user who is let in can run commands. The status is the exit code of the command, or 128 plus the signal. An agent that is not root serves its own user only.",
  "all users, accounts, commands, configurations and failures of each step",
  "every step may fail; the accounts and the environment are arbitrary",
  ["agent/qrexec-agent.c:do_exec", "agent/qrexec-fork-server.c:do_exec", "daemon/qrexec-daemon.c:do_exec", "daemon/qrexec-client.c:do_exec", "libqrexec/exec.c:load_service_config_v2"])

p("The question reaches the user as asked, and the answer comes back as given",
  "What the policy engine asks the user (caller, service, argument, choices, default) is what the policy agent puts into its dialog, and what it wants to be announced is what the agent shows, whatever characters the names contain, both for an agent in dom0 and for one in another qube. The agent asks nothing that a well-formed request for policy.Ask does not say. The engine receives the answer of the dialog unchanged, and no failure on the way is ever taken for consent.",
  "all requests, names, icons, all byte strings sent to the agent, all JSON texts, all histories of the dialog, all failures of the transport",
  "The transport carries arbitrary Unicode text in JSON, in a stream with a textual header; tests use a few names.",
  ["qrexec/server.py:SocketService._client_connected", "qrexec/server.py:call_socket_service", "qrexec/tools/qrexec_policy_agent.py:PolicyAgent.handle_request", "qrexec/tools/qrexec_policy_exec.py:AgentAskResolution.execute"])
p("Waiting for a connection ends in time",
  "With a time limit, a program that waits for its peer waits exactly until the limit and not longer, however often it is interrupted; it succeeds exactly if the peer connects before that. Without a limit it waits as long as it takes. It never crashes because of the clock.",
  "all limits, all start times, all sequences of clock readings, signals, and events of the vchan",
  "Depends on the interleaving of signals, time and events, with borrows between seconds and nanoseconds.",
  ["libqrexec/vchan_timeout.c:qubes_wait_for_vchan_connection_with_timeout"])

p("The policy engine knows exactly the system that qubesd describes",
  "The policy engine asks qubesd over its internal socket for a description of the system. From a well-formed answer it knows every domain, under its name and under its uuid, with exactly the tags, type, templates, state and GUI domain that the answer gives it, and no other domain. If qubesd reports an error every call is denied, and any other answer, also one that is cut short at any byte, never leads to a decision about a smaller or different system. What is written for a call to qubesd says unambiguously which call it is.",
  "all answers (all byte strings, all JSON texts), all systems, all points at which the connection breaks, all calls",
  "The answer is an arbitrary text and the connection may break anywhere in it; names and uuids share one dictionary.",
  ["qrexec/utils.py:qubesd_call", "qrexec/utils.py:get_system_info", "qrexec/tools/qrexec_policy_exec.py:handle_request"])
p("A call from Python gives its input and returns the output",
  "call() and call_async() run the client program of this machine once, with the destination and service asked for and with exactly the input given (nothing, bytes, text or a file); they return everything the program wrote if it succeeded, and raise CalledProcessError with its status if not.",
  "all destinations, services, inputs, and all behaviours of the program",
  "The two versions share a helper whose result depends on the kind of input; only some kinds are tested.",
  ["qrexec/client.py:call", "qrexec/client.py:call_async", "qrexec/utils.py:prepare_subprocess_kwds"])

p("A running qube is reachable under its name, uuid and id, and under nothing else",
  "Provided a daemon is started for a qube only once the daemon that served it before has ended, and names are as Qubes allows them, connecting to the socket named after the name, the uuid or the id of a running qube leads to the daemon of that qube and to no other, whatever other qubes start, stop or crash in the meantime and whatever was left in the directory before. A daemon that ends in an orderly way leaves none of its three names behind, and no daemon touches names other than its own.",
  "all initial contents of the directory, all interleavings of starts, steps, losses of the agent, and ends of any number of daemons",
  "Depends on the interleaving of file system operations of independent processes.",
  ["daemon/qrexec-daemon.c:create_qrexec_socket", "daemon/qrexec-daemon.c:unlink_qrexec_socket", "daemon/qrexec-daemon.c:handle_agent_restart", "libqrexec/unix-server.c:get_server_socket"])
p("qrexec-daemon reports readiness truthfully",
  "The program qrexec-daemon ends with status 0 exactly if the daemon it left in the background serves the qube: then it is connected to the agent, has agreed with it on a protocol version and has created its sockets. It ends with status 3 exactly if the agent could not be reached within the time limit, which is QREXEC_STARTUP_TIMEOUT seconds if that is a positive number and 60 seconds otherwise, and with 1 for every other failure, also when the daemon is killed. Options, ids and numbers are read as documented, a missing uuid or an id that is not positive is an error.",
  "all command lines, environments, all points at which a step fails or the daemon is killed, all histories of the connection",
  "The outcome depends on which of many steps in another process fails, and on time.",
  ["daemon/qrexec-daemon.c:main", "daemon/qrexec-daemon.c:init", "libqrexec/vchan_timeout.c:qubes_wait_for_vchan_connection_with_timeout"])

p("Programs get their own ends of the call, and nobody keeps a copy",
  "A program that is started (a service, a command, the local program of a client, the logger, the policy program) has as its standard input, output and errors exactly the ends meant for it, and of qrexec's other descriptors it inherits none (the local program of qrexec-client-vm also has its caller's standard descriptors, in the numbers its environment names). Qrexec has the other ends, and neither it, nor the process that waits for a log-in session, nor a program started later, keeps a copy of an end it has given away, so that the end of a stream is noticed. This holds whatever descriptors are open; a program of qrexec whose standard input, output or errors are closed refuses to run.",
  "all descriptor tables and limits, all combinations of flags, kernels with and without close_range",
  "Descriptor numbers depend on everything opened before; a leak shows only as a hang.",
  ["libqrexec/log.c:setup_logging", "libqrexec/exec.c:fix_fds", "libqrexec/exec.c:do_fork_exec", "libqrexec/open_logger.c:open_logger", "agent/qrexec-agent-data.c:handle_just_exec", "agent/qrexec-agent.c:do_exec", "agent/qrexec-client-vm.c:main", "daemon/qrexec-daemon.c:connect_daemon_socket"])

p("The daemon attends to exactly those that are ready",
  "In each turn of its loop the daemon handles the children that have ended and then, if poll was not interrupted and the agent is connected, the new client (if there is one), all messages of the agent, and every connected client that has something, each once, and no other client. It accepts and reads clients only when there is space to pass on their messages. A client that connects in a turn is not taken for one that was polled in it, even if that one's descriptor is closed in the same turn. The table passed to poll has room for all clients, the assertion about it holds, and whatever happens over the turns is one of the histories all other statements about the daemon speak of.",
  "all histories of turns, all results of poll, all orders of events, all messages",
  "Depends on which descriptors become ready and are closed and reused within a single turn.",
  ["daemon/qrexec-daemon.c:main", "daemon/qrexec-daemon.c:handle_new_client"])
p("The agent ends exactly the connections whose peers are gone",
  "In each turn of its loop the agent handles the children that have ended and then, if poll was not interrupted, closes and reports exactly those connections whose own descriptor has something, in the order of the table, then handles all messages of the daemon, then the local client that connects. Connections and local clients count only when there is space in the vchan. The entries of the table passed to poll and the connections are matched correctly: the program never aborts and none of its assertions about them fails, and the table has room. Whatever happens over the turns is one of the histories all other statements about the agent speak of.",
  "all tables of connections, all histories, all results of poll",
  "Two loops over the same table have to agree on positions for every content of the table.",
  ["agent/qrexec-agent.c:main", "agent/qrexec-agent.c:handle_terminated_fork_client", "agent/qrexec-agent.c:release_connection"])

p("A socket service is reached under a name of any length",
  "When a service is a socket, the connection that is made is to the server that listens under the name of the service, also if the name does not fit into a socket address, if there are links on the way, and if connecting is interrupted. It is made whenever the system calls succeed. While it is made, nothing outside of one new directory in /tmp changes, and in the end, also after an error, everything is as it was.",
  "all absolute names of any length, all contents of the file system, all failures and interruptions of system calls",
  "Names of 108 bytes and more, link loops and failures between two steps are not covered by any list of examples.",
  ["libqrexec/exec.c:qubes_connect", "libqrexec/exec.c:find_qrexec_service"])
p("Servers are found under the names they were started with",
  "A server that has been started on a socket is found under its name, whatever was there before, and no other name changes. A command for a user is given to the fork server that this user has started last, never to that of another user. qrexec-client-vm connects to the socket it was told to.",
  "all names, all file systems, all histories of fork servers that are started and ended by any users",
  "Depends on the lengths of names and on the order in which servers come and go.",
  ["libqrexec/unix-server.c:get_server_socket", "agent/qrexec-agent.c:try_fork_server", "agent/qrexec-client-vm.c:connect_unix_socket", "agent/qrexec-fork-server.c:main"])
p("A fork server runs each command it is given, once",
  "For each connection in the order in which they come, the fork server runs the command if its length is announced correctly and its only NUL byte is at the end, and nothing otherwise. What comes in on one connection changes nothing for the others. It goes on until no more connections can be accepted.",
  "all sequences of connections with any contents",
  "All sequences of good and bad requests.",
  ["agent/qrexec-fork-server.c:main", "agent/qrexec-fork-server.c:handle_single_command"])

p("The installed policy gives the policy services to those named in two files, and to nobody when these are as installed",
  "With the installed files, a call of a policy service is decided as if its place held, for the five reading services, the lines of include/admin-policy-rwx followed by the lines of include/admin-policy-ro, for the four writing services the lines of include/admin-policy-rwx only, each for that service and all arguments, and for any other service nothing. Whoever may write may read. When no line has been added to these files and there are no other policy files, every call of every service is refused.",
  "all lines added to the two files, all files these include, all rules before and after, all calls",
  "Depends on lines that administrators will write, combined with every call.",
  ["policy.d/90-admin-policy-default.policy", "policy.d/include/admin-policy-ro", "policy.d/include/admin-policy-rwx", "policy.d/35-compat.policy", "qrexec/policy/parser.py:AbstractFileSystemLoader"])

p("qrexec-agent does what its command line says, and leaves no socket behind when told to end",
  "The agent listens on the socket given last on its command line, looks for fork servers where it was said last (with the name of the user put in), and hands nothing over to fork servers if it was said last that there are none; with --help it only prints its usage (status 2). When it reports that it is ready, the daemon is connected and the socket is served by it. No other name changes. On SIGTERM it ends with status 0 after the turn it is in, whatever else would come, and the name of the socket is gone; it ends with status 0 for no other reason. After any other end the next agent can serve the name.",
  "all command lines, all sequences of turns, all times of SIGTERM, all failures at start",
  "Depends on the order of options and on when the signal comes.",
  ["agent/qrexec-agent.c:main", "agent/qrexec-agent.c:init", "agent/qrexec-agent.c:try_fork_server"])

p("A service learns the true caller and the true service, on the whole way from the qube that calls",
  "Whatever is started because a qube asked for a service (qrexec-client-vm, its agent, the daemon for the qube, the policy daemon, the daemon's child, the agent of the called qube or dom0) was decided for by the policy for exactly this call, with the text of target and service as sanitized. It is the program of the service that is started, as the user of the rule, with the argument of the call; its QREXEC_REMOTE_DOMAIN is the calling qube, or a remote qube that the calling qube relays for, never another one; in dom0 it also learns the target that was asked for. What the policy decides for is started. (For service names of up to 255 bytes, calls of up to 64000, users without a colon in the policy, transport services without blanks and plus signs.)",
  "all contents of the messages, all policies, all systems of qubes, all answers of the user, all states of the receiving agent",
  "The claim is about the composition of six programs: a gap between what one writes and the next reads shows only for particular contents.",
  ["agent/qrexec-client-vm.c:main", "agent/qrexec-agent.c:handle_trigger_io", "daemon/qrexec-daemon.c:handle_message_from_agent", "daemon/qrexec-daemon.c:handle_execute_service_child", "qrexec/tools/qrexec_policy_daemon.py:handle_client_connection", "qrexec/policy/parser.py:AllowResolution", "libqrexec/exec.c:parse_qubes_rpc_command", "libqrexec/exec.c:exec_qubes_rpc2"])

p("Both ends of an allowed call between two qubes get to know each other",
  "A program in one qube asks its agent for a service; the policy decides for another qube, and qrexec-daemon has sent its messages to both daemons without an error. Then one port was reserved by the daemon of the called qube, and (as the first command for this call) its agent is given the port and the number of the calling qube, with a command that runs the service as the user of the rule, or as the default user of the called qube when the rule names none, with the true caller and service. The agent of the calling qube is either told nothing (its daemon has forgotten the call, as after a termination) or gives the program that asked, over the very descriptor on which it asked, the number of the called qube and the same port.",
  "all contents of the messages, all policies, all systems of qubes, all answers of the user, all states of the two daemons and of the two agents",
  "Seven processes in three machines take part; that the same call, port and descriptor is meant throughout depends on the state of each of them.",
  ["agent/qrexec-agent.c:handle_trigger_io", "agent/qrexec-agent.c:handle_server_exec_request_init", "daemon/qrexec-daemon.c:handle_message_from_agent", "daemon/qrexec-daemon.c:handle_cmdline_body_from_client", "daemon/qrexec-daemon-common.c:qrexec_execute_vm", "qrexec/tools/qrexec_policy_daemon.py:handle_client_connection"])

p("A call that waits for a session finds the session of its user",
  "qubes.WaitForSession ends, in a qube with a graphical interface, at the first time that it finds a session server of the user, and then with the status of the user's systemd; in dom0 and without a graphical interface it does not wait for a server; an argument is refused. A call that qrexec-agent has held back for the session of its user is, when the waiting process ends, handed over to the server of this session, if the server is still there and takes such calls.",
  "all times at which session servers start and end, all times of looking, all histories of the agent, all calls",
  "Depends on what happens while a script sleeps, and on two programs that agree on the name of a file.",
  ["qubes-rpc-base/qubes.WaitForSession", "agent/qrexec-agent.c:wait_for_session_maybe", "agent/qrexec-agent.c:reap_children", "agent/qrexec-agent.c:try_fork_server", "libqrexec/exec.c:exec_wait_for_session"])

p("Both ends of a call that is served in dom0 get to know each other",
  "A program in a qube asks its agent for a service and the policy decides that it is served in dom0. The program that serves it asks the daemon of that qube for a connection. If the daemon has not lost the call and has a free port, the program connects to that qube over the port that the daemon reserved, and serves the command that was decided for, for the true caller; and the agent of the qube gives the program that asked the number 0 and the same port, on the descriptor over which it asked. Otherwise the daemon tells the agent nothing, and the program starts nothing and ends with status 125.",
  "all contents of the messages, all policies, all systems of qubes, all answers of the user, all states of the daemon and of the agent",
  "Six processes in two machines take part; that the same call, port and descriptor is meant throughout depends on the state of each of them.",
  ["daemon/qrexec-daemon-common.c:run_qrexec_to_dom0", "daemon/qrexec-daemon-common.c:negotiate_connection_params", "daemon/qrexec-daemon.c:handle_cmdline_body_from_client", "daemon/qrexec-daemon.c:handle_execute_service_child", "agent/qrexec-agent.c:handle_server_exec_request_init", "agent/qrexec-agent.c:handle_trigger_io"])

p("The policy graph goes where it was asked for, and nowhere else; what was there stays when it cannot be drawn",
  "qrexec-policy-graph with --output writes the graph to that file, puts nothing on its standard output and changes no other file; without --output the graph is on the standard output and no file is changed. It ends with status 0 exactly when there is a description of the system, the policy can be read and the graph can be drawn. With an option that it does not accept it changes nothing. A run that fails leaves the file named for the output as it was.",
  "all options, all contents of the files, all policies, all systems of qubes, all points of failure",
  "Depends on the order of opening, reading and writing, and on which files are the same.",
  ["qrexec/tools/qrexec_policy_graph.py:main", "qrexec/tools/qrexec_policy_graph.py:handle_single_action"])

if __name__ == "__main__":
    with open("/verif/properties.jsonl", "w") as f:
        for x in P: f.write(json.dumps(x)+"\n")
    print(len(P))
