# Design of the Rocq model of qubes-core-qrexec

This file is written by `tools/gen_design.py` from `tools/design_head.md`, `tools/design_findings.md`,
`properties.jsonl`, `MANIFEST.json` and the theory files.

## Layout

* `rocq/theories/` – four kinds of files:
  * *model files* (listed under "What is modelled"): one definition per function of /repo, each with a
    comment that names file and lines and says what is simplified;
  * `Spec*.v` – small specifications in plain terms (grammars, relations, histories). They do not use
    the functions of the model, only its data types (a token, a rule, an event, ...) and the elementary
    operations on texts of `Base.v`;
  * `*Proofs.v` and a few others – lemmas;
  * `Props_*.v` – the theorems named in MANIFEST.json. Names begin with the number of the property;
    `_partial` marks a theorem that proves only part of a property, `_refuted` a theorem that exhibits
    a run of the modelled code that violates the property as stated. Examples beside the theorems show
    that the hypotheses are met by concrete, non-trivial cases.
* `properties.jsonl` – the properties in English; `MANIFEST.json` – their theorems;
  `seeded/LOG.jsonl` – wrong programs tried against the theorems.
* `tools/` – the generators of the three files above.

## How the code is represented

* Shallow embedding. A Python function is a total Gallina function into `res A := Ok a | Err e` (or
  `option`), with a constructor of `exn` for each exception class that matters: an exception that leaves
  a function is a result, so "never raises" is a statement. C functions are total functions; `exit`,
  `abort` and `_exit` are results.
* State is an explicit record or map (tables of the daemon, buffers, files, notification queues).
  Everything the program does not control is an argument or an event that the theorems quantify over:
  the order of directory listings, results of system calls (short reads and writes, EINTR, EAGAIN, errors),
  messages of other parties, signals, ends of processes, clicks of the user, the moment at which a
  program is stopped, changes of files by others. Histories are lists of events of any length.
* Texts are Coq `string`s, i.e. sequences of bytes. A Python `str` is the sequence of its characters up
  to 255; where the encoding matters (policy files, C74) bytes are decoded explicitly. White space is ASCII
  white space.
* Integers are `Z` where C integers are read from messages (with their sizes written as bounds), `nat` for
  lengths and indices.
* Recursion through included files uses a counter; running out of it is the distinguished error `EFuel`,
  which the theorems exclude or treat as an error of the program (Python's recursion limit).
* Properties that need unbounded quantification are proved by induction on texts, rule lists, file lists,
  event lists and by invariants of the state machines; there is no search and no bound.

## Trusted base

* The Coq 8.16.1 kernel (checked again by `coqchk`), the OCaml compiler and runtime it was built with, and
  the machine.
* Axioms: none. `Print Assumptions` says "Closed under the global context" for every one of the
  523 theorems named in MANIFEST.json (`tools/gen_design.py --check` runs it for all of them; the table at
  the end of this file lists them). The libraries loaded are only Coq's own (String, Ascii, List, Bool, Arith, ZArith,
  Lia, Permutation, Sorted, ...). `coqchk` lists the seven parameters of `Coq.ssr.ssrunder.Under_rel` because
  `Lia` loads that part of the standard library; no theorem depends on them.
* No kernel check is switched off; no functors, module types, `Admitted`, axioms, section-less variables.
* The correspondence between the model and /repo, made by reading. The comments at each definition say
  which lines it models. `seeded/LOG.jsonl` shows that the theorems react to changes of the model.
* The C and Python semantics implied by the model: standard library functions (`str.split`, `shlex`-free
  parsing, `strtol`, `sscanf`, `strncpy`, `getopt_long`, `json`, `os.scandir`, `hashlib`) are modelled by their
  documented behaviour; the kernel's file system operations (rename is atomic, O_EXCL), pipes, Unix
  sockets, inotify and Xen's vchan by theirs.

## What is modelled

| source | model | not modelled |
|---|---|---|
| qrexec/utils.py | `SysInfo`, `Qubesd`, `PyClient`, `Sanitize` | failures of the socket; answers of qubesd that are not ASCII |
| qrexec/policy/parser.py (tokens, rules, requests, evaluation, resolutions) | `Token`, `Rule`, `Policy`; printing of rules in `Rule` | `__repr__` |
| qrexec/policy/parser.py (files, includes, loaders, validation, StringPolicy), parser_compat.py | `FileSys`, `Loader`, `LineLoader`, `Lint` | symbolic links in the policy directories; order computed by ToposortMixIn (nothing uses it correctly: finding) |
| qrexec/policy/admin.py, admin_client.py, tools/qubes_policy_admin.py | `Admin` | failures of chmod, chown and of the lock; fsync (there is none in the code) |
| qrexec/policy/utils.py (cache) | `Cache` | pyinotify's automatic watches of renamed sub-directories |
| qrexec/tools/qrexec_policy_exec.py | `PolicyExec` | creation of a default policy by the deprecated option |
| qrexec/tools/qrexec_policy_daemon.py | `PolicyDaemon` | asyncio itself; start_serving |
| qrexec/tools/qrexec_policy_agent.py | `Dialog` | drawing, icons, the error bar |
| qrexec/tools/qrexec_policy_graph.py | `Graph`, `GraphFile` | reading JSON, failing writes |
| qrexec/tools/qrexec_legacy_convert.py | `Convert` | texts printed, permissions, failing writes |
| qrexec/tools/qubes_policy_lint.py | `Lint` | reading standard input; texts of messages |
| qrexec/tools/qubes_policy.py, qubes_policy_editor.py | `Editor` | texts of messages; failing standard input and output |
| qrexec/client.py | `ClientTools`, `PyClient` | the subprocess module (as documented) |
| qrexec/server.py | `Json`, `Server` | |
| qubes-rpc-dom0/policy.RegisterArgument | `RegisterArgument` | log messages |
| daemon/qrexec-daemon.c | `DaemonState` (tables, messages, clients, children), `DaemonAgent` (messages of the agent), `DaemonPolicy` (policy questions and answers), `Handshake`, `SocketDir` (names of the sockets), `DaemonStart` (command line and start-up), `DaemonLoop` (the main loop) | reconnection is an event; failures of symlink() |
| daemon/qrexec-daemon-common.c | `ExecuteVm`, `Dom0Call`, `DaemonPolicy`, `Spawn` | |
| daemon/qrexec-client.c | `ClientTools`, `Login` (user of dom0 programs) | --socket-dir |
| agent/qrexec-agent.c | `Agent`, `AgentLoop` (the main loop), `AgentStart` (command line, start, end), `Login` (log-in of the named user, the environment, giving up of rights) | what PAM itself does (an event), the text of the systemd notification, waking of meminfo-writer |
| agent/qrexec-agent-data.c | `ProcessIo`, `Stream`, `Handshake`, `Spawn` | SIGCHLD plumbing (an event) |
| agent/qrexec-client-vm.c | `ClientTools`, `Fds`, `UnixSocket` | |
| agent/qrexec-fork-server.c | `Agent`, `Login`, `UnixSocket` (socket, main loop) | |
| libqrexec/buffer.c, write-stdin.c, replace.c, remote.c | `Stream` | |
| libqrexec/process_io.c | `ProcessIo` | |
| libqrexec/ioall.c, txrx-vchan.c | `Io` | libvchan itself |
| qubes-rpc-base/qubes.WaitForSession | `WaitSession` | qubesdb-read, systemctl and id are events |
| policy.d/ | `ShippedPolicy` | README |
| libqrexec/exec.c | `Exec`, `Toml` (service configuration), `Spawn`, `Fds` (descriptors of new programs), `UnixSocket` (qubes_connect) | getaddrinfo and connecting to TCP ports |
| libqrexec/toml.c | `Toml` | read errors |
| libqrexec/vchan_timeout.c | `VchanTimeout` | overflow of time_t |
| libqrexec/unix-server.c | `SocketDir`, `UnixSocket` | modes and limits of sockets |
| libqrexec/open_logger.c | `Fds` | |
| libqrexec/log.c | `Fds` (setup_logging) | what is logged |

Failures of malloc and similar (which end the programs) are not modelled anywhere. The tests, the packaging
and the documentation of /repo are out of scope.

## The properties

For each property: what is modelled (the sources it is about), how it is proved, and the theorems. All theorems are
closed under the global context.

### C01 First matching rule decides (proved)

The verdict on a call is the verdict of the first rule, in load order, whose service, argument, source and target columns match the call; when no rule matches the call is denied. Rules after the first match cannot turn a deny into anything else, nor change what an allow rule grants.

* Quantifies over: every rule list, every call, every system description
* Code: `qrexec/policy/parser.py: AbstractPolicy.find_matching_rule, AbstractPolicy.evaluate, Rule.is_match`
* Theorems (in `Props_Policy`; vocabulary in `SpecPolicy`, `SpecRule`): `C01_verdict_from_first_match`, `C01_no_match_denied`, `C01_deny_decides`, `C01_allow_decides`, `C01_ask_decides`, `C01_later_rules_irrelevant`
* Columns naming a disposable template by uuid are excluded when the call target is @dispvm (see C05).

### C02 No allow without authority (proved)

Whenever policy evaluation of a call answers result=allow, the first matching rule is an allow rule, or it is an ask rule and the target chosen by the user (or assumed) is one of the offered targets; the target named in the answer is the rule's redirect, the call's own target or the chosen target, with @adminvm written as dom0 and @dispvm replaced by the caller's default disposable template.

* Quantifies over: every policy, call, system description and user answer
* Code: `qrexec/policy/parser.py: Allow.evaluate, Ask.evaluate, AllowResolution.execute, AskResolution.handle_user_response`, `qrexec/tools/qrexec_policy_exec.py: handle_request`
* Theorems (in `Props_Policy`; vocabulary in `SpecPolicy`, `SpecRule`): `C02_answer_authorised`

### C03 Evaluation fails closed (proved)

If loading the policy, validating the request or evaluating it is refused for any reason, the answer of the evaluation service is exactly result=deny; every answer it gives is either result=deny or an allow answer produced by an allow resolution.

* Quantifies over: every policy text, call, system description and user answer
* Code: `qrexec/tools/qrexec_policy_exec.py: handle_request`
* Theorems (in `Props_Policy`; vocabulary in `SpecPolicy`, `SpecRule`): `C03_fails_closed`, `C03_policy_error_denied`, `C03_system_error_denied`, `C03_refused_call_denied`, `C03_denied_call_denied`
* Where the code raises another exception there is no answer at all.

### C04 Token grammar per column (proved)

A source, target, redirect or requested-target field is accepted exactly when it is a non-empty plain name, or one of the keywords documented for that position (with a non-empty value, not itself starting with @, after a prefix keyword); an accepted token prints back as exactly the text it was parsed from.

* Quantifies over: all strings in each of the four positions
* Code: `qrexec/policy/parser.py: VMToken.__new__, Source, Target, Redirect, IntendedTarget`
* Theorems (in `Props_Policy`; vocabulary in `SpecPolicy`, `SpecRule`): `C04_token_grammar`

### C05 Meaning of source and target columns (partial)

A column matches a qube exactly according to its documented meaning: a plain name or uuid: matches that qube under either designation, @adminvm/dom0/the zero uuid match only dom0, @anyvm matches everything except dom0, * matches everything, @type:/@tag: match existing qubes with that type/tag, @default and @dispvm match only themselves, @dispvm:NAME and @dispvm:@tag: match disposable requests whose template is NAME / carries the tag.

* Quantifies over: all tokens, qubes and system descriptions in which evaluation does not crash
* Code: `qrexec/policy/parser.py: VMToken.match and its overrides, match_strings, is_dom0`
* Theorems (in `Props_Policy`; vocabulary in `SpecPolicy`, `SpecRule`): `C05_target_column_partial`, `C05_source_column`, `C05_uuid_dispvm_refuted`
* False of the code for @dispvm:uuid: columns against @dispvm calls; proved otherwise.

### C06 Rule matching never crashes (partial)

Deciding whether a rule matches a call always yields yes or no.

* Quantifies over: all rules, calls and well-formed system descriptions
* Code: `qrexec/policy/parser.py: DispVMTemplate.match, DispVMTag.match, Rule.is_match`
* Theorems (in `Props_Policy`; vocabulary in `SpecPolicy`, `SpecRule`): `C06_matching_total_partial`, `C06_matching_total_refuted`
* False of the code for @dispvm calls by qubes without default_dispvm.

### C07 Unknown and invalid targets (proved)

A call to a qube that does not exist is evaluated as a call to @default; a call to @dispvm:NAME is refused unless NAME is an existing template for disposables; an empty target means @default.

* Quantifies over: all calls and system descriptions
* Code: `qrexec/policy/parser.py: IntendedTarget.verify, DispVMTemplate.verify, Request.__init__`
* Theorems (in `Props_Policy`; vocabulary in `SpecPolicy`, `SpecRule`): `C07_C08_calls`, `C07_unknown_is_default`

### C08 Only the relay may speak for a remote qube (proved)

A call made on behalf of another source is evaluated with that source only if it exists, is a RemoteVM and names the actual caller as its relay; in every other case the call is refused; without such a claim the source is the actual caller.

* Quantifies over: all calls, claimed sources and system descriptions
* Code: `qrexec/policy/parser.py: Request.__init__`
* Theorems (in `Props_Policy`; vocabulary in `SpecPolicy`, `SpecRule`): `C07_C08_calls`, `C08_only_relay`

### C09 Choices offered for ask (proved)

The targets offered to the user by an ask rule without redirect are exactly those for which, among the rules matching service, argument and source, the first rule whose target specification covers that target is not a deny rule, after resolving @dispvm and @adminvm and removing the caller itself and internal qubes.

* Quantifies over: all rule lists, calls and system descriptions (when collection does not crash)
* Code: `qrexec/policy/parser.py: AbstractPolicy.collect_targets_for_ask`
* Theorems (in `Props_Policy`; vocabulary in `SpecPolicy`, `SpecRule`): `C09_choices`

### C10 Ask evaluation never crashes (partial)

Evaluating an ask rule yields a list of choices or a refusal, whatever other rules are in the policy.

* Quantifies over: all policies, calls, well-formed system descriptions
* Code: `qrexec/policy/parser.py: DispVMTemplate.expand, AbstractPolicy.collect_targets_for_ask`
* Theorems (in `Props_Policy`; vocabulary in `SpecPolicy`, `SpecRule`): `C10_ask_total_partial`, `C10_ask_total_refuted`
* False of the code when a rule names a disposable template that does not exist.

### C100 A call from Python gives its input and returns the output (partial)

call() and call_async() run the client program of this machine once, with the destination and service asked for and with exactly the input given (nothing, bytes, text or a file); they return everything the program wrote if it succeeded, and raise CalledProcessError with its status if not.

* Quantifies over: all destinations, services, inputs, and all behaviours of the program
* Code: `qrexec/client.py:call`, `qrexec/client.py:call_async`, `qrexec/utils.py:prepare_subprocess_kwds`
* Theorems (in `Props_PyClient`; vocabulary in `SpecUtf8`): `C100_call`, `C100_async_partial`, `C100_async_refuted`
* False of the code for call_async: without input, or with a file, it raises KeyError and runs nothing (C100_async_refuted). For bytes and text it is equal to call().

### C101 A running qube is reachable under its name, uuid and id, and under nothing else (proved)

Provided a daemon is started for a qube only once the daemon that served it before has ended, and names are as Qubes allows them, connecting to the socket named after the name, the uuid or the id of a running qube leads to the daemon of that qube and to no other, whatever other qubes start, stop or crash in the meantime and whatever was left in the directory before. A daemon that ends in an orderly way leaves none of its three names behind, and no daemon touches names other than its own.

* Quantifies over: all initial contents of the directory, all interleavings of starts, steps, losses of the agent, and ends of any number of daemons
* Code: `daemon/qrexec-daemon.c:create_qrexec_socket`, `daemon/qrexec-daemon.c:unlink_qrexec_socket`, `daemon/qrexec-daemon.c:handle_agent_restart`, `libqrexec/unix-server.c:get_server_socket`
* Theorems (in `Props_SocketDir`; vocabulary in `SpecSocketDir`): `C101_reachable`, `C101_starts`, `C101_clean`, `C101_only_own`, `C101_race`, `C101_overlap_refuted`, `C101_number_refuted`
* Both conditions are needed: C101_overlap_refuted (the daemon of the qube's previous run removes the links of the new one) and C101_number_refuted. Failures of symlink() are only logged by the code and are not modelled.

### C102 qrexec-daemon reports readiness truthfully (proved)

The program qrexec-daemon ends with status 0 exactly if the daemon it left in the background serves the qube: then it is connected to the agent, has agreed with it on a protocol version and has created its sockets. It ends with status 3 exactly if the agent could not be reached within the time limit, which is QREXEC_STARTUP_TIMEOUT seconds if that is a positive number and 60 seconds otherwise, and with 1 for every other failure, also when the daemon is killed. Options, ids and numbers are read as documented, a missing uuid or an id that is not positive is an error.

* Quantifies over: all command lines, environments, all points at which a step fails or the daemon is killed, all histories of the connection
* Code: `daemon/qrexec-daemon.c:main`, `daemon/qrexec-daemon.c:init`, `libqrexec/vchan_timeout.c:qubes_wait_for_vchan_connection_with_timeout`
* Theorems (in `Props_DaemonStart`; vocabulary in `SpecClient`, `SpecDaemonStart`, `SpecTimeout`): `C102_ready`, `C102_order`, `C102_own_status`, `C102_works`, `C102_nowait`, `C102_command_line`, `C102_option_names`, `C102_number`, `C102_wrap_refuted`, `C102_limit`, `C102_connect`
* With QREXEC_STARTUP_NOWAIT success is reported at once (C102_nowait). A number outside the range of an int is read as another one and text after a number is ignored (C102_wrap_refuted).

### C103 Programs get their own ends of the call, and nobody keeps a copy (proved)

A program that is started (a service, a command, the local program of a client, the logger, the policy program) has as its standard input, output and errors exactly the ends meant for it, and of qrexec's other descriptors it inherits none (the local program of qrexec-client-vm also has its caller's standard descriptors, in the numbers its environment names). Qrexec has the other ends, and neither it, nor the process that waits for a log-in session, nor a program started later, keeps a copy of an end it has given away, so that the end of a stream is noticed. This holds whatever descriptors are open; a program of qrexec whose standard input, output or errors are closed refuses to run.

* Quantifies over: all descriptor tables and limits, all combinations of flags, kernels with and without close_range
* Code: `libqrexec/log.c:setup_logging`, `libqrexec/exec.c:fix_fds`, `libqrexec/exec.c:do_fork_exec`, `libqrexec/open_logger.c:open_logger`, `agent/qrexec-agent-data.c:handle_just_exec`, `agent/qrexec-agent.c:do_exec`, `agent/qrexec-client-vm.c:main`, `daemon/qrexec-daemon.c:connect_daemon_socket`
* Theorems (in `Props_Fds`; vocabulary in `SpecFds`): `C103_service`, `C103_starts`, `C103_login`, `C103_just_exec`, `C103_policy_program`, `C103_local_program`, `C103_session`, `C103_session_refuted`, `C103_checked`, `C103_refuses`, `C103_goes_on`, `C103_check_needed`, `C103_local_starts`, `C103_just_exec_starts`, `C103_policy_starts`, `C103_session_starts`
* The condition on the standard descriptors holds for all five programs (C103_checked) and is needed (C103_check_needed). qubes.WaitForSession, which is not a call, inherits descriptors of the agent (C103_session_refuted). Kernels without close_range: descriptors from 256 on must be close-on-exec.

### C104 The daemon attends to exactly those that are ready (proved)

In each turn of its loop the daemon handles the children that have ended and then, if poll was not interrupted and the agent is connected, the new client (if there is one), all messages of the agent, and every connected client that has something, each once, and no other client. It accepts and reads clients only when there is space to pass on their messages. A client that connects in a turn is not taken for one that was polled in it, even if that one's descriptor is closed in the same turn. The table passed to poll has room for all clients, the assertion about it holds, and whatever happens over the turns is one of the histories all other statements about the daemon speak of.

* Quantifies over: all histories of turns, all results of poll, all orders of events, all messages
* Code: `daemon/qrexec-daemon.c:main`, `daemon/qrexec-daemon.c:handle_new_client`
* Theorems (in `Props_DaemonLoop`; vocabulary in `SpecState`, `SpecDaemonLoop`): `C104_turn`, `C104_history`, `C104_room`, `C104_space`, `C104_served`, `C104_new_apart`
* Failures of the vchan inside a handler are not modelled. C104_new_apart assumes that accept does not give the number of an open descriptor. A turn has a finite number of messages of the agent: one that sends without pause keeps the loop in 1809 busy.

### C105 The agent ends exactly the connections whose peers are gone (proved)

In each turn of its loop the agent handles the children that have ended and then, if poll was not interrupted, closes and reports exactly those connections whose own descriptor has something, in the order of the table, then handles all messages of the daemon, then the local client that connects. Connections and local clients count only when there is space in the vchan. The entries of the table passed to poll and the connections are matched correctly: the program never aborts and none of its assertions about them fails, and the table has room. Whatever happens over the turns is one of the histories all other statements about the agent speak of.

* Quantifies over: all tables of connections, all histories, all results of poll
* Code: `agent/qrexec-agent.c:main`, `agent/qrexec-agent.c:handle_terminated_fork_client`, `agent/qrexec-agent.c:release_connection`
* Theorems (in `Props_AgentLoop`; vocabulary in `SpecMain`, `SpecAgentLoop`): `C105_turn`, `C105_own`, `C105_room`
* Failures of the vchan inside a handler are not modelled.

### C106 A socket service is reached under a name of any length (proved)

When a service is a socket, the connection that is made is to the server that listens under the name of the service, also if the name does not fit into a socket address, if there are links on the way, and if connecting is interrupted. It is made whenever the system calls succeed. While it is made, nothing outside of one new directory in /tmp changes, and in the end, also after an error, everything is as it was.

* Quantifies over: all absolute names of any length, all contents of the file system, all failures and interruptions of system calls
* Code: `libqrexec/exec.c:qubes_connect`, `libqrexec/exec.c:find_qrexec_service`
* Theorems (in `Props_Socket`; vocabulary in `SpecSocket`): `C106_right_server`, `C106_connects`, `C106_short`, `C106_clean`, `C106_relative_refuted`
* For absolute names. A long relative name, possible only if QREXEC_SERVICE_PATH has relative entries, is never reached (C106_relative_refuted).

### C107 Servers are found under the names they were started with (partial)

A server that has been started on a socket is found under its name, whatever was there before, and no other name changes. A command for a user is given to the fork server that this user has started last, never to that of another user. qrexec-client-vm connects to the socket it was told to.

* Quantifies over: all names, all file systems, all histories of fork servers that are started and ended by any users
* Code: `libqrexec/unix-server.c:get_server_socket`, `agent/qrexec-agent.c:try_fork_server`, `agent/qrexec-client-vm.c:connect_unix_socket`, `agent/qrexec-fork-server.c:main`
* Theorems (in `Props_Socket`; vocabulary in `SpecSocket`): `C107_serves_partial`, `C107_only_its_name`, `C107_long_refuted`, `C107_trigger`, `C107_trigger_refuted`, `C107_fork_server_partial`, `C107_long_users_refuted`, `C107_successor_refuted`, `C107_which`
* Names of more than 107 bytes are cut silently (C107_long_refuted: the server is not found and cannot be started again), so two users with the same first 78 bytes in their names share a fork server (C107_long_users_refuted). A fork server that ends removes the socket of its successor (C107_successor_refuted). The address used by qrexec-client-vm is uninitialised from byte 107 on (C107_trigger_refuted).

### C108 A fork server runs each command it is given, once (proved)

For each connection in the order in which they come, the fork server runs the command if its length is announced correctly and its only NUL byte is at the end, and nothing otherwise. What comes in on one connection changes nothing for the others. It goes on until no more connections can be accepted.

* Quantifies over: all sequences of connections with any contents
* Code: `agent/qrexec-fork-server.c:main`, `agent/qrexec-fork-server.c:handle_single_command`
* Theorems (in `Props_Socket`; vocabulary in `SpecSocket`): `C108_one`, `C108_each`
* The contents of connections are events; that reading from one of them does not come to an end is not modelled.

### C109 The installed policy gives the policy services to those named in two files, and to nobody when these are as installed (proved)

With the installed files, a call of a policy service is decided as if its place held, for the five reading services, the lines of include/admin-policy-rwx followed by the lines of include/admin-policy-ro, for the four writing services the lines of include/admin-policy-rwx only, each for that service and all arguments, and for any other service nothing. Whoever may write may read. When no line has been added to these files and there are no other policy files, every call of every service is refused.

* Quantifies over: all lines added to the two files, all files these include, all rules before and after, all calls
* Code: `policy.d/90-admin-policy-default.policy`, `policy.d/include/admin-policy-ro`, `policy.d/include/admin-policy-rwx`, `policy.d/35-compat.policy`, `qrexec/policy/parser.py:AbstractFileSystemLoader`
* Theorems (in `Props_Shipped`; vocabulary in `SpecPolicy`, `SpecRule`, `SpecLoader`): `C109_rules`, `C109_decides`, `C109_writers_read`, `C109_nobody`, `C109_default_denies`
* The installed files are written into the model line by line (ShippedPolicy). Whoever may write may read: for calls that are allowed without asking, and when no other rules come before.

### C11 Default choice is offered (proved)

The preselected choice of an ask dialog is either absent or one of the offered targets, and at least one target is offered.

* Quantifies over: all ask rules, calls and system descriptions
* Code: `qrexec/policy/parser.py: Ask.evaluate, AskResolution.__init__`
* Theorems (in `Props_Policy`; vocabulary in `SpecPolicy`, `SpecRule`): `C11_default_offered`

### C110 qrexec-agent does what its command line says, and leaves no socket behind when told to end (proved)

The agent listens on the socket given last on its command line, looks for fork servers where it was said last (with the name of the user put in), and hands nothing over to fork servers if it was said last that there are none; with --help it only prints its usage (status 2). When it reports that it is ready, the daemon is connected and the socket is served by it. No other name changes. On SIGTERM it ends with status 0 after the turn it is in, whatever else would come, and the name of the socket is gone; it ends with status 0 for no other reason. After any other end the next agent can serve the name.

* Quantifies over: all command lines, all sequences of turns, all times of SIGTERM, all failures at start
* Code: `agent/qrexec-agent.c:main`, `agent/qrexec-agent.c:init`, `agent/qrexec-agent.c:try_fork_server`
* Theorems (in `Props_AgentStart`; vocabulary in `SpecClient`, `SpecMain`, `SpecAgentLoop`, `SpecAgentStart`, `SpecSocket`): `C110_command_line`, `C110_format`, `C110_fork_server`, `C110_default_server`, `C110_empty`, `C110_no_fork_server`, `C110_sigterm`, `C110_ends`, `C110_only_its_name`, `C110_serves`, `C110_next`, `C110_handlers`, `C110_statuses`, `C110_broken`
* For names of at most 107 bytes (see C107 for longer ones). Other programs do not change names meanwhile. Templates other than %s once and %% have no defined meaning in C.

### C111 A service learns the true caller and the true service, on the whole way from the qube that calls (proved)

Whatever is started because a qube asked for a service (qrexec-client-vm, its agent, the daemon for the qube, the policy daemon, the daemon's child, the agent of the called qube or dom0) was decided for by the policy for exactly this call, with the text of target and service as sanitized. It is the program of the service that is started, as the user of the rule, with the argument of the call; its QREXEC_REMOTE_DOMAIN is the calling qube, or a remote qube that the calling qube relays for, never another one; in dom0 it also learns the target that was asked for. What the policy decides for is started. (For service names of up to 255 bytes, calls of up to 64000, users without a colon in the policy, transport services without blanks and plus signs.)

* Quantifies over: all contents of the messages, all policies, all systems of qubes, all answers of the user, all states of the receiving agent
* Code: `agent/qrexec-client-vm.c:main`, `agent/qrexec-agent.c:handle_trigger_io`, `daemon/qrexec-daemon.c:handle_message_from_agent`, `daemon/qrexec-daemon.c:handle_execute_service_child`, `qrexec/tools/qrexec_policy_daemon.py:handle_client_connection`, `qrexec/policy/parser.py:AllowResolution`, `libqrexec/exec.c:parse_qubes_rpc_command`, `libqrexec/exec.c:exec_qubes_rpc2`
* Theorems (in `Props_EndToEnd`; vocabulary in `SpecPolicy`, `SpecDaemon`, `SpecAgent`, `SpecCall`, `SpecExec`, `SpecEndToEnd`, `SpecClient`): `C111_service_knows`, `C111_allowed_runs`, `C111_from_the_caller`
* Composition of C93, C71, C43, C17, C57 and C66. A colon in a user name of the policy breaks it (C66_colon_in_user_refuted), so these are excluded (well_set_up). The connection over which the data of the call flows is C53 and following. Fallback when the policy daemon does not answer: see C58.

### C112 Both ends of an allowed call between two qubes get to know each other (proved)

A program in one qube asks its agent for a service; the policy decides for another qube, and qrexec-daemon has sent its messages to both daemons without an error. Then one port was reserved by the daemon of the called qube, and (as the first command for this call) its agent is given the port and the number of the calling qube, with a command that runs the service as the user of the rule, or as the default user of the called qube when the rule names none, with the true caller and service. The agent of the calling qube is either told nothing (its daemon has forgotten the call, as after a termination) or gives the program that asked, over the very descriptor on which it asked, the number of the called qube and the same port.

* Quantifies over: all contents of the messages, all policies, all systems of qubes, all answers of the user, all states of the two daemons and of the two agents
* Code: `agent/qrexec-agent.c:handle_trigger_io`, `agent/qrexec-agent.c:handle_server_exec_request_init`, `daemon/qrexec-daemon.c:handle_message_from_agent`, `daemon/qrexec-daemon.c:handle_cmdline_body_from_client`, `daemon/qrexec-daemon-common.c:qrexec_execute_vm`, `qrexec/tools/qrexec_policy_daemon.py:handle_client_connection`
* Theorems (in `Props_WholeCall`; vocabulary in `SpecPolicy`, `SpecDaemon`, `SpecAgent`, `SpecCall`, `SpecExec`, `SpecEndToEnd`, `SpecVm`, `SpecMeet`): `C112_both_ends`
* Composition of C57, C66, C81 and C111 with the steps of the two agents, with the same conditions as C111. Domain numbers below 2^31, descriptors below 2^31, and default users without a colon. That the two messages are delivered unchanged by the vchan to the agents is assumed. For calls to dom0 see C111 and C95.

### C113 A call that waits for a session finds the session of its user (partial)

qubes.WaitForSession ends, in a qube with a graphical interface, at the first time that it finds a session server of the user, and then with the status of the user's systemd; in dom0 and without a graphical interface it does not wait for a server; an argument is refused. A call that qrexec-agent has held back for the session of its user is, when the waiting process ends, handed over to the server of this session, if the server is still there and takes such calls.

* Quantifies over: all times at which session servers start and end, all times of looking, all histories of the agent, all calls
* Code: `qubes-rpc-base/qubes.WaitForSession`, `agent/qrexec-agent.c:wait_for_session_maybe`, `agent/qrexec-agent.c:reap_children`, `agent/qrexec-agent.c:try_fork_server`, `libqrexec/exec.c:exec_wait_for_session`
* Theorems (in `Props_Session`; vocabulary in `SpecSocket`, `SpecMain`): `C113_waits`, `C113_first_time_there`, `C113_does_not_wait`, `C113_finds_session_partial`, `C113_other_user_refuted`, `C113_listens_refuted`
* The script ignores its standard input, on which the agent writes the name of the user: it always waits for the default user, so the call of another user is run without his session (C113_other_user_refuted). Waiting ends when there is a file of the name of the socket, even if no server listens there, yet or any more (C113_listens_refuted). Given an argument it complains, but ends with status 0 (C113_does_not_wait). Users of at most 73 bytes. What systemctl does is an event.

### C114 Both ends of a call that is served in dom0 get to know each other (proved)

A program in a qube asks its agent for a service and the policy decides that it is served in dom0. The program that serves it asks the daemon of that qube for a connection. If the daemon has not lost the call and has a free port, the program connects to that qube over the port that the daemon reserved, and serves the command that was decided for, for the true caller; and the agent of the qube gives the program that asked the number 0 and the same port, on the descriptor over which it asked. Otherwise the daemon tells the agent nothing, and the program starts nothing and ends with status 125.

* Quantifies over: all contents of the messages, all policies, all systems of qubes, all answers of the user, all states of the daemon and of the agent
* Code: `daemon/qrexec-daemon-common.c:run_qrexec_to_dom0`, `daemon/qrexec-daemon-common.c:negotiate_connection_params`, `daemon/qrexec-daemon.c:handle_cmdline_body_from_client`, `daemon/qrexec-daemon.c:handle_execute_service_child`, `agent/qrexec-agent.c:handle_server_exec_request_init`, `agent/qrexec-agent.c:handle_trigger_io`
* Theorems (in `Props_Dom0Call`; vocabulary in `SpecPolicy`, `SpecDaemon`, `SpecAgent`, `SpecCall`, `SpecExec`, `SpecEndToEnd`, `SpecVm`, `SpecMeet`): `C114_both_ends`, `C114_same_connection`, `C114_identifier_sent`, `C114_nothing_without_the_daemon`
* Composition of C57, C66 and C111 with run_qrexec_to_dom0 from its first line (Dom0Call.v), the daemon's handler and the agent's step; same conditions as C111; domain numbers and descriptors below 2^31. The 32 bytes of the identifier are any that hold it. That the daemon's answer reaches the program unchanged is a hypothesis (answer = written_to_client ...). A daemon that ends the call (C114_same_connection, second case) has written nothing. An answer with another message type kills the program by its assert.

### C115 The policy graph goes where it was asked for, and nowhere else; what was there stays when it cannot be drawn (partial)

qrexec-policy-graph with --output writes the graph to that file, puts nothing on its standard output and changes no other file; without --output the graph is on the standard output and no file is changed. It ends with status 0 exactly when there is a description of the system, the policy can be read and the graph can be drawn. With an option that it does not accept it changes nothing. A run that fails leaves the file named for the output as it was.

* Quantifies over: all options, all contents of the files, all policies, all systems of qubes, all points of failure
* Code: `qrexec/tools/qrexec_policy_graph.py:main`, `qrexec/tools/qrexec_policy_graph.py:handle_single_action`
* Theorems (in `Props_GraphFile`; vocabulary in the statement): `C115_to_a_file`, `C115_to_stdout`, `C115_failure_partial`, `C115_old_drawing_refuted`, `C115_same_file_refuted`
* The file for the output is opened, and emptied, before the description of the system and the policy are read: a run that fails after that leaves it empty or with the beginning of a drawing (C115_failure_partial, C115_old_drawing_refuted), and with the same file as --system-info the description is lost (C115_same_file_refuted). The policy, too, is read with that file already empty (load f1 in C115_to_a_file), which matters if it is a file of the policy. Paths without links; reading JSON, qubesd and the policy loader are parameters (the loader is modelled elsewhere); writing does not fail.

### C12 The user's answer is binding (proved)

After ask, a negative, malformed or out-of-list answer always ends in denial, and a positive one grants exactly the chosen target, with the user= and autostart= of the ask rule.

* Quantifies over: all ask resolutions and all answer strings of the policy agent
* Code: `qrexec/policy/parser.py: AskResolution.handle_user_response, AllowResolution.from_ask_resolution`, `qrexec/tools/qrexec_policy_exec.py: AgentAskResolution.execute`
* Theorems (in `Props_Policy`; vocabulary in `SpecPolicy`, `SpecRule`): `C12_answer_binding`, `C12_grants_choice`

### C13 Every offered choice can be granted (partial)

If the user picks one of the offered targets, the call is allowed to that target.

* Quantifies over: all ask resolutions
* Code: `qrexec/policy/parser.py: Ask.evaluate, AllowResolution.execute`
* Theorems (in `Props_Policy`; vocabulary in `SpecPolicy`, `SpecRule`): `C13_offered_grantable_partial`, `C13_offered_grantable_refuted`
* False of the code for redirects to @dispvm or missing qubes.

### C14 No loopback (partial)

No call is ever allowed with the caller itself as target, under any designation of the caller.

* Quantifies over: all policies, calls and system descriptions
* Code: `qrexec/policy/parser.py: AllowResolution.execute`
* Theorems (in `Props_Policy`; vocabulary in `SpecPolicy`, `SpecRule`): `C14_no_loopback_partial`, `C14_no_loopback_refuted`, `C14_ask_never_offers_caller`
* False of the code for uuid: designations of the caller.

### C15 autostart=no (proved)

An allow granted by a rule with autostart=no always names dom0 or a qube that is running according to the system description, never a new disposable, and says autostart=False; targets offered by an ask rule with autostart=no obey the same restriction.

* Quantifies over: all policies, calls, system descriptions
* Code: `qrexec/policy/parser.py: ActionType.allow_no_autostart, Allow.evaluate, Ask.evaluate`
* Theorems (in `Props_Policy`; vocabulary in `SpecPolicy`, `SpecRule`): `C15_no_autostart`, `C15_answer_says_so`

### C16 Policy answer is understood by the daemon (proved)

Every allow answer produced by policy evaluation for fields without line breaks is parsed by the qrexec daemon as allow with the same user, target, requested target, autostart flag, and (when present) target uuid, service and policy source; every deny answer is parsed as deny.

* Quantifies over: all resolutions with newline-free fields
* Code: `qrexec/policy/parser.py: AllowResolution.execute`, `daemon/qrexec-daemon.c: parse_policy_response`
* Theorems (in `Props_Daemon`, `Props_Answer`; vocabulary in `SpecPolicy`, `SpecDaemon`, `SpecAgent`, `SpecCall`, `SpecAnswer`): `C16_allow_understood`, `C16_deny_understood`, `C16_every_answer`, `C16_allow_needs_allow`, `C16_exactly_allow`, `C16_exactly_deny`

### C17 Daemon request is understood by the policy daemon (proved)

For every call with sanitised names, the request text written by the qrexec daemon is parsed by the policy daemon into exactly the source, intended target, service and claimed source that were sent; no value can inject another request field.

* Quantifies over: all domain names, targets, service descriptors after sanitisation
* Code: `daemon/qrexec-daemon.c: send_request_to_daemon`, `qrexec/tools/qrexec_policy_daemon.py: handle_client_connection`
* Theorems (in `Props_Daemon`; vocabulary in `SpecPolicy`, `SpecDaemon`, `SpecAgent`, `SpecCall`): `C17_request_understood`, `C17_no_injection`

### C18 Rule line grammar (proved)

A policy line is accepted as a rule exactly when it has at least five fields, valid service and argument, valid tokens, a known action and only distinct, known parameters with valid values for that action, and is not an allow rule for @default without redirect; the rule carries exactly those fields.

* Quantifies over: all lines
* Code: `qrexec/policy/parser.py: Rule.from_line, Rule.__init__, validate_service_and_argument`
* Theorems (in `Props_Policy`; vocabulary in `SpecPolicy`, `SpecRule`): `C18_rule_grammar`, `C18_rules_wf`

### C19 Printed rules mean the same (partial)

Printing a rule and parsing the text again gives an equivalent rule.

* Quantifies over: all rules
* Code: `qrexec/policy/parser.py: Rule.__str__, Allow.__str__, Ask.__str__`, `qrexec/tools/qrexec_legacy_convert.py`
* Theorems (in `Props_Policy`; vocabulary in `SpecPolicy`, `SpecRule`): `C19_print_parse_partial`, `C19_spelled_partial`, `C19_print_parse_refuted`
* False of the code for notify=, autostart= and the wildcard service.

### C20 Policy directories: shadowing and order (proved)

A policy file name present in several policy directories is taken only from the first directory that has it, files are loaded in byte order of their names whatever directory they come from, and the result does not depend on directory listing order.

* Quantifies over: all directory contents and listing orders
* Code: `qrexec/policy/parser.py: filter_filepaths, AbstractFileSystemLoader.load_policy_dirs`
* Theorems (in `Props_Loader`; vocabulary in `SpecPolicy`, `SpecRule`, `SpecLoader`): `C20_loaded_policy`, `C20_unique`, `C20_shadowing`, `C20_listing_order`

### C21 Bad file names stop the load (proved)

Files without the .policy suffix, hidden files and non-files are ignored; if any remaining file name has a character outside [0-9a-z_.-] the whole load is refused; no rule is taken from a subset of the files.

* Quantifies over: all directory contents
* Code: `qrexec/policy/parser.py: filter_filepaths`
* Theorems (in `Props_Loader`; vocabulary in `SpecPolicy`, `SpecRule`, `SpecLoader`): `C21_bad_name_refused`, `C21_missing_dir_refused`, `C21_only_policy_files`, `C21_ignored`

### C22 Policy loading is all-or-nothing (proved)

If any line of any file reached by the load (directly or through includes) is malformed, the load as a whole is refused; if it succeeds, the policy contains the rules of every line of every loaded file, in order.

* Quantifies over: all file sets
* Code: `qrexec/policy/parser.py: AbstractParser.load_policy_file, AbstractFileLoader.handle_include`
* Theorems (in `Props_Loader`; vocabulary in `SpecPolicy`, `SpecRule`, `SpecLoader`): `C22_malformed_refused`, `C22_unreadable_refused`, `C22_legacy_lines`, `C22_rules_of_all_lines`

### C23 Includes are spliced in place (proved)

The rules of an included file appear exactly at the place of the include directive, and including a file behaves as if its lines were written there.

* Quantifies over: all include trees that terminate
* Code: `qrexec/policy/parser.py: AbstractFileLoader.handle_include, handle_include_dir, load_policy_dir`
* Theorems (in `Props_Loader`; vocabulary in `SpecPolicy`, `SpecRule`, `SpecLoader`): `C23_in_place`, `C23_as_if_written`, `C23_same_decision`

### C24 Service includes are confined (proved)

Every rule that comes from a service-specific include has the service and argument named by the include directive, so it can never match another service or argument, whatever the file says.

* Quantifies over: all included files and nesting
* Code: `qrexec/policy/parser.py: load_policy_file_service, handle_include_service, Rule.from_line_service`
* Theorems (in `Props_Loader`; vocabulary in `SpecPolicy`, `SpecRule`, `SpecLoader`): `C24_confined`

### C25 Legacy argument-specific policy is final (partial)

With !compat-4.0, a legacy policy file for SERVICE+ARGUMENT fully decides calls with that argument made by qubes: no later rule, in particular none from the argument-less legacy file or from later policy, can allow such a call to a qube, a disposable, the default target or dom0.

* Quantifies over: all legacy directories, calls from sources other than dom0
* Code: `qrexec/policy/parser_compat.py: Compat40Parser.execute, _sorted_compat_files`
* Theorems (in `Props_Loader`; vocabulary in `SpecPolicy`, `SpecRule`, `SpecLoader`): `C25_decided_by_own_file`, `C25_allow_comes_from_own_file`, `C25_dialog_partial`, `C25_dialog_dom0_refuted`
* False of the code for the dialog entry dom0 of an ask rule; everything else is proved.

### C26 Comments and blank lines are inert (proved)

Adding or removing empty lines, comment lines and leading or trailing blanks never changes the loaded rules.

* Quantifies over: all policy texts
* Code: `qrexec/policy/parser.py: AbstractParser.load_policy_file`
* Theorems (in `Props_Loader`; vocabulary in `SpecPolicy`, `SpecRule`, `SpecLoader`): `C26_inert`, `C26_insert_line`, `C26_add_blanks`

### C27 Failed admin request changes nothing (partial)

A policy administration request that ends in an error leaves every file of the policy tree unchanged.

* Quantifies over: all file trees, requests
* Code: `qrexec/policy/admin.py: PolicyAdmin.handle_request, _common_replace, _common_remove`
* Theorems (in `Props_Admin`; vocabulary in `SpecPolicy`, `SpecRule`, `SpecLoader`, `SpecAdmin`): `C27_error_changes_nothing_partial`, `C27_directory_refuted`
* False of the code when the name designates a directory (the temporary file stays); proved otherwise.

### C28 Admin requests touch only the named file (partial)

A successful Replace leaves exactly the given content under the named file and every other file unchanged; a successful Remove removes exactly the named file; List, Get and GetFiles change nothing; Get after Replace returns the content and its token.

* Quantifies over: all file trees and requests
* Code: `qrexec/policy/admin.py: _common_replace, _common_remove, _common_get, _common_list`
* Theorems (in `Props_Admin`; vocabulary in `SpecPolicy`, `SpecRule`, `SpecLoader`, `SpecAdmin`): `C28_replace`, `C28_replace_include_partial`, `C28_remove`, `C28_read_only`, `C28_get_after_replace`, `C28_temp_name_refuted`
* Proved for policy files, Remove and the reading services; false of the code for include files when a file named !NAME exists.

### C29 Tokens prevent lost updates (proved)

In any history of serialised admin requests, a Replace or Remove carrying a sha256 token succeeds only if the file still has the content that token was computed from (up to hash collisions), and one carrying token new succeeds only if the file does not exist.

* Quantifies over: all histories of requests by any number of clients
* Code: `qrexec/policy/admin.py: _check_token, _lock, compute_token`
* Theorems (in `Props_Admin`; vocabulary in `SpecPolicy`, `SpecRule`, `SpecLoader`, `SpecAdmin`): `C29_replace_token`, `C29_remove_token`, `C29_token_meaning`, `C29_history`, `C29_log_total`, `C29_no_lost_update`

### C30 Admin paths are confined (proved)

Every file created, replaced, read or removed through Get/Replace/Remove lies directly in the policy directory (with suffix .policy) or directly in its include directory, whatever the argument.

* Quantifies over: all argument strings
* Code: `qrexec/policy/admin.py: _get_path`
* Theorems (in `Props_Admin`, `Props_More`; vocabulary in `SpecPolicy`, `SpecRule`, `SpecLoader`, `SpecAdmin`, `SpecUtf8`, `SpecExec`): `C30_changes_confined`, `C30_get_confined`, `C30_names`, `C30_no_argument`, `C30_no_payload`, `C30_unknown_service`
* No symbolic links in the model.

### C31 Replace is crash-safe (partial)

If the machine stops at any point during Replace, the named file has either its complete old or complete new content and the policy tree can still be loaded.

* Quantifies over: every crash point, every tree and content
* Code: `qrexec/policy/admin.py: _common_replace`, `qrexec/policy/parser.py: filter_filepaths`
* Theorems (in `Props_Admin`; vocabulary in `SpecPolicy`, `SpecRule`, `SpecLoader`, `SpecAdmin`): `C31_old_or_new`, `C31_include_loads_partial`, `C31_stopped_in_between_refuted`
* Old-or-new content is proved at every stage; that the tree loads is false of the code for policy files (temporary file !NAME.policy), proved for include files.

### C32 Validated changes load (partial)

After a successful Replace or Remove the policy directory still loads without error.

* Quantifies over: all trees and requests
* Code: `qrexec/policy/admin.py: _validate`, `qrexec/policy/parser.py: ValidateParser, FilePolicy`
* Theorems (in `Props_Admin`; vocabulary in `SpecPolicy`, `SpecRule`, `SpecLoader`, `SpecAdmin`): `C32_replace_loads_partial`, `C32_remove_loads_partial`, `C32_upper_case_refuted`, `C32_carriage_return_refuted`, `C32_legacy_include_refuted`, `C32_temp_name_refuted`
* Proved under four side conditions, each shown necessary by a counterexample of the code.

### C33 Admin client and server agree (partial)

What the client library returns for policy_get, policy_list and policy_get_files is the content/token and the lists the server holds, and policy_replace installs the given content under the given token.

* Quantifies over: all names, contents and trees
* Code: `qrexec/policy/admin_client.py: PolicyClient`, `qrexec/policy/admin.py`
* Theorems (in `Props_Admin`, `Props_More`; vocabulary in `SpecPolicy`, `SpecRule`, `SpecLoader`, `SpecAdmin`, `SpecUtf8`, `SpecExec`): `C33_get_sound`, `C33_get_complete`, `C33_replace`, `C33_remove`, `C33_list_partial`, `C33_list_given`, `C33_get_files_partial`, `C33_empty_list_refuted`
* False of the code for the list of an empty directory; file names with line breaks excluded.

### C34 Cached policy is current (partial)

A policy served by the policy daemon reflects every file change whose notification was delivered before the request; a failed reload is never papered over with an older policy.

* Quantifies over: all interleavings of file changes, notifications and requests
* Code: `qrexec/policy/utils.py: PolicyCache.get_policy, PolicyWatcher`
* Theorems (in `Props_Cache`, `Props_Watch`; vocabulary in `SpecPolicy`, `SpecRule`, `SpecLoader`): `C34_current_partial`, `C34_source`, `C34_no_old_policy`, `C34_watched`, `C34_cached`, `C34_notified`
* C34_watched (which directories), C34_cached and C34_notified (when it loads), C34_source and C34_no_old_policy hold for all histories. That the answer is what the files now mean (C34_current_partial) is proved for changes below the watched directories that are not only changes of permissions; not for permissions (C34_permissions_refuted), files included from elsewhere (C34_outside_refuted), nor the directories themselves (C34_moved_directory_refuted).

### C35 No change is missed at start-up (partial)

A policy change made after the policy daemon has started is eventually reflected in its answers.

* Quantifies over: all interleavings of start-up steps and file changes
* Code: `qrexec/policy/utils.py: PolicyCache.__init__, initialize_watcher`
* Theorems (in `Props_Cache`; vocabulary in `SpecPolicy`, `SpecRule`, `SpecLoader`): `C34_current_partial`, `C35_lazy`
* False as it stands: a change between loading and setting up the watches is missed (C35_refuted). Proved: nothing is missed if no change falls in between (C34_current_partial), or with lazy_load=True, which the daemon does not use (C35_lazy).

### C36 Policy socket protocol (proved)

The policy daemon answers a request only if every line is a distinct known field with valid value and source, target and service are present; it writes at most one answer, and never interprets one field as another.

* Quantifies over: all byte streams on the socket
* Code: `qrexec/tools/qrexec_policy_daemon.py: handle_client_connection`
* Theorems (in `Props_Daemon`; vocabulary in `SpecPolicy`, `SpecDaemon`, `SpecAgent`, `SpecCall`): `C36_answers_valid_requests`, `C36_invalid_ignored`, `C36_one_reading`
* The 64 KiB line limit of the reader is not modelled. A last line cut off by the end of the stream is accepted as a complete line (this is what the code does).

### C37 EvalGUI is limited to the GUI provider (proved)

policy.EvalGUI answers only if both qubes exist and carry the guivm- tag of the caller; policy.EvalSimple and EvalGUI never prompt the user nor notify, and answer only requests with well-formed names.

* Quantifies over: all requests, callers and system descriptions
* Code: `qrexec/tools/qrexec_policy_daemon.py: qrexec_policy_eval`
* Theorems (in `Props_Daemon`; vocabulary in `SpecPolicy`, `SpecDaemon`, `SpecAgent`, `SpecCall`): `C37_evaluation_service`, `C37_quiet`, `C37_never_prompts`

### C38 Exit code of qrexec-policy-exec (proved)

The exit status of an evaluation is 0 exactly when the answer is allow; in particular nothing in the call can make a denied call report success.

* Quantifies over: all answers
* Code: `qrexec/tools/qrexec_policy_exec.py: main, get_result`
* Theorems (in `Props_Daemon`; vocabulary in `SpecPolicy`, `SpecDaemon`, `SpecAgent`, `SpecCall`): `C38_exit_status`, `C38_path_option_dies`
* The --path option makes the program fail before evaluating anything.

### C39 Sanitisers (partial)

Sanitising yields only allowed characters, leaves allowed strings unchanged, is idempotent, preserves length, and the Python and C sanitisers agree on allowed characters; strict mode refuses exactly the strings that would change.

* Quantifies over: all strings
* Code: `qrexec/utils.py: _sanitize_name, _sanitize_char`, `daemon/qrexec-daemon.c: sanitize_name`
* Theorems (in `Props_Daemon`; vocabulary in `SpecPolicy`, `SpecDaemon`, `SpecAgent`, `SpecCall`): `C39_python_sanitisers`, `C39_c_sanitiser`, `C39_cleaning`, `C39_strict`, `C39_services_agree_partial`, `C39_agree_refuted`
* Everything but the agreement of the alphabets is proved; that is false of the code for colons in targets and at signs in services.

### C40 Argument registration (partial)

policy.RegisterArgument adds exactly one allow rule for the given service, argument, frontend and backend, only if no rule for that exact service and argument exists and the argument is 1..64 valid characters; afterwards the policy still loads.

* Quantifies over: all calls and policy states
* Code: `qubes-rpc-dom0/policy.RegisterArgument`
* Theorems (in `Props_Register`; vocabulary in `SpecPolicy`, `SpecRule`, `SpecLoader`, `SpecAdmin`, `SpecRegister`): `C40_outcome`, `C40_registers_partial`, `C40_others_unaffected`, `C40_registered_allowed`, `C40_once`, `C40_at_most_once`, `C40_plus_refuted`, `C40_empty_refuted`, `C40_no_newline_refuted`, `C40_shadowed_refuted`
* Every call: success only for a good argument not registered yet, one line appended, else nothing changes (C40_outcome, unconditional). The policy then is the old one plus exactly this rule, provided the service is a plain word without plus, the file has whole lines, is not shadowed in /run and not included elsewhere; each condition is shown to be needed by a counterexample.

### C41 Vchan ports are exclusive (partial)

No data-channel port is handed out twice before it is released, the daemons of the two ends of a pair of qubes never hand out the same port for that pair, and a port can be released only for the peer it was allocated to.

* Quantifies over: all histories of connections and terminations, all domain id pairs
* Code: `daemon/qrexec-daemon.c: allocate_vchan_port, release_vchan_port, handle_cmdline_body_from_client`
* Theorems (in `Props_State`; vocabulary in `SpecDaemon`, `SpecAgent`, `SpecState`): `C41_exclusive_partial`, `C41_one_peer`, `C41_pair`, `C41_available`, `C41_all_ones_refuted`
* Proved for all histories in which no local client names domain 0xFFFFFFFF (which the code takes for the mark of an unused port); false of the code otherwise.

### C42 Every service call is answered at most once (partial)

Each pending service call of a qube receives exactly one of connection or refusal once its policy process has ended or its connection was requested, and a connection is granted only for a request identifier that is pending; it cannot be replayed.

* Quantifies over: all histories of triggers, policy child exits and client connections
* Code: `daemon/qrexec-daemon.c: handle_execute_service, handle_cmdline_body_from_client, reap_children`
* Theorems (in `Props_State`, `Props_Clients`; vocabulary in `SpecDaemon`, `SpecAgent`, `SpecState`): `C42_at_most_once`, `C42_no_replay`, `C42_connection_needs_call`, `C42_answered_partial`, `C42_refused_at_once`, `C42_table`, `C42_signal_refuted`, `C42_leak_refuted`, `C42_failed_connect_refuted`, `C42_success_first_refuted`
* At most one answer: proved for all histories. At least one: false of the code when the policy process is killed, when a connect request fails, or when it is read after the process has ended; proved otherwise.

### C43 Agent messages are checked (proved)

A message header from an agent is processed only if its type is allowed for the negotiated protocol version and its length is within the bounds of that type.

* Quantifies over: all headers
* Code: `daemon/qrexec-daemon.c: sanitize_message_from_agent, handle_agent_hello`
* Theorems (in `Props_Daemon`; vocabulary in `SpecPolicy`, `SpecDaemon`, `SpecAgent`, `SpecCall`): `C43_headers`, `C43_other_headers_stop`, `C43_handshake`, `C43_service_messages`

### C44 Request identifiers and service names (proved)

A request identifier from an agent is accepted exactly if it is NUL terminated, has only allowed characters before and only NUL bytes after the first NUL; a service name is accepted exactly if it is non-empty, does not start with + and is not too long.

* Quantifies over: all byte arrays
* Code: `daemon/qrexec-daemon.c: validate_request_id, validate_service_name, sanitize_name`
* Theorems (in `Props_Daemon`; vocabulary in `SpecPolicy`, `SpecDaemon`, `SpecAgent`, `SpecCall`): `C44_identifiers`, `C44_service_names`, `C44_identifier_kept`

### C45 Buffer is a FIFO (proved)

Bytes leave the stdin buffer in the order they were appended, none lost or duplicated, and the memory accounting never exceeds the limit.

* Quantifies over: all sequences of append and remove
* Code: `libqrexec/buffer.c`
* Theorems (in `Props_Stream`; vocabulary in `SpecStream`, `SpecPio`): `C45_fifo`, `C45_no_abort`, `C45_early_abort`
* C45_early_abort: the limit applies to old and new copy together, so removing may abort at half the limit

### C46 Stream integrity towards the local process (proved)

Whatever the schedule of partial writes, would-block conditions and new data, the bytes written to the local process are a prefix of the bytes received, and all of them once buffering drains.

* Quantifies over: all schedules of write results
* Code: `libqrexec/write-stdin.c: write_stdin, flush_client_data`
* Theorems (in `Props_Stream`; vocabulary in `SpecStream`, `SpecPio`): `C46_prefix`, `C46_drains`

### C47 Exact I/O helpers (proved)

write_all reports success only after the whole buffer was written in order, read_all only after exactly the requested number of bytes was read, for any pattern of short reads, short writes and interruptions.

* Quantifies over: all schedules of syscall results
* Code: `libqrexec/ioall.c: write_all, read_all, qubes_read_all_to_malloc`
* Theorems (in `Props_Stream`, `Props_More`, `Props_Running`; vocabulary in `SpecStream`, `SpecPio`, `SpecPolicy`, `SpecRule`, `SpecLoader`, `SpecAdmin`, `SpecUtf8`, `SpecExec`): `C47_write_all`, `C47_read_all`, `C47_copy_fd_all`, `C47_copy_succeeds`, `C47_send_succeeds`, `C47_sendmsg_all`, `C47_vchan`, `C47_read_to_malloc`, `C47_write_running`, `C47_read_running`, `C47_copy_running`, `C47_send_running`, `C47_malloc_running`, `C47_vchan_running`

### C48 Message framing (proved)

The payload bytes carried by stdin/stdout messages are the bytes read, in order, each message within the limit of the protocol version; end of input is signalled by exactly one empty message; the receiver reconstructs the stream.

* Quantifies over: all byte streams and chunkings
* Code: `libqrexec/remote.c: handle_input_v2, handle_remote_data_v2`
* Theorems (in `Props_Stream`; vocabulary in `SpecStream`, `SpecPio`): `C48_sender`, `C48_receiver`, `C48_roundtrip`

### C49 Service command parsing (partial)

A QUBESRPC command line is split into service descriptor, service name, argument and source domain exactly as documented, over-long or malformed lines being refused; the search for a service implementation never leaves the configured directories by name.

* Quantifies over: all command strings
* Code: `libqrexec/exec.c: parse_qubes_rpc_command, find_file`
* Theorems (in `Props_Exec`; vocabulary in `SpecPolicy`, `SpecDaemon`, `SpecCall`, `SpecExec`, `SpecLookup`): `C49_command_lines`, `C49_other_lines_refused`, `C49_unambiguous`, `C49_name_limit`, `C49_search_stays_inside_partial`, `C49_dotdot_refuted`
* Parsing is proved completely; the search uses entries of the configured directories only, but . and .. count as entries, so a call of the service .. is taken for the parent directory.

### C50 Port validation (proved)

A TCP port string is accepted exactly if it is the canonical decimal representation of a number in 1..65535.

* Quantifies over: all strings
* Code: `libqrexec/exec.c: validate_port`
* Theorems (in `Props_Exec`; vocabulary in `SpecPolicy`, `SpecDaemon`, `SpecCall`, `SpecExec`, `SpecLookup`): `C50_ports`

### C51 dom0 is dom0 everywhere (proved)

The policy engine and the daemon agree on which target names mean dom0.

* Quantifies over: all strings
* Code: `qrexec/policy/parser.py: is_dom0`, `daemon/qrexec-daemon-common.c: target_refers_to_dom0`
* Theorems (in `Props_Daemon`; vocabulary in `SpecPolicy`, `SpecDaemon`, `SpecAgent`, `SpecCall`): `C51_dom0_agrees`, `C51_dom0_names`

### C52 Environment of services (proved)

Services started by qrexec see none of the environment variables reserved for qrexec from the caller's environment; the reserved variables they see are the ones set for this call.

* Quantifies over: all environments
* Code: `libqrexec/exec.c: should_strip_env_var, exec_qubes_rpc2`
* Theorems (in `Props_Exec`, `Props_More`; vocabulary in `SpecPolicy`, `SpecDaemon`, `SpecCall`, `SpecExec`, `SpecLookup`, `SpecRule`, `SpecLoader`, `SpecAdmin`, `SpecUtf8`): `C52_direct`, `C52_shell`, `C52_nothing_else`, `C52_no_abort`, `C52_refused_status`
* The login shell is modelled as an interpreter of the fragment of POSIX sh that the script uses; the profile may change the environment arbitrarily but not the positional parameters.

### C53 Focus stealing protection (proved)

The confirmation dialog reacts to the allow button only when the window has had focus continuously for the required time, whatever the sequence of focus, timer and key events.

* Quantifies over: all event sequences
* Code: `qrexec/tools/qrexec_policy_agent.py: FocusStealingHelper, GtkOneTimerHelper`
* Theorems (in `Props_Dialog`; vocabulary in `SpecPolicy`, `SpecDialog`): `C53_no_reaction`, `C53_allowed`, `C53_button`, `C53_reacts`
* GTK events and GLib timers are arbitrary, except that time does not go back and timers do not go off early.

### C54 Confirmation returns only whitelisted targets (proved)

The policy agent's dialog confirms only targets from the list sent by the policy engine.

* Quantifies over: all inputs typed by the user
* Code: `qrexec/tools/qrexec_policy_agent.py: VMListModeler, RPCConfirmationWindow`
* Theorems (in `Props_Dialog`; vocabulary in `SpecPolicy`, `SpecDialog`): `C54_listed`, `C54_answers`, `C54_obeyed`, `C54_changed_after_click_refuted`
* The target allowed is one of the list, selected when the window is closed; the daemon obeys the answer. It need not be the one selected at the time of the click, as GTK closes the window later (C54_changed_after_click_refuted).

### C55 Lossless legacy conversion (partial)

Converting the old policy to the new format keeps every rule: each rule of the old files is written to a file in the new format, in the same order for each service, and reads back as the same rule; nothing else is written, and the old files have no effect afterwards. So every call is decided as before.

* Quantifies over: all old and new policy files, all calls
* Code: `qrexec/tools/qrexec_legacy_convert.py: main, split_input_rules, RuleWrapper`
* Theorems (in `Props_Convert`, `LineLoader`, `Props_ConvertEx`; vocabulary in `SpecConvert`): `C55_kept_partial`, `C55_only_old`, `C55_text`, `C55_old_files_off`, `lines_erase`, `C55_argument_refuted`, `C55_parameters_refuted`, `C55_denial_refuted`, `C55_input_refuted`, `C55_order_refuted`
* The claim is false. C55_kept_partial: a rule of the old files is written, or has the same text (or the same file and line) as a rule in the new files, or is or follows a rule that denies the service to all, or is not the first rule for an input device of a qube. C55_only_old: only rules of the old files are written, in order for each file and service. C55_text: what is written reads back as those rules, before what was in the file, unless a rule has other parameters notify= or autostart= than the default, an empty user= or an empty service. C55_old_files_off: afterwards the old files have no effect. Not preserved, each with a witness: the implicit denials of files for one argument (unnoticed by the check of the tool), parameters autostart= and notify= (unnoticed), denials to all, input rules for other arguments, the order of rules of a service that go to two files.

### C56 Offered choices agree with direct calls (partial)

A target is offered by an ask dialog exactly when a direct call to that target by the same caller would be decided by a rule that is not a deny rule.

* Quantifies over: all policies, callers and targets
* Code: `qrexec/policy/parser.py: AbstractPolicy.collect_targets_for_ask, AbstractPolicy.find_matching_rule`
* Theorems (in `Props_Policy`; vocabulary in `SpecPolicy`, `SpecRule`): `C56_offered_agree_partial`, `C56_offered_agree_refuted`
* False of the code for dom0 and disposables.

### C57 Only authorised calls run (proved)

Whatever bytes a qube's agent sends, the daemon runs a command for it only if the policy engine decided in favour of exactly that call (caller, target, service and argument, claimed remote source), and then it runs the decided service at the decided target as the decided user on behalf of the decided caller; a decision in favour is carried out, a refusal ends the call with status 126.

* Quantifies over: all agent messages, policies, systems, user answers and behaviours of a failing fallback
* Code: `daemon/qrexec-daemon.c: handle_message_from_agent, connect_daemon_socket, parse_policy_response, handle_execute_service_child`, `qrexec/tools/qrexec_policy_daemon.py: handle_client_connection`
* Theorems (in `Props_Daemon`, `Props_Clients`; vocabulary in `SpecPolicy`, `SpecDaemon`, `SpecAgent`, `SpecCall`, `SpecState`): `C57_only_authorised_calls_run`, `C57_authorised_calls_run`, `C57_uuid`
* Policies naming disposable templates by uuid in the target column are excluded (C05).

### C58 Fallback evaluation is equivalent (partial)

When qrexec-policy-daemon is unavailable, the fallback evaluation by qrexec-policy-exec authorises exactly the same call, including the remote qube on whose behalf it is made.

* Quantifies over: all calls, policies and systems
* Code: `daemon/qrexec-daemon.c: connect_daemon_socket`, `qrexec/tools/qrexec_policy_exec.py: get_result`
* Theorems (in `Props_Daemon`; vocabulary in `SpecPolicy`, `SpecDaemon`, `SpecAgent`, `SpecCall`): `C58_fallback_partial`, `C58_fallback_refuted`
* False of the code for calls on behalf of a remote qube; proved otherwise.

### C59 Deprecated run mode runs the decided call (partial)

qrexec-policy-exec invoked with a domain id and a process ident starts qrexec-client only if the call was allowed, for the decided target, user and service; a refusal exits with status 1.

* Quantifies over: all calls, policies and systems
* Code: `qrexec/tools/qrexec_policy_exec.py: get_result`
* Theorems (in `Props_Daemon`; vocabulary in `SpecPolicy`, `SpecDaemon`, `SpecAgent`, `SpecCall`): `C59_deprecated_mode_partial`, `C59_remote_refuted`
* False of the code for remote qubes; proved otherwise.

### C60 Commands are forwarded unchanged (proved)

What the daemon sends to an agent as a command is what one client sent: same type, peer domain and text, except that the user DEFAULT in front of a command is replaced by the default user; the announced length is that of the text; the port is the one the client named, in the range of data ports, or the one handed out to it.

* Quantifies over: all states of the daemon and all events
* Code: `daemon/qrexec-daemon.c: handle_cmdline_body_from_client`
* Theorems (in `Props_State`; vocabulary in `SpecDaemon`, `SpecAgent`, `SpecState`): `C60_forwarded`

### C61 End-to-end stream integrity (proved)

While the data connection is alive and the socket switch (SIGUSR1) is not used, what the client's end has written to its local process is at any time a prefix of what the service wrote to stdout, and what the service got on stdin is a prefix of what the client sent (its prefix data first), whatever the schedules of both ends; nothing is lost, duplicated, reordered or mixed with stderr.

* Quantifies over: all pairs of schedules of the two ends (short reads and writes, would-block, signals, hang-ups), all data
* Code: `libqrexec/process_io.c: qrexec_process_io`, `libqrexec/remote.c: handle_remote_data_v2, handle_input_v2`, `libqrexec/write-stdin.c: write_stdin, flush_client_data`
* Theorems (in `Props_Pio`; vocabulary in `SpecStream`, `SpecPio`): `C61_from_service`, `C61_from_client`
* with prefix data the client's direction is proved until the exit code of the service is received; C62_prefix_refuted shows what happens then

### C62 Exit code comes last and is delivered (partial)

A service's exit code is sent once, after all its output and exactly one end of each stream; a client that got it returns exactly that code, having delivered the complete output.

* Quantifies over: all pairs of schedules of the two ends, all data and exit codes
* Code: `libqrexec/process_io.c: qrexec_process_io`, `libqrexec/remote.c: send_exit_code, handle_remote_data_v2`
* Theorems (in `Props_Pio`, `Props_Ends`; vocabulary in `SpecStream`, `SpecPio`): `C62_service_sends`, `C62_client_gets_partial`, `C62_exit_code_travels`, `C62_return_value`, `C62_prefix_refuted`
* refuted for clients with prefix data not yet sent when the exit code arrives; the service sends everything if reads are not reset and exit-on-stdin-eof is not set

### C63 Bounded memory and single end of stream (partial)

An end of a call keeps at most one chunk in memory for a local process that does not read, and never aborts for lack of it; it announces the end of each stream at most once.

* Quantifies over: all schedules of one end, whatever the peer sends
* Code: `libqrexec/process_io.c: qrexec_process_io`, `libqrexec/remote.c: handle_remote_data_v2`, `libqrexec/buffer.c: buffer_append, buffer_remove`
* Theorems (in `Props_Pio`; vocabulary in `SpecStream`, `SpecPio`): `C63_bounded`, `C63_one_eof_partial`, `C63_usr1_refuted`
* refuted for a service that sends SIGUSR1 and closes stdout: the end can be announced twice

### C64 Which implementation of a service runs (proved)

A call of SERVICE+ARG is served by the first entry named SERVICE+ARG in the configured directories, in their order, and only if there is none by the first one named SERVICE: a socket is connected to (and greeted with the command unless the service is configured otherwise), an executable is run; the call fails as not found exactly if there is no such entry.

* Quantifies over: all file systems, search paths and calls
* Code: `libqrexec/exec.c: find_file, find_qrexec_service`
* Theorems (in `Props_Exec`; vocabulary in `SpecPolicy`, `SpecDaemon`, `SpecCall`, `SpecExec`, `SpecLookup`): `C64_sound`, `C64_complete`, `C64_absent`
* Completeness for paths below the 1024 byte limit of the code. The file system does not change during the search.

### C65 TCP services connect only where configured (proved)

A call leads to a TCP connection only if the entry found is a link to /dev/tcp; the connection goes to the host and port in the link, parts missing there being taken from the argument, and an argument is refused if nothing is missing; the port is a number in 1..65535.

* Quantifies over: all file systems, links and arguments
* Code: `libqrexec/exec.c: find_qrexec_service, qubes_tcp_connect`
* Theorems (in `Props_Exec`; vocabulary in `SpecPolicy`, `SpecDaemon`, `SpecCall`, `SpecExec`, `SpecLookup`): `C65_only_configured`, `C65_fixed_host`

### C66 The service learns who called it (partial)

A service started for an allowed call sees as QREXEC_REMOTE_DOMAIN, QREXEC_SERVICE_FULL_NAME and QREXEC_SERVICE_ARGUMENT the caller, service and argument that the policy decided on, in dom0 also the requested target, and runs as the user that the policy decided on.

* Quantifies over: all allowed calls, environments and login profiles
* Code: `daemon/qrexec-daemon.c: handle_execute_service`, `libqrexec/exec.c: parse_qubes_rpc_command, exec_qubes_rpc2`, `agent/qrexec-agent.c: do_exec`
* Theorems (in `Props_Exec`; vocabulary in `SpecPolicy`, `SpecDaemon`, `SpecCall`, `SpecExec`, `SpecLookup`): `C66_in_a_qube_partial`, `C66_in_dom0_partial`, `C66_colon_in_user_refuted`
* False of the code for user names with a colon in the policy; calls with more than 65000 bytes or names of more than 255 bytes are refused by the receiving side.

### C67 Service configuration is read strictly (proved)

A service configuration file is accepted exactly if every line is empty, a comment or key = value in the supported subset of TOML, there is no NUL byte, and each known key occurs at most once with a value of its type; then exactly the settings stated are in effect, everything else has its default; unknown keys change nothing.

* Quantifies over: all file contents
* Code: `libqrexec/toml.c: qubes_toml_config_parse, parse_toml_value`
* Theorems (in `Props_Toml`; vocabulary in `SpecExec`, `SpecLookup`, `SpecToml`): `C67_config_file`, `C67_unambiguous`, `C67_unknown_keys`, `C67_blank_line_refused`
* C67_blank_line_refused: a line of blanks only makes the file malformed (this is what the code does).

### C68 Which configuration governs a call (proved)

The settings of a call of SERVICE+ARG come from the first file SERVICE+ARG in the configuration directories, and only if there is none from the first file SERVICE; without either the defaults apply. An unreadable or malformed file refuses the call, and so does a file that forces a user together with a setting that bypasses the user's session server.

* Quantifies over: all file systems, file contents, search paths and calls
* Code: `libqrexec/exec.c: load_service_config_raw, load_service_config_v2, find_file`, `libqrexec/toml.c: qubes_toml_config_parse`
* Theorems (in `Props_Toml`; vocabulary in `SpecExec`, `SpecLookup`, `SpecToml`): `C68_configuration`, `C68_no_mix`, `C68_bad_file_refused`
* For paths below the 1024 byte limit of the code. The file system does not change during the search.

### C69 A command received is carried out exactly once (proved)

Every command that the agent of a qube receives is carried out exactly once, with the settings read when it was received: at once, unless it is a service call whose settings ask to wait for a user session (and which is not marked as needing none); those held back are carried out when the process that waits for the session ends, and there is such a process as long as one is held back.

* Quantifies over: all histories of messages, process ends, forks that fail, file systems
* Code: `agent/qrexec-agent.c: handle_server_exec_request_init, handle_server_exec_request_do, wait_for_session_maybe, reap_children`
* Theorems (in `Props_Main`; vocabulary in `SpecDaemon`, `SpecAgent`, `SpecExec`, `SpecMain`): `C69_exactly_once`, `C69_session_end`, `C69_at_once`, `C69_waits`
* C69_own_session_refuted: the session waited for may be that of another user whose call came first. The death of the agent and failures of malloc are not modelled.

### C70 The end of a connection is reported exactly once (proved)

While fork succeeds and at most 256 connections exist at a time, the agent reports the end of each connection that it set up exactly once to the daemon, when the process serving it or its socket ends, with the domain and port of that connection.

* Quantifies over: all histories of messages, process ends, socket events and local calls
* Code: `agent/qrexec-agent.c: register_vchan_connection, release_connection, terminate_connection, reap_children, handle_terminated_fork_client, main`
* Theorems (in `Props_Main`; vocabulary in `SpecDaemon`, `SpecAgent`, `SpecExec`, `SpecMain`): `C70_ends_reported`, `C70_balance`
* The two conditions are needed: C70_failed_fork_refuted (entries of failed forks are never released) and C70_too_many_refuted.

### C71 An answer goes to the local client that asked (proved)

Whatever a local client sends, its call reaches the daemon with an identifier chosen by the agent: the connection parameters of the answer are written to that client's socket and to no other, a refusal closes that client's socket and no other, and no such call makes the daemon stop. A malformed call is dropped.

* Quantifies over: all messages of local clients, all socket numbers
* Code: `agent/qrexec-agent.c: handle_trigger_io, handle_server_exec_request_do, handle_service_refused`, `daemon/qrexec-daemon.c: handle_message_from_agent, validate_request_id`
* Theorems (in `Props_Also`, `Props_Main`; vocabulary in `SpecDaemon`, `SpecAgent`, `SpecExec`, `SpecMain`, `SpecVm`): `C71_socket_number`, `C71_connect_socket`, `C71_answer_to_caller`, `C71_forwarded`
* Composed with the daemon's side (DaemonAgent). That the daemon sends back the identifier unchanged between handle_message_from_agent and its answer is by construction of the messages in the statement.

### C72 The fork server runs the same command (proved)

A command that the agent hands to the session server of a user is parsed there as the same command, service, argument and caller; it goes to the server of the user that the command is to run as, and only with settings that this server follows.

* Quantifies over: all commands, configurations and histories
* Code: `agent/qrexec-agent.c: try_fork_server, handle_server_exec_request_do`, `agent/qrexec-fork-server.c: handle_single_command`, `libqrexec/exec.c: qrexec_cmd_use_fork_server, parse_qubes_rpc_command`
* Theorems (in `Props_Also`, `Props_Main`; vocabulary in `SpecDaemon`, `SpecAgent`, `SpecExec`, `SpecMain`, `SpecVm`): `C72_when`, `C72_fork_server`
* The write to the server is assumed complete (else the command is run without it).

### C73 Notifications tell what was decided (partial)

A call decided by an allow or deny rule is announced to the user exactly as the rule's notify setting says: in the qube with the user's screen of the calling qube, at most once, with the service, the caller and the real target; a call refused by the user, and a mere evaluation of the policy, announce nothing more than the policy asks for.

* Quantifies over: all policies, system descriptions, calls, answers of the user
* Code: `qrexec/tools/qrexec_policy_exec.py: NotifyAllowedResolution, notify, handle_request`, `qrexec/policy/parser.py: Action`
* Theorems (in `Props_Notify`; vocabulary in `SpecPolicy`, `SpecNotify`): `C73_granted_partial`, `C73_denied`, `C73_user_refuses`, `C73_evaluation_silent`, `C73_announced_refuted`
* C73_announced_refuted: with notify=yes a call can be announced as allowed and then be denied (loopback, or a relayed call).

### C74 Policy text is UTF-8 (proved)

A policy file is read as text only if all of its bytes form valid UTF-8 (RFC 3629: shortest form, no surrogates, at most U+10FFFF), and such a file is; a change of the policy whose content is not valid UTF-8 is refused and changes nothing.

* Quantifies over: all byte strings
* Code: `qrexec/policy/parser.py: AbstractFileLoader.load_policy_file`, `qrexec/policy/admin.py: PolicyAdmin`
* Theorems (in `Props_More`, `Utf8Proofs`; vocabulary in `SpecPolicy`, `SpecRule`, `SpecLoader`, `SpecAdmin`, `SpecUtf8`, `SpecExec`): `C74_text`, `C74_installed`, `utf8_spec`

### C75 The log of a service gets its stderr (proved)

When the stderr of a service is to be copied to the log of the agent, the log gets exactly the bytes read from it, in order; when it is not, nothing.

* Quantifies over: all schedules of reads, writes, signals and process ends, all data
* Code: `libqrexec/remote.c: handle_input_v2`, `libqrexec/process_io.c: qrexec_process_io`
* Theorems (in `Props_Ends`; vocabulary in `SpecStream`, `SpecPio`): `C75_stderr_copied`

### C76 A call ends when it is over, and not before (proved)

An end of a connection leaves its loop at the next iteration once its three streams are closed and the local process has ended (the service then sends the exit code; the client also needs to have it), or once the peer has closed the connection and all it sent is delivered; it does not leave it before, unless waiting for events fails.

* Quantifies over: all schedules and states of the connection
* Code: `libqrexec/process_io.c: qrexec_process_io`, `libqrexec/remote.c: send_exit_code`
* Theorems (in `Props_Ends`; vocabulary in `SpecStream`, `SpecPio`): `C76_service_ends`, `C76_client_ends`, `C76_not_before`, `C76_peer_gone`

### C77 One command per connection to the daemon (proved)

Each connection of a local client to the daemon of a qube leads to at most one command sent to the agent, and only after the client said hello in a known version. A message that does not lead to a command disconnects the client, and so does anything sent after the command. Other clients are not affected.

* Quantifies over: all histories of messages of clients
* Code: `daemon/qrexec-daemon.c: handle_message_from_client, handle_cmdline_message_from_client, handle_cmdline_body_from_client, handle_client_hello, terminate_client`
* Theorems (in `Props_Clients`; vocabulary in `SpecState`): `C77_command`, `C77_other_times`

### C78 The client of a call is told of its end (proved)

When the agent of a qube reports the end of a connection, the local client that set this connection up is disconnected from the daemon at once, and no other client is.

* Quantifies over: all histories of the daemon in which no client names the domain 0xFFFFFFFF
* Code: `daemon/qrexec-daemon.c: handle_cmdline_body_from_client, release_vchan_port, terminate_client, handle_message_from_agent`
* Theorems (in `PortEnd`; vocabulary in `SpecState`, `SpecPortEnd`): `C78_end_told`, `C78_only_then`
* The kernel is assumed to give new connections descriptors that are not in use.

### C79 A disposable lives as long as its call (partial)

A call to a new disposable kills nothing but the qube that it created, at most once and after all else. A qube that was created for a call is killed at the end of the call, whatever goes wrong; once the connection is set up, not before the connection has ended.

* Quantifies over: all answers of qubesd and of the daemons, all arguments
* Code: `daemon/qrexec-daemon-common.c: qrexec_execute_vm, qubesd_call, negotiate_connection_params`
* Theorems (in `Props_Also`, `Props_Vm`; vocabulary in `SpecDaemon`, `SpecAgent`, `SpecExec`, `SpecMain`, `SpecVm`, `SpecState`): `C79_keyword`, `C79_kills_only_created`, `C79_killed_at_the_end_partial`, `C79_failed_start_refuted`
* C79_failed_start_refuted: a disposable that was created but could not be started is not killed. An answer of the wrong type by the daemon of the target makes the program abort.

### C80 A call reaches the qube it is for (proved)

Running a call sends the command at most once, to the daemon of the target (or of the disposable created for it), with the number of the calling qube; then, if that daemon has chosen a connection, exactly its parameters go to the daemon of the calling qube for the identifier of the call; success is reported only if both were sent. Without autostart nothing is started or created.

* Quantifies over: all answers of qubesd and of the daemons, all arguments
* Code: `daemon/qrexec-daemon-common.c: qrexec_execute_vm, negotiate_connection_params, send_service_connect, connect_unix_socket`
* Theorems (in `Props_Vm`, `Props_Handshake`; vocabulary in `SpecState`, `SpecAgent`, `SpecVm`, `SpecStream`): `C80_no_autostart`, `C80_started_only_if_not_running`, `C80_killed_only_by_wrong_answer`, `C80_messages`, `C80_to_the_target`, `C80_number_of_caller`, `C80_callers_distinct`

### C81 Both qubes of a call are told about the same connection (proved)

When a call from one qube to another succeeds, the agent of the target gets the command and the agent of the caller the identifier of its call; each is told the number of the other qube, and both the same port.

* Quantifies over: all states of both daemons, all calls
* Code: `daemon/qrexec-daemon-common.c: qrexec_execute_vm`, `daemon/qrexec-daemon.c: handle_cmdline_body_from_client`
* Theorems (in `Props_Meet`; vocabulary in `SpecState`, `SpecAgent`, `SpecVm`, `SpecMeet`): `C81_same_connection`
* For domain numbers below 2^31 and identifiers of at most 31 characters (the size of the field). That a daemon answers its client with its own domain and the port is written_to_client in SpecMeet.v.

### C82 Both ends speak the same version (proved)

After the handshake on a connection both ends use the same version of the protocol, the highest that both speak, or both have given up; so both have the same limit for the size of messages, and what one end sends arrives whole.

* Quantifies over: all versions at both ends, whoever speaks first, all data and schedules
* Code: `agent/qrexec-agent-data.c: handle_handshake`, `daemon/qrexec-daemon-common.c: handle_agent_handshake`, `daemon/qrexec-daemon.c: handle_agent_hello`, `libqrexec/libqrexec-utils.h: max_data_chunk_size`
* Theorems (in `Props_Also`, `Props_Handshake`; vocabulary in `SpecDaemon`, `SpecAgent`, `SpecExec`, `SpecMain`, `SpecVm`, `SpecState`, `SpecStream`): `C82_only_hello`, `C82_agent_and_dom0`, `C82_two_agents`, `C82_own`, `C82_control`, `C82_data`, `C82_tool_connects`, `C82_daemon_takes`
* On the control connection only for agents that are not newer than the daemon: C82_newer_agent_refuted (the daemon repeats the version of the agent).

### C83 A change that leaves a valid policy is accepted (partial)

If the policy would load after a change of a policy file or include file, and the token of the request holds, then the request succeeds, and afterwards the file has the requested content (or is gone) and nothing else has changed. So a request is accepted exactly if the policy loads afterwards.

* Quantifies over: all file trees, names, contents and tokens
* Code: `qrexec/policy/admin.py: PolicyAdmin._common_replace, _common_remove, _validate`, `qrexec/policy/parser.py: ValidateParser`
* Theorems (in `Props_Accept`; vocabulary in `SpecPolicy`, `SpecRule`, `SpecLoader`, `SpecAdmin`): `C83_replace_accepted_partial`, `C83_remove_accepted_partial`, `C83_replace_iff_partial`
* For contents without carriage return, no file with the name of the temporary file, no legacy file that reads the changed file; for include files only if no line includes their directory as a whole (C83_include_dir_refuted: the validator then reads the include file as policy text); removal only of names the loader accepts (C83_stuck_refuted: a file that blocks the policy by its name cannot be removed).

### C84 Names cannot act as markup (proved)

Service, argument, source and target names are shown in the confirmation dialog and in notifications exactly as they are, whatever characters they contain; nothing in them is interpreted as markup.

* Quantifies over: all names
* Code: `qrexec/tools/qrexec_policy_agent.py: escape_and_format_rpc_text, PolicyAgent.notify`
* Theorems (in `Props_Dialog`; vocabulary in `SpecPolicy`, `SpecDialog`): `C84_escaped`, `C84_dialog`, `C84_notification`
* GLib.markup_escape_text is modelled for ASCII text without NUL; bytes above 127 are kept.

### C85 Every offered target can be chosen (partial)

Each target the policy engine offers for an ask rule is listed in the confirmation dialog and can be selected and confirmed; the default target is selected from the start.

* Quantifies over: all policies, calls and system states
* Code: `qrexec/tools/qrexec_policy_exec.py: AgentAskResolution.execute`, `qrexec/tools/qrexec_policy_agent.py: VMListModeler, RPCConfirmationWindow`
* Theorems (in `Props_Dialog`; vocabulary in `SpecPolicy`, `SpecDialog`): `C85_selectable`, `C85_default`, `C85_offered_partial`, `C85_nothing_to_choose`, `C85_names`, `C85_redirect_refuted`
* Proved for rules without target=, when the default disposable template of the caller is a template for disposables. False for ask target=@dispvm: the dialog has no entry for it, the user can only refuse (C85_redirect_refuted).

### C86 The policy graph shows what the policy lets through (partial)

Every edge of the graph that qrexec-policy-graph draws is a call that the policy lets through (red without, orange after a question) from that qube to that target; and each call that the policy lets through between qubes of the system is an edge of the graph, whatever its service and argument.

* Quantifies over: all policies, systems, options, calls
* Code: `qrexec/tools/qrexec_policy_graph.py: main, handle_single_action`, `qrexec/policy/parser.py: AbstractPolicy.evaluate`
* Theorems (in `Props_Graph`, `LoadAll`, `Props_GraphEnds`; vocabulary in `SpecPolicy`, `SpecGraph`, `SpecRule`, `SpecLoader`): `C86_sound`, `C86_complete_partial`, `loaded_cols`, `C86_empty_argument_refuted`, `C86_gone_qube_refuted`, `C86_service_option_refuted`, `C86_loop_refuted`, `C86_fails`
* C86_sound and C86_complete_partial hold whenever the program ends normally; C86_complete_partial excepts arguments not mentioned by the rules of a service that has a rule for the empty argument (C86_empty_argument_refuted: such calls are not shown). The program dies for ask target= a qube that is gone (C86_gone_qube_refuted) and with --service if a rule for all services exists (C86_service_option_refuted). Calls of a qube to itself are shown although they are refused later (C86_loop_refuted). The hypothesis on the rules holds of all rules that load (loaded_cols).

### C87 The conversion of the old policy loses no file (proved)

Wherever qrexec-legacy-convert is stopped, everything that was in the policy directories before is still there with its content, under its name or with .bak or .rpmsave appended, and no two things under the same name.

* Quantifies over: all file trees, policies, answers and points at which the tool is stopped, also in the middle of writing a file
* Code: `qrexec/tools/qrexec_legacy_convert.py: main`
* Theorems (in `Props_Convert`; vocabulary in `SpecConvert`): `C87_nothing_lost`

### C88 The conversion of the old policy can be taken back (partial)

If the policy after the conversion is not the same as before, the user is asked, and if they want the initial state back, all policy files are again as they were.

* Quantifies over: all file trees and policies
* Code: `qrexec/tools/qrexec_legacy_convert.py: main`
* Theorems (in `Props_Convert`, `Props_Place`, `Props_ConvertEx`; vocabulary in `SpecConvert`, `SpecPolicy`, `SpecGraph`, `SpecPlace`): `C88_restored_partial`, `C88_without_question_partial`, `C88_question`, `C88_never_reverted_refuted`, `C88_left_behind_refuted`, `C88_no_question_refuted`
* The claim is false: the tool never gets back (C88_never_reverted_refuted, for all inputs): it dies when it tries to remove an old file that it has renamed. C88_restored_partial: the files in the new format that were there are as before; the old ones stay put aside and new files stay. C88_left_behind_refuted: what was denied before is then allowed. C88_no_question_refuted: no question is asked if the converted policy does not load. C88_without_question_partial: if there is no question, each call that was let through looks (caller, destination, service, argument and action of the rule, question or not) like one that is let through now, and the other way round; C88_question: if there is one, the graphs differ.

### C89 The linter finds exactly the faulty lines (partial)

qubes-policy-lint reports each line of a policy file (or, with -i, of a file for !include-service) that is not right in itself, whatever the included files are, and no other line; it exits with 0 exactly if nothing is reported. Files without reports load, if what they include can be loaded; a policy with a reported file does not load.

* Quantifies over: all texts, file trees, lists of files
* Code: `qrexec/tools/qubes_policy_lint.py: lint, parse_file, parse_string_policy, main`, `qrexec/policy/parser.py: StringPolicy, StringLoader, ToposortMixIn`
* Theorems (in `Props_Lint`; vocabulary in `SpecPolicy`, `SpecRule`, `SpecLoader`, `SpecLint`): `C89_faults_reported`, `C89_only_faults_partial`, `C89_total`, `C89_clean_loads`, `C89_fault_refused`, `C89_service_faults_reported`, `C89_service_only_faults`, `C89_service_total`, `C89_service_clean_loads`, `C89_service_fault_refused`, `C89_exit`, `C89_status`, `C89_printed`, `C89_relative_path_refuted`, `C89_deeper_path_refuted`, `C89_old_include_refuted`, `C89_include_dir_refuted`, `C89_main_refuted`, `C89_recursion_refuted`, `C89_second_file_refuted`
* Proved for included paths as they are usually written (a name, or include/ and a name); with other paths right lines are reported or the tool dies (C89_relative_path_refuted, C89_deeper_path_refuted, C89_old_include_refuted, C89_recursion_refuted). Wrong lines that are not reported: C89_include_dir_refuted (only with -i), C89_main_refuted. Of several faulty files only the first is reported (C89_second_file_refuted); the exit code is right.

### C90 Converted rules go where they can be edited (partial)

qrexec-legacy-convert puts a rule into a file of the configuration tool (50-config-*) only if it is of a form that this tool has there, and into 30-user otherwise.

* Quantifies over: all policies and rules
* Code: `qrexec/tools/qrexec_legacy_convert.py: RuleWrapper.is_rule_compatible, main`
* Theorems (in `Props_Place`; vocabulary in `SpecPolicy`, `SpecConvert`, `SpecGraph`, `SpecPlace`): `C90_place_partial`, `C90_redirect_refuted`, `C90_letters_refuted`
* C90_place_partial: exactly for the rules of the form (fits), but for the exceptions listed in fits_not: calls for a disposable that are sent elsewhere (C90_redirect_refuted: the check looks at target= only if there is none), questions with the letters allow in a name (C90_letters_refuted), questions for input devices with another default.

### C91 Editing a policy file is safe (proved)

qubes-policy-editor saves exactly the text that the editor left last, to exactly the file that was asked for, and only if the linter finds nothing wrong in it, the server accepts it, and the file has not been changed or created by anyone else since it was read. If it does not save, nothing changes and the text is kept. A text that the linter and the server accept is saved.

* Quantifies over: all files, edits, answers of the user and changes by others while the editor runs
* Code: `qrexec/tools/qubes_policy_editor.py: main, validate_name, PolicyManager`
* Theorems (in `Props_Editor`; vocabulary in `SpecAdmin`, `SpecLoader`, `SpecLint`, `SpecEditor`): `C91_saved`, `C91_quit`, `C91_failed`, `C91_saves`, `C91_include_refuted`
* A file of ordinary rules that is included with !include cannot be saved: the linter is always run as for !include-service (C91_include_refuted); the property holds since it speaks of what the linter accepts.

### C92 qubes-policy does what was asked or nothing (proved)

qubes-policy lists the files, prints a file, replaces a file by the standard input, or removes a file: with status 0 it has done exactly this to exactly the file named; with any other status nothing has changed; status 2 means that the arguments name no file. Saving what it printed does not change the policy.

* Quantifies over: all arguments, inputs and states of the policy
* Code: `qrexec/tools/qubes_policy.py: main, run_method`
* Theorems (in `Props_Cli`; vocabulary in `SpecRule`, `SpecAdmin`, `SpecLoader`, `SpecEditor`): `C92_list_partial`, `C92_get`, `C92_replace`, `C92_remove`, `C92_failed`, `C92_usage`, `C92_round_trip`
* C92_list_partial: file names without line breaks, at least one file (with none, an empty line is printed).

### C93 Calls go out as they were asked for (partial)

A call made with qrexec-client-vm, or from Python with qrexec.client.call, asks the policy for exactly the target and the service that were named, with the name and the argument of the service joined by +, $ in the target written as @, and nothing taken for an option that was not one: the request passes through the agent and is understood by the daemon as that call if the service has a name and fits, and is refused otherwise. In dom0 the same call becomes a command line that the target understands as that call by dom0; a call to dom0 itself runs the program of the service.

* Quantifies over: all targets, services, arguments and command lines spelled with the documented options
* Code: `agent/qrexec-client-vm.c:main`, `agent/qrexec-client-vm.c:convert_target_name_keyword`, `qrexec/client.py:make_command`, `agent/qrexec-agent.c:handle_trigger_io`, `daemon/qrexec-client.c:main`
* Theorems (in `Props_Client`, `Props_Options`; vocabulary in `SpecDaemon`, `SpecAgent`, `SpecClient`, `SpecExec`): `C93_command_line`, `C93_call_partial`, `C93_answer`, `C93_option_names`, `C93_exit_status`, `C93_python_in_vm`, `C93_python_refuses`, `C93_python_in_dom0`, `C93_python_local`, `C93_long_target_refuted`
* Proved for names of at most 63 bytes; longer targets and sources are cut silently (C93_long_target_refuted; C93_call_partial says to what). The outcome of C93_call_partial is tied to the answer of the daemon by C71_answer_to_caller.

### C94 What qrexec-client does is decided by its options (partial)

qrexec-client makes a call, answers a call of another qube, or runs a service for dom0, exactly as its options say: at most one of -e, -l and -c; an identifier, a name and a number in C notation for -c; dom0 never appears as the caller of a connection, and dom0 runs nothing for itself but a service. Everything else ends the program without doing anything, with a status that is not 0 unless help was asked for.

* Quantifies over: all command lines; for the documented options all their spellings, orders and values
* Code: `daemon/qrexec-client.c:main`, `daemon/qrexec-client.c:parse_connect`, `daemon/qrexec-client.c:parse_int`, `daemon/qrexec-daemon-common.c:target_refers_to_dom0`
* Theorems (in `Props_Client`, `Props_Options`; vocabulary in `SpecDaemon`, `SpecAgent`, `SpecClient`, `SpecExec`): `C94_command_line_partial`, `C94_any_arguments`, `C94_option_names`, `C94_exit_status`, `C94_unknown_option_refuted`
* Proved except for the last clause: an unknown option ends the program with status 0 (C94_unknown_option_refuted).

### C95 A call that cannot be started is reported to its caller (partial)

For every command line that reaches a qube or dom0 over a connection that works: exactly the calls that can be started (the service is there and can be run or connected to, a process can be created) are served; for all others the caller is sent the end of both streams and an exit code, 127 if the machine has no such service and 125 otherwise, and no schedule makes the caller return another code once this has arrived. A call nobody waits for is answered with 0 exactly if it was started.

* Quantifies over: all command lines, file systems, configurations, failures of the connection after any number of bytes and schedules of the caller
* Code: `libqrexec/exec.c:execute_parsed_qubes_rpc_command`, `agent/qrexec-agent-data.c:handle_just_exec`, `agent/qrexec-agent-data.c:handle_new_process_common`, `daemon/qrexec-daemon-common.c:run_qrexec_to_dom0`, `daemon/qrexec-daemon-common.c:handshake_and_go`, `daemon/qrexec-daemon-common.c:handle_failed_exec`, `daemon/qrexec-client.c:main`
* Theorems (in `Props_Spawn`; vocabulary in `SpecStream`, `SpecPio`, `SpecSpawn`, `SpecExec`, `SpecLookup`): `C95_started`, `C95_agent_tells`, `C95_just_exec`, `C95_dom0_started`, `C95_dom0_tells_partial`, `C95_no_connection`, `C95_caller_returns`, `C95_unparsable_refuted`, `C95_local_refuted`, `C95_local_takes_part`
* C95_dom0_tells_partial: command lines that can be parsed. For others (for example a service name of more than 255 bytes) the process that answers for dom0 crashes (cmd->cmdline is read from a null pointer), and the caller gets no exit code: C95_unparsable_refuted. qrexec-client -l crashes the same way whenever its local command cannot be started: C95_local_refuted. C95_caller_returns is about a caller whose loop ends normally (not by an error on the connection).

### C96 A command runs as the user named, or not at all (partial)

What the agent starts runs with the user id, the group ids and the login environment of the user named in the command line, or by the configuration of the service, after the system let that user in; if any step fails nothing runs and the status is 125. Every user who is let in can run commands. The status is the exit code of the command, or 128 plus the signal. An agent that is not root serves its own user only.

* Quantifies over: all users, accounts, commands, configurations and failures of each step
* Code: `agent/qrexec-agent.c:do_exec`, `agent/qrexec-fork-server.c:do_exec`, `daemon/qrexec-daemon.c:do_exec`, `daemon/qrexec-client.c:do_exec`, `libqrexec/exec.c:load_service_config_v2`
* Theorems (in `Props_Login`; vocabulary in `SpecExec`, `SpecLogin`, `SpecSpawn`): `C96_runs_as_named`, `C96_or_not_at_all`, `C96_runs_partial`, `C96_not_root`, `C96_status`, `C96_which_user`, `C96_fork_server`, `C96_dom0_user`, `C96_long_home_refuted`, `C96_dom0_force_user_refuted`
* Not every user: one with a home directory of more than 58 bytes (shell: 57, name: 55) can run nothing (C96_long_home_refuted), C96_runs_partial is about the others. A user named in the configuration of a dom0 service is ignored (C96_dom0_force_user_refuted). PAM, getpwnam and the system calls are the environment of the model; that a fork server belongs to the user its socket is named after is assumed. Socket services are connected to by the agent itself.

### C97 The question reaches the user as asked, and the answer comes back as given (proved)

What the policy engine asks the user (caller, service, argument, choices, default) is what the policy agent puts into its dialog, and what it wants to be announced is what the agent shows, whatever characters the names contain, both for an agent in dom0 and for one in another qube. The agent asks nothing that a well-formed request for policy.Ask does not say. The engine receives the answer of the dialog unchanged, and no failure on the way is ever taken for consent.

* Quantifies over: all requests, names, icons, all byte strings sent to the agent, all JSON texts, all histories of the dialog, all failures of the transport
* Code: `qrexec/server.py:SocketService._client_connected`, `qrexec/server.py:call_socket_service`, `qrexec/tools/qrexec_policy_agent.py:PolicyAgent.handle_request`, `qrexec/tools/qrexec_policy_exec.py:AgentAskResolution.execute`
* Theorems (in `Props_Server`; vocabulary in `SpecJson`, `SpecDialog`, `SpecServer`, `SpecExec`, `SpecSpawn`, `SpecLookup`): `C97_local`, `C97_asked`, `C97_shown`, `C97_header`, `C97_only`, `C97_understood`, `C97_answer`, `C97_no_answer`, `C97_both`, `C97_json`, `C97_unambiguous`, `C97_roundtrip`
* JSON is specified by its grammar (SpecJson). The header of a remote request is from qrexec-agent: C97_header (a service whose configuration suppresses it gets no answer). Targets with characters outside ASCII cannot be answered: the call is refused.

### C98 Waiting for a connection ends in time (proved)

With a time limit, a program that waits for its peer waits exactly until the limit and not longer, however often it is interrupted; it succeeds exactly if the peer connects before that. Without a limit it waits as long as it takes. It never crashes because of the clock.

* Quantifies over: all limits, all start times, all sequences of clock readings, signals, and events of the vchan
* Code: `libqrexec/vchan_timeout.c:qubes_wait_for_vchan_connection_with_timeout`
* Theorems (in `Props_Timeout`; vocabulary in `SpecTimeout`): `C98_limit`, `C98_no_limit`, `C98_result`, `C98_no_abort`, `C98_start`, `C98_busy_refuted`, `C98_abort`
* Observation (C98_busy_refuted): without a limit, a descriptor that is ready with POLLHUP only keeps the program busy.

### C99 The policy engine knows exactly the system that qubesd describes (proved)

The policy engine asks qubesd over its internal socket for a description of the system. From a well-formed answer it knows every domain, under its name and under its uuid, with exactly the tags, type, templates, state and GUI domain that the answer gives it, and no other domain. If qubesd reports an error every call is denied, and any other answer, also one that is cut short at any byte, never leads to a decision about a smaller or different system. What is written for a call to qubesd says unambiguously which call it is.

* Quantifies over: all answers (all byte strings, all JSON texts), all systems, all points at which the connection breaks, all calls
* Code: `qrexec/utils.py:qubesd_call`, `qrexec/utils.py:get_system_info`, `qrexec/tools/qrexec_policy_exec.py:handle_request`
* Theorems (in `Props_Qubesd`; vocabulary in `SpecJson`, `SpecServer`, `SpecQubesd`, `SpecExec`): `C99_answer`, `C99_info`, `C99_only`, `C99_cut`, `C99_unavailable`, `C99_safe`, `C99_question`, `C99_call`, `C99_call_unambiguous`
* C99_info discharges the hypothesis wf_info of the theorems about the policy. Simplified: a member of the wrong kind is an exception at once; Python raises when it is used. Answers outside ASCII are not modelled (json.dumps in qubesd writes ASCII).

## Findings

Where a property is false of the code, a `_refuted` theorem gives a concrete run. The most important ones, and
others noticed while modelling (those without a theorem are marked †):

Policy evaluation and files
* A call for `@dispvm` by a qube without default_dispvm makes rule matching raise AttributeError when a
  `@dispvm:x` rule exists (C06_matching_total_refuted); an ask rule naming a missing disposable template does the same (C10_ask_total_refuted).
* `@dispvm` resolves to the default disposable template without checking template_for_dispvms † (F17).
* A caller named by uuid is not recognised as itself: loopback is allowed (C14_no_loopback_refuted).
* Printing a rule loses notify=, autostart=, and the wildcard service (C19_print_parse_refuted, C55_parameters_refuted).
* `!include //abs/path` leaves the policy directory † (F18). `!include-dir` of a directory makes the validation read include files as policy
  files (C83_include_dir_refuted) and can make a directory unchangeable (C83_stuck_refuted).
* A policy file read while being replaced: the temporary file `!NAME.policy` is loaded by others
  (C31_stopped_in_between_refuted); a directory with the name of a policy file leaves the temporary file behind (C27_directory_refuted).
* Registration of an argument accepts a service with `+`, or an empty one, and then no policy loads any more (C40_plus_refuted,
  C40_empty_refuted); an unterminated last line swallows the rule (C40_no_newline_refuted).
* The cached policy: changes between loading and setting up the watches are missed (C35_refuted); so are changes of
  permissions, of included files outside and a moved policy directory (C34_*_refuted).
* A notification can announce "allowed" before the call is denied (C73_announced_refuted).
* The dialog has no entry for `ask target=@dispvm` (C85_redirect_refuted); a change of the system after the click is not noticed (C54_changed_after_click_refuted).
* qrexec-policy-exec falls back with a stale policy source for remote calls (C58_fallback_refuted, C59_remote_refuted); `--path` is fatal (C38_path_option_dies).
* A source unknown to the system with notify=yes raises KeyError †.

Tools
* The legacy conversion loses denials, parameters, implicit denials for other arguments, and the order of rules split between files (C55_*_refuted); it cannot be
  taken back: restoring dies (C88_never_reverted_refuted), and nothing is offered if the converted policy does not load (C88_no_question_refuted).
* The graph misses calls, dies on missing qubes and with --service (C86_*_refuted).
* The linter: see C89_*_refuted; the editor checks include files always as `!include-service` files (C91_include_refuted).
* An empty list of include files is returned as one empty name (C33_empty_list_refuted).
* qrexec_policy_restore.py calls a function that does not exist †; ToposortMixIn.dfs does not sort †.
* `client.call_async` without input raises KeyError † (F60).
* qrexec-client ends with status 0 for unknown options (C94_unknown_option_refuted); qrexec-client-vm cuts names after 63 bytes (C93_long_target_refuted).

Daemon and agent
* A policy process killed by a signal: the call is never answered and its slot is lost; after 256 of these all calls are refused (C42_signal_refuted, C42_leak_refuted).
  A failed connect request and one that is read after the process ended are not answered either (C42_failed_connect_refuted, C42_success_first_refuted);
  the log message there reads one element behind the table when 255 calls are pending † (F24).
* Domain number 0xFFFFFFFF is taken for "unused port" (C41_all_ones_refuted).
* A disposable that was created but could not be started is not killed (C79_failed_start_refuted).
* An agent that announces a newer protocol still gets and sends messages of version 4 (C82_newer_agent_refuted).
* `..` as the name of a service designates the parent directory (C49_dotdot_refuted); a dangling link is skipped (C64_dangling_link_skipped).
* User names with a colon change the meaning of the command (C66_colon_in_user_refuted).
* A failed fork in the agent loses a command (C70_failed_fork_refuted); the 257th connection is never reported (C70_too_many_refuted);
  a command in its own session runs without waiting (C69_own_session_refuted).
* SIGUSR1 and the end of stdout can announce the end twice (C63_usr1_refuted); prefix data can be lost when the exit code comes first (C62_prefix_refuted).
* handle_service_refused closes an uninitialised descriptor if the identifier has no number † (F38); stderr of plain commands is duplicated to descriptor 0 † (F26);
  load_service_config (old interface) frees a wrong pointer † (F29); the command length limits of qrexec_execute_vm and the daemon differ by 8 †;
  `write` returning 0 makes flush_client_data loop †; EINTR is an error there †; wait_for_session_maybe waits for the wrong process id †;
  connect_unix_socket leaks a descriptor when the handshake fails †.
* A blank line of spaces in a service configuration file is refused (C67_blank_line_refused); unknown kinds of targets (C52_unknown_kind).
* The process that answers a call to dom0 reads a null pointer when the command line cannot be parsed (C95_unparsable_refuted), and so does
  qrexec-client -l when its local command cannot be started (C95_local_refuted).
* Users whose home directory has a name of more than 58 bytes cannot run anything (C96_long_home_refuted); `force-user` in the configuration of a
  dom0 service is accepted and ignored (C96_dom0_force_user_refuted).
* A remote exit code that is a multiple of 256 becomes exit status 0 of qrexec-client †; a fork server says nothing to anybody about a command it cannot parse †.
* qubes-policy-restore (qrexec_policy_restore.py) calls `parser.toposort`, which does not exist (toposort is a method of ToposortMixIn): it creates the
  directories and ends with an exception, nothing is ever restored †. ToposortMixIn itself puts sets into a set in toposort() and would raise too †.
* A dialog cannot return a target whose name is not ASCII (C97_no_answer): such a call is refused. A request with characters outside ASCII in its text is dropped.
* Waiting without a limit for a descriptor on which only POLLHUP is reported is a busy loop (C98_busy_refuted).
* call_async() without input (its default) or with a file always raises KeyError and runs nothing (C100_async_refuted): kwds.pop("input") without a default.
* A domain whose uuid is null in the answer of qubesd makes get_system_info raise TypeError for every call (only a missing uuid is caught); all calls fail, none is allowed.
* A daemon that notices late that its agent is gone (it waits for the qube to come back) removes the name and uuid links of the daemon of the
  restarted qube when it ends (C101_overlap_refuted): the new qube is then unreachable by name. A qube whose name is a number would take over the
  socket of the qube with that id (C101_number_refuted).
* `qrexec-daemon 4294967301 name` serves the domain with id 5, and so does `5abc` (C102_wrap_refuted). With QREXEC_STARTUP_NOWAIT failure is never reported.
* qubes.WaitForSession is started with the agent's other descriptors (C103_session_refuted).
* qubes.WaitForSession does not read the user's name that qrexec-agent (and dom0) writes to its standard input: it waits for the session of the default
  user, whatever user the call is for; the call of another user is then run without a session (C113_other_user_refuted). It takes a socket file as a
  server, also when the server has bound it but does not listen yet, or was killed (C113_listens_refuted). With an argument it complains and ends with status 0.
* Whether the session was reached is ignored by the agent: the calls held back are run whatever the status of qubes.WaitForSession.
* wait_for_session_maybe of the daemon waits for `local_pid` (0: any child of the process group) instead of the child it has started †.
* † The daemon reads from its clients with blocking calls and takes all messages of the agent before it
  turns to the clients: a local client that sends half a message, or an agent that sends without pause,
  keeps it from serving the others (C104 speaks of turns that come to an end).
* Sockets: get_server_socket and try_fork_server cut names at 107 bytes without an error (C107_long_refuted). A server with a longer name
  removes one name and binds another, so it cannot be started twice; two users whose names agree in the first 78 bytes get the same fork server,
  so the command for one is run by the other (C107_long_users_refuted; such names cannot be made with useradd). connect_unix_socket of qrexec-client-vm
  never writes the last byte of the address and takes its length with strlen (C107_trigger_refuted).
* A fork server whose accept fails removes the socket even if a newer server has taken it over (C107_successor_refuted). Any failure of accept
  (for example EMFILE) ends it.
* Long relative entries in QREXEC_SERVICE_PATH never work (C106_relative_refuted).
* qrexec-policy-graph opens (and empties) the file of --output before it reads the description of the system and the policy: a run that fails leaves
  an empty or unfinished drawing in place of the old one (C115_old_drawing_refuted); `--output F --system-info F` destroys F and always fails
  (C115_same_file_refuted); an output file inside the policy directory is read as an empty policy file in that run.
