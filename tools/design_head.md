# Design of the Rocq model of qubes-core-qrexec

This file is written by `tools/gen_design.py` from `tools/design_head.md`, `tools/design_findings.md`,
`properties.jsonl`, `MANIFEST.json` and the theory files.

## Layout

* `rocq/theories/` – four kinds of files:
  * *model files* (listed under "What is modelled"): one definition per function of /repo, each with a
    comment that names file and lines and says what is simplified;
  * `Spec*.v` – small specifications in plain terms (grammars, relations, histories). They do not use
    the functions of the model, only its data types (a token, a rule, an event, ...) and the elementary
    operations on texts of `Base.v`;
  * `*Proofs.v` and a few others – lemmas;
  * `Props_*.v` – the theorems named in MANIFEST.json. Names begin with the number of the property;
    `_partial` marks a theorem that proves only part of a property, `_refuted` a theorem that exhibits
    a run of the modelled code that violates the property as stated. Examples beside the theorems show
    that the hypotheses are met by concrete, non-trivial cases.
* `properties.jsonl` – the properties in English; `MANIFEST.json` – their theorems;
  `seeded/LOG.jsonl` – wrong programs tried against the theorems.
* `tools/` – the generators of the three files above.

## How the code is represented

* Shallow embedding. A Python function is a total Gallina function into `res A := Ok a | Err e` (or
  `option`), with a constructor of `exn` for each exception class that matters: an exception that leaves
  a function is a result, so "never raises" is a statement. C functions are total functions; `exit`,
  `abort` and `_exit` are results.
* State is an explicit record or map (tables of the daemon, buffers, files, notification queues).
  Everything the program does not control is an argument or an event that the theorems quantify over:
  the order of directory listings, results of system calls (short reads and writes, EINTR, EAGAIN, errors),
  messages of other parties, signals, ends of processes, clicks of the user, the moment at which a
  program is stopped, changes of files by others. Histories are lists of events of any length.
* Texts are Coq `string`s, i.e. sequences of bytes. A Python `str` is the sequence of its characters up
  to 255; where the encoding matters (policy files, C74) bytes are decoded explicitly. White space is ASCII
  white space.
* Integers are `Z` where C integers are read from messages (with their sizes written as bounds), `nat` for
  lengths and indices.
* Recursion through included files uses a counter; running out of it is the distinguished error `EFuel`,
  which the theorems exclude or treat as an error of the program (Python's recursion limit).
* Properties that need unbounded quantification are proved by induction on texts, rule lists, file lists,
  event lists and by invariants of the state machines; there is no search and no bound.

## Trusted base

* The Coq 8.16.1 kernel (checked again by `coqchk`), the OCaml compiler and runtime it was built with, and
  the machine.
* Axioms: none. `Print Assumptions` says "Closed under the global context" for every one of the
  @NTHM@ theorems named in MANIFEST.json (`tools/gen_design.py --check` runs it for all of them; the table at
  the end of this file lists them). The libraries loaded are only Coq's own (String, Ascii, List, Bool, Arith, ZArith,
  Lia, Permutation, Sorted, ...). `coqchk` lists the seven parameters of `Coq.ssr.ssrunder.Under_rel` because
  `Lia` loads that part of the standard library; no theorem depends on them.
* No kernel check is switched off; no functors, module types, `Admitted`, axioms, section-less variables.
* The correspondence between the model and /repo, made by reading. The comments at each definition say
  which lines it models. `seeded/LOG.jsonl` shows that the theorems react to changes of the model.
* The C and Python semantics implied by the model: standard library functions (`str.split`, `shlex`-free
  parsing, `strtol`, `sscanf`, `strncpy`, `getopt_long`, `json`, `os.scandir`, `hashlib`) are modelled by their
  documented behaviour; the kernel's file system operations (rename is atomic, O_EXCL), pipes, Unix
  sockets, inotify and Xen's vchan by theirs.

## What is modelled

| source | model | not modelled |
|---|---|---|
| qrexec/utils.py | `SysInfo`, `Qubesd`, `PyClient`, `Sanitize` | failures of the socket; answers of qubesd that are not ASCII |
| qrexec/policy/parser.py (tokens, rules, requests, evaluation, resolutions) | `Token`, `Rule`, `Policy`; printing of rules in `Rule` | `__repr__` |
| qrexec/policy/parser.py (files, includes, loaders, validation, StringPolicy), parser_compat.py | `FileSys`, `Loader`, `LineLoader`, `Lint` | symbolic links in the policy directories; order computed by ToposortMixIn (nothing uses it correctly: finding) |
| qrexec/policy/admin.py, admin_client.py, tools/qubes_policy_admin.py | `Admin` | failures of chmod, chown and of the lock; fsync (there is none in the code) |
| qrexec/policy/utils.py (cache) | `Cache` | pyinotify's automatic watches of renamed sub-directories |
| qrexec/tools/qrexec_policy_exec.py | `PolicyExec` | creation of a default policy by the deprecated option |
| qrexec/tools/qrexec_policy_daemon.py | `PolicyDaemon` | asyncio itself; start_serving |
| qrexec/tools/qrexec_policy_agent.py | `Dialog` | drawing, icons, the error bar |
| qrexec/tools/qrexec_policy_graph.py | `Graph`, `GraphFile` | reading JSON, failing writes |
| qrexec/tools/qrexec_legacy_convert.py | `Convert` | texts printed, permissions, failing writes |
| qrexec/tools/qubes_policy_lint.py | `Lint` | reading standard input; texts of messages |
| qrexec/tools/qubes_policy.py, qubes_policy_editor.py | `Editor` | texts of messages; failing standard input and output |
| qrexec/client.py | `ClientTools`, `PyClient` | the subprocess module (as documented) |
| qrexec/server.py | @SERVER@ | |
| qubes-rpc-dom0/policy.RegisterArgument | `RegisterArgument` | log messages |
| daemon/qrexec-daemon.c | `DaemonState` (tables, messages, clients, children), `DaemonAgent` (messages of the agent), `DaemonPolicy` (policy questions and answers), `Handshake`, `SocketDir` (names of the sockets), `DaemonStart` (command line and start-up), `DaemonLoop` (the main loop) | reconnection is an event; failures of symlink() |
| daemon/qrexec-daemon-common.c | `ExecuteVm`, `Dom0Call`, `DaemonPolicy`@COMMON@ | |
| daemon/qrexec-client.c | `ClientTools`, `Login` (user of dom0 programs) | --socket-dir |
| agent/qrexec-agent.c | `Agent`, `AgentLoop` (the main loop), `AgentStart` (command line, start, end), `Login` (log-in of the named user, the environment, giving up of rights) | what PAM itself does (an event), the text of the systemd notification, waking of meminfo-writer |
| agent/qrexec-agent-data.c | `ProcessIo`, `Stream`, `Handshake`@DATA@ | SIGCHLD plumbing (an event) |
| agent/qrexec-client-vm.c | `ClientTools`, `Fds`, `UnixSocket` | |
| agent/qrexec-fork-server.c | `Agent`, `Login`, `UnixSocket` (socket, main loop) | |
| libqrexec/buffer.c, write-stdin.c, replace.c, remote.c | `Stream` | |
| libqrexec/process_io.c | `ProcessIo` | |
| libqrexec/ioall.c, txrx-vchan.c | `Io` | libvchan itself |
| qubes-rpc-base/qubes.WaitForSession | `WaitSession` | qubesdb-read, systemctl and id are events |
| policy.d/ | `ShippedPolicy` | README |
| libqrexec/exec.c | `Exec`, `Toml` (service configuration)@EXECC@, `Fds` (descriptors of new programs), `UnixSocket` (qubes_connect) | getaddrinfo and connecting to TCP ports |
| libqrexec/toml.c | `Toml` | read errors |
| libqrexec/vchan_timeout.c | `VchanTimeout` | overflow of time_t |
| libqrexec/unix-server.c | `SocketDir`, `UnixSocket` | modes and limits of sockets |
| libqrexec/open_logger.c | `Fds` | |
| libqrexec/log.c | `Fds` (setup_logging) | what is logged |

Failures of malloc and similar (which end the programs) are not modelled anywhere. The tests, the packaging
and the documentation of /repo are out of scope.

