(** Starting what was asked for and telling the caller when that fails: libqrexec/exec.c
    677-702, agent/qrexec-agent-data.c 141-322, daemon/qrexec-daemon-common.c 416-591 and
    the end of daemon/qrexec-client.c (main).

    Not modelled: malloc failures, the log, which descriptors the process gets. *)
From Coq Require Import String Ascii List Bool Arith ZArith.
From Verif Require Import Base Io Stream SpecStream ProcessIo.
From Verif Require Exec Toml Agent.
Import ListNotations.
Open Scope string_scope.
Open Scope list_scope.
Open Scope Z_scope.

(** qrexec.h: QREXEC_EXIT_PROBLEM, QREXEC_EXIT_SERVICE_NOT_FOUND *)
Definition EXIT_PROBLEM := 125.
Definition EXIT_SERVICE_NOT_FOUND := 127.

(** The machine a call is to run on: its files (with the configuration of services), the
    search path of services, and whether connecting to a socket or a TCP port, writing the
    first data to it, creating pipes and a process, and starting the program that waits for
    the session succeed *)
Record machine := mkMachine {
  m_files : Agent.files; m_services : string;
  m_connects : bool; m_writes : bool; m_forks : bool; m_session : bool }.

(** what runs then: a connection, or a process that calls do_exec with these arguments *)
Inductive started :=
| OnSocket (s : Exec.service)
| OnProcess (prog : option string) (command : string) (user : option string).

(** the service of a command, with its socket, exec.c 683-690 *)
Definition the_service (m : machine) (p : Agent.prepared) (d n : string) : Exec.service :=
  Exec.find_qrexec_service (Agent.f_fs (m_files m)) (m_services m) true
    (Toml.cf_send_service_descriptor (Agent.pr_config p)) d n
    (Exec.pc_arg (Agent.pr_cmd p)) (Exec.pc_command (Agent.pr_cmd p)).
(** do_fork_exec, exec.c 249-300, in the parent *)
Definition do_fork_exec (m : machine) (prog : option string) (p : Agent.prepared) : started + Z :=
  if m_forks m then inl (OnProcess prog (Exec.pc_command (Agent.pr_cmd p)) (Agent.pr_user p)) else inr (-2).
(** execute_parsed_qubes_rpc_command, exec.c 677-702; [inr] is a status that is not 0 *)
Definition execute_parsed (m : machine) (p : Agent.prepared) : started + Z :=
  match Exec.pc_descriptor (Agent.pr_cmd p), Exec.pc_name (Agent.pr_cmd p) with
  | Some d, Some n =>
      match the_service m p d n with
      | Exec.ServiceAbsent => inr (-1)
      | Exec.ServiceError => inr (-2)
      | Exec.RunProgram path => do_fork_exec m (Some path) p
      | s => if m_connects m then inl (OnSocket s) else inr (-2)
      end
  | _, _ => do_fork_exec m None p
  end.

(** The data vchan: whether it is connected to in time, whether the handshake succeeds, and
    how many bytes it takes until it breaks *)
Record link := mkLink { k_open : bool; k_hello : bool; k_takes : nat }.
Definition put (k : link) (b : bytes) : bytes := firstn (k_takes k) b.
Definition all_put (k : link) (b : bytes) : bool := (length b <=? k_takes k)%nat.

(** what becomes of a call: a process ends with this status, having sent these bytes;
    the call is served (qrexec_process_io, see ProcessIo.v) *)
Inductive outcome :=
| Ends (status : Z) (sent : bytes)
| Serves (st : started) (p : Agent.prepared)
| Crashes.

(** handle_just_exec, agent-data.c 141-189 *)
Definition handle_just_exec (m : machine) (p : option Agent.prepared) : Z :=
  match p with
  | None => EXIT_PROBLEM
  | Some p =>
      match Exec.pc_descriptor (Agent.pr_cmd p), Exec.pc_name (Agent.pr_cmd p) with
      | Some d, Some n =>
          match the_service m p d n with
          | Exec.ServiceAbsent => EXIT_SERVICE_NOT_FOUND
          | Exec.ServiceError => EXIT_PROBLEM
          | Exec.RunProgram _ => if m_forks m then 0 else EXIT_PROBLEM
          | _ => if m_connects m then if m_writes m then 0 else EXIT_PROBLEM else EXIT_PROBLEM
          end
      | _, _ => if m_forks m then 0 else EXIT_PROBLEM
      end
  end.

(** handle_new_process_common, agent-data.c 202-322, for the commands with which
    handle_server_exec_request_init calls it (qrexec-agent.c 582-640; a command that is not
    understood, or that has a wrong configuration, is NULL) *)
Definition agent_serve (m : machine) (k : link) (type : Z) (line : string) : outcome :=
  if negb (k_open k && k_hello k) then Ends 1 []
  else
    let cmd := Agent.prepare (m_files m) line in
    if type =? Agent.MSG_JUST_EXEC then
      let msg := exit_code_msg (handle_just_exec m cmd) in
      Ends (if all_put k msg then 0 else 1) (put k msg)
    else if type =? Agent.MSG_EXEC_CMDLINE then
      let failed code :=
        Ends code (put k (enc32 MSG_DATA_STDOUT ++ enc32 0 ++ enc32 MSG_DATA_STDERR ++ enc32 0 ++ exit_code_msg code)) in
      match cmd with
      | None => failed EXIT_PROBLEM
      | Some p =>
          match execute_parsed m p with
          | inl st => Serves st p
          | inr status => failed (if status =? -1 then EXIT_SERVICE_NOT_FOUND else EXIT_PROBLEM)
          end
      end
    else Ends 0 [].

(** ** dom0 *)

(** handle_failed_exec, daemon-common.c 432-467: what is sent *)
Definition handle_failed_exec (k : link) (is_service : bool) (code : Z) : bytes :=
  if is_service
  then put k (enc32 MSG_DATA_STDERR ++ enc32 0 ++ enc32 MSG_DATA_STDOUT ++ enc32 0 ++ exit_code_msg code)
  else [].

(** handshake_and_go, daemon-common.c 566-591: [prepare_ret] is 0 ([inl]) or the status.
    cmd->cmdline is read when the command could not be started, also when cmd is NULL; with
    NULL and a service (and the other way round) the assertion fails. *)
Definition handshake_and_go (k : link) (remote_send_first : bool) (prepare_ret : option started + Z)
    (cmd : option Agent.prepared) : outcome + unit :=
  if negb (k_open k && k_hello k) then inl (Ends EXIT_PROBLEM [])
  else
    match prepare_ret, cmd with
    | inr status, None => inl Crashes
    | inr status, Some _ =>
        let rc := if status =? -1 then EXIT_SERVICE_NOT_FOUND else EXIT_PROBLEM in
        inl (Ends rc (handle_failed_exec k remote_send_first rc))
    | inl (Some st), Some p => inl (if remote_send_first then Serves st p else Crashes)
    | inl _, None => if remote_send_first then inl Crashes else inr tt
    | inl None, Some _ => inl Crashes
    end.

(** wait_for_session_maybe, daemon-common.c 372-413: the command with its configuration,
    which is only read if the command has no nogui: *)
Definition dom0_prepare (m : machine) (c : Exec.parsed_command) : option Agent.prepared :=
  let plain := Agent.mkPrep c Toml.no_config (Exec.pc_username c) in
  if Exec.pc_nogui c then Some plain
  else
    match Exec.pc_descriptor c, Exec.pc_name c with
    | Some d, Some n =>
        match Toml.load_service_config_v2 (Agent.f_fs (m_files m)) (Agent.f_contents (m_files m)) (Agent.f_path (m_files m))
                d n (Exec.pc_username c) with
        | None => None
        | Some (cf, u) => if negb (Toml.cf_wait_for_session cf) || m_session m then Some (Agent.mkPrep c cf u) else None
        end
    | _, _ => Some plain
    end.

(** run_qrexec_to_dom0, daemon-common.c 499-564, from the parsing of the command on (when
    no connection is offered, 125 is returned before: [k_open] is false). *)
Definition run_qrexec_to_dom0 (m : machine) (k : link) (line : string) : outcome :=
  if negb (k_open k) then Ends EXIT_PROBLEM []
  else
    let r :=
      match Exec.parse_qubes_rpc_command line false with
      | None => handshake_and_go k true (inr (-2)) None
      | Some c =>
          match dom0_prepare m c with
          | None => handshake_and_go k true (inr (-2)) (Some (Agent.mkPrep c Toml.no_config (Exec.pc_username c)))
          | Some p =>
              match execute_parsed m p with
              | inl st => handshake_and_go k true (inl (Some st)) (Some p)
              | inr status => handshake_and_go k true (inr status) (Some p)
              end
          end
      end in
    match r with inl o => o | inr _ => Crashes end.

(** select_loop, daemon-common.c 469-497: the status of the end [code] is passed on with
    exit_with_code only *)
Definition select_loop (exit_with_code : bool) (code : Z) : Z := if exit_with_code then code else 0.

(** What qrexec-client does with the command of -l before its loop starts, qrexec-client.c
    371-412: [inr] is the loop, with the process if there is one *)
Definition client_local (m : machine) (k : link) (local : option string) : outcome + unit :=
  match local with
  | None => handshake_and_go k false (inl None) None
  | Some line =>
      match Exec.parse_qubes_rpc_command line false with
      | None => handshake_and_go k false (inr EXIT_PROBLEM) None
      | Some c =>
          match execute_parsed m (Agent.mkPrep c Toml.no_config (Exec.pc_username c)) with
          | inl st => handshake_and_go k false (inl (Some st)) None
          | inr status => handshake_and_go k false (inr status) None
          end
      end
  end.
