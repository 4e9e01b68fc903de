(** The main loop of qrexec-agent: agent/qrexec-agent.c 440-1010, and what the fork
    server does with a command, agent/qrexec-fork-server.c 67-106.

    Failures of malloc and asprintf and of the control vchan (which end the agent) are
    not modelled. *)
From Coq Require Import String Ascii List Bool Arith ZArith.
From Verif Require Import Base Sanitize DaemonAgent Exec Toml.
Import ListNotations.
Open Scope string_scope.
Open Scope list_scope.
Open Scope Z_scope.

(** qrexec.h 34, 42, 49, 88-98, 120 *)
Definition MAX_FDS : nat := 256.
Definition MAX_QREXEC_CMD_LEN := 65535.
Definition MSG_EXEC_CMDLINE := 512.
Definition MSG_JUST_EXEC := 513.
Definition MSG_SERVICE_CONNECT := 514.
Definition MSG_SERVICE_REFUSED := 515.

(** struct exec_params and the type of the message: a request of the daemon *)
Record request := mkReq { q_type : Z; q_domain : Z; q_port : Z; q_cmdline : string }.
(** what is known about a request: the parsed command, its configuration and the user
    to run it as. [None]: cmd is NULL *)
Record prepared := mkPrep { pr_cmd : parsed_command; pr_config : config; pr_user : option string }.

(** struct connection_info, 51-56. [None] in the table is pid 0; the other pids are
    those of processes, or -1. *)
Record connection := mkConn { c_pid : Z; c_fd : Z; c_domain : Z; c_port : Z }.

Record agent := mkAgent {
  a_conns : list (option connection);               (* connection_info *)
  a_waiting : list (option (request * option prepared));  (* requests_waiting_for_session *)
  a_wait : option Z                                 (* wait_for_session_pid, None: -1 *)
}.
Definition start : agent := mkAgent (repeat None MAX_FDS) (repeat None MAX_FDS) None.

Inductive output :=
| HandedOver (fd : Z) (q : request) (p : prepared) (text : string)   (* sent to the fork server of pr_user *)
| Started (pid : Z) (q : request) (p : option prepared)             (* handle_new_process *)
| NoSlot (domain port : Z)                                          (* only a message *)
| Terminated (domain port : Z)                                      (* MSG_CONNECTION_TERMINATED *)
| ParamsTo (fd : Z) (domain port : Z)                               (* written to a local client *)
| Closed (fd : Z)
| ClosedUnknown                                                     (* close of an uninitialized variable *)
| WaitStarted (pid : Z) (user : option string) (source : option string)
| Forwarded (type len : Z) (body : string)                          (* to the daemon *)
| Dies.

(** first index with a given property *)
Fixpoint first_free {A} (l : list (option A)) : option nat :=
  match l with
  | [] => None
  | None :: _ => Some O
  | Some _ :: l' => option_map S (first_free l')
  end.
Fixpoint put {A} (n : nat) (x : A) (l : list A) : list A :=
  match l with
  | [] => []
  | a :: l' => match n with O => x :: l' | S n' => a :: put n' x l' end
  end.

(** register_vchan_connection, 511-527 *)
Definition register (pid fd domain port : Z) (conns : list (option connection))
  : list (option connection) * list output :=
  match first_free conns with
  | Some i => (put i (Some (mkConn pid fd domain port)) conns, [])
  | None => (conns, [NoSlot domain port])
  end.

(** what the system does when a request is carried out: the fork server takes it
    (its socket), or not; the result of fork in handle_new_process (-1: failure) *)
Record do_env := mkDo { d_server : option Z; d_pid : Z }.

(** try_fork_server, 448-508: [true] if it gets as far as the socket.
    [enabled] is that fork_server_path is not NULL. *)
Definition fork_server_tried (enabled : bool) (cmdline : string) : bool :=
  enabled && negb (zlen cmdline + 1 >? MAX_QREXEC_CMD_LEN) && has_char ":" cmdline.

(** handle_server_exec_request_do, 642-698, for MSG_EXEC_CMDLINE and MSG_JUST_EXEC *)
Definition exec_do (enabled : bool) (d : do_env) (q : request) (p : option prepared)
    (conns : list (option connection)) : list (option connection) * list output :=
  let use := match p with
             | Some p => qrexec_cmd_use_fork_server (pc_nogui (pr_cmd p)) (pr_config p) && fork_server_tried enabled (q_cmdline q)
             | None => false
             end in
  match (if use then d_server d else None), p with
  | Some fd, Some p' =>
      let text := match split1 ":" (q_cmdline q) with Some (_, t) => t | None => "" end in
      let (conns', out) := register (-1) fd (q_domain q) (q_port q) conns in
      (conns', HandedOver fd q p' text :: out)
  | _, _ =>
      let (conns', out) := register (d_pid d) (-1) (q_domain q) (q_port q) conns in
      (conns', Started (d_pid d) q p :: out)
  end.

(** sscanf(s, SOCKET%d): the number, or 0, or EOF. %d skips blanks and takes a
    sign; numbers that do not fit an int are not modelled. *)
Inductive scanned := Scanned (n : Z) | ScanFail | ScanEof.
Definition c_space (c : ascii) : bool :=
  let n := nat_of_ascii c in ((9 <=? n) && (n <=? 13) || (n =? 32))%nat.
Fixpoint skip_c_space (s : string) : string :=
  match s with
  | EmptyString => EmptyString
  | String c s' => if c_space c then skip_c_space s' else s
  end.
Definition scan_digits (s : string) : scanned :=
  match s with
  | EmptyString => ScanFail
  | String c _ => if digit c then Scanned (digits_value (fst (span digit s)) 0) else ScanFail
  end.
Definition scan_int (s : string) : scanned :=
  match skip_c_space s with
  | EmptyString => ScanEof
  | String "-" s' => match scan_digits s' with Scanned n => Scanned (- n) | r => r end
  | String "+" s' => scan_digits s'
  | s' => scan_digits s'
  end.
Fixpoint scan_lit (lit s : string) : scanned :=
  match lit, s with
  | EmptyString, _ => scan_int s
  | String _ _, EmptyString => ScanEof
  | String a lit', String b s' => if Ascii.eqb a b then scan_lit lit' s' else ScanFail
  end.
Definition scan_socket (s : string) : scanned := scan_lit "SOCKET" s.

(** the part of handle_server_exec_request_do for MSG_SERVICE_CONNECT, 650-671;
    [ebadf] is whether write fails with EBADF *)
Definition service_connect (ident : string) (domain port : Z) (ebadf : bool)
    (conns : list (option connection)) : list (option connection) * list output :=
  match scan_socket ident with
  | Scanned fd =>
      if ebadf then (conns, [])
      else let (conns', out) := register (-1) fd domain port conns in
           (conns', ParamsTo fd domain port :: out)
  | _ => (conns, [])
  end.

(** What the agent finds in the file system when it gets a request *)
Record files := mkFiles { f_fs : filesystem; f_contents : string -> option string; f_path : string }.

(** 593-611: parsing and configuration *)
Definition prepare (f : files) (cmdline : string) : option prepared :=
  match parse_qubes_rpc_command cmdline true with
  | None => None
  | Some c =>
      match pc_descriptor c, pc_name c with
      | Some d, Some n =>
          match load_service_config_v2 (f_fs f) (f_contents f) (f_path f) d n (pc_username c) with
          | None => None
          | Some (cf, u) => Some (mkPrep c cf u)
          end
      | _, _ => Some (mkPrep c no_config (pc_username c))
      end
  end.

(** wait_for_session_maybe, 537-578: [forked] is the pid of the waiting process, None
    if pipe or fork fails *)
Definition wait_for_session_maybe (forked : option Z) (p : prepared) (s : agent) : bool * agent * list output :=
  match a_wait s with
  | Some _ => (true, s, [])
  | None =>
      match forked with
      | None => (false, s, [])
      | Some pid => (true, mkAgent (a_conns s) (a_waiting s) (Some pid),
                     [WaitStarted pid (pr_user p) (pc_source (pr_cmd p))])
      end
  end.

Definition set_conns (s : agent) (r : list (option connection) * list output) : agent * list output :=
  (mkAgent (fst r) (a_waiting s) (a_wait s), snd r).

(** handle_server_exec_request_init, 582-640, for the two exec messages *)
Definition exec_init (enabled : bool) (f : files) (forked : option Z) (d : do_env) (q : request) (s : agent)
  : agent * list output :=
  let p := prepare f (q_cmdline q) in
  let doit (s : agent) out :=
    let (s', out') := set_conns s (exec_do enabled d q p (a_conns s)) in (s', out ++ out') in
  match p with
  | Some c =>
      if match pc_descriptor (pr_cmd c) with Some _ => true | None => false end &&
         negb (pc_nogui (pr_cmd c)) && cf_wait_for_session (pr_config c) then
        let '(wait, s', out) := wait_for_session_maybe forked c s in
        if wait then
          match first_free (a_waiting s') with
          | None => doit s' out
          | Some i => (mkAgent (a_conns s') (put i (Some (q, p)) (a_waiting s')) (a_wait s'), out)
          end
        else doit s' out
      else doit s []
  | None => doit s []
  end.

(** handle_service_refused, 700-717 *)
Definition service_refused (len : Z) (body : string) : list output :=
  if negb (len =? 32) then [Dies]
  else match scan_socket (cstr body) with
       | Scanned fd => [Closed fd]
       | ScanEof => [ClosedUnknown]
       | ScanFail => []
       end.

(** what the system does while a message is handled *)
Record msg_env := mkEnv { m_files : files; m_forked : option Z; m_do : do_env; m_ebadf : bool }.

(** handle_server_cmd, 719-743, and the checks in 586-591; [body] is what is received
    after the header *)
Definition handle_server_cmd (enabled : bool) (e : msg_env) (type len : Z) (body : string) (s : agent)
  : agent * list output :=
  if (type =? MSG_EXEC_CMDLINE) || (type =? MSG_JUST_EXEC) || (type =? MSG_SERVICE_CONNECT) then
    if (len <=? 8) || (len >? 2147483647) then (s, [Dies])
    else
      let domain := u32 body in
      let port := u32 (sdrop 4 body) in
      let cmdline := cstr (stake (Z.to_nat (len - 9)) (sdrop 8 body)) in
      if type =? MSG_SERVICE_CONNECT then set_conns s (service_connect cmdline domain port (m_ebadf e) (a_conns s))
      else exec_init enabled (m_files e) (m_forked e) (m_do e) (mkReq type domain port cmdline) s
  else if type =? MSG_SERVICE_REFUSED then (s, service_refused len body)
  else (s, [Dies]).

(** reap_children, 793-823: the requests that waited, in the order of their slots *)
Fixpoint run_waiting (enabled : bool) (envs : nat -> do_env) (i : nat) (ws : list (option (request * option prepared)))
    (conns : list (option connection)) : list (option connection) * list output :=
  match ws with
  | [] => (conns, [])
  | None :: ws' => run_waiting enabled envs (S i) ws' conns
  | Some (q, p) :: ws' =>
      let (conns1, out1) := exec_do enabled (envs i) q p conns in
      let (conns2, out2) := run_waiting enabled envs (S i) ws' conns1 in
      (conns2, out1 ++ out2)
  end.
(** find_connection and release_connection, 759-773: the first entry with this pid *)
Fixpoint release_pid (pid : Z) (conns : list (option connection)) : list (option connection) * list output :=
  match conns with
  | [] => ([], [])
  | Some c :: cs =>
      if c_pid c =? pid then (None :: cs, [Terminated (c_domain c) (c_port c)])
      else let (cs', out) := release_pid pid cs in (Some c :: cs', out)
  | None :: cs => let (cs', out) := release_pid pid cs in (None :: cs', out)
  end.
(** one turn of the loop: waitpid gave [pid] *)
Definition reap (enabled : bool) (envs : nat -> do_env) (pid : Z) (s : agent) : agent * list output :=
  if match a_wait s with Some w => pid =? w | None => false end then
    let (conns, out) := run_waiting enabled envs 0 (a_waiting s) (a_conns s) in
    (mkAgent conns (map (fun _ => None) (a_waiting s)) None, out)
  else set_conns s (release_pid pid (a_conns s)).

(** the poll results, 969-1000, with handle_terminated_fork_client, 872-880; [ready]
    is the set of file descriptors with events *)
Fixpoint poll_conns (ready : Z -> bool) (conns : list (option connection)) : list (option connection) * list output :=
  match conns with
  | [] => ([], [])
  | Some c :: cs =>
      let (cs', out) := poll_conns ready cs in
      if negb (c_fd c =? -1) && ready (c_fd c) then
        (None :: cs', Closed (c_fd c) :: Terminated (c_domain c) (c_port c) :: out)
      else (Some c :: cs', out)
  | None :: cs => let (cs', out) := poll_conns ready cs in (None :: cs', out)
  end.

(** handle_trigger_io, 825-870: a local client sends a header and [data] on the socket
    accepted as [fd]. [data] holds all it sends after the header. *)
Definition decimal_digit (n : nat) : ascii := ascii_of_nat (48 + n).
Fixpoint print_nat (fuel n : nat) : string :=
  match fuel with
  | O => EmptyString
  | S fuel' =>
      if (n <? 10)%nat then str1 (decimal_digit n)
      else print_nat fuel' (n / 10) +++ str1 (decimal_digit (n mod 10))
  end.
(** snprintf(ident, 32, SOCKET%d, fd): overwrites the beginning of the field; the
    numbers of an int have at most 10 digits, so it fits *)
Definition socket_ident (fd : nat) : string := "SOCKET" +++ print_nat (S fd) fd.
Definition write_ident (fd : nat) (params : string) : string :=
  let i := socket_ident fd +++ str1 NUL in
  stake 128 params +++ i +++ sdrop (128 + String.length i) params.
Definition MSG_TRIGGER_SERVICE4 := 531.
Definition handle_trigger_io (fd : nat) (type len : Z) (data : string) : list output :=
  if negb (type =? MSG_TRIGGER_SERVICE4) || (len <=? 160) || (len >? 160 + MAX_SERVICE_NAME_LEN) then
    [Closed (Z.of_nat fd)]
  else if zlen data <? len then [Closed (Z.of_nat fd)]
  else [Forwarded type len (write_ident fd (stake (Z.to_nat len) data))].

(** ** Histories *)
Inductive event :=
| Message (e : msg_env) (type len : Z) (body : string)
| Reaped (pid : Z) (envs : nat -> do_env)
| Polled (ready : Z -> bool)
| Trigger (fd : nat) (type len : Z) (data : string).
Definition step (enabled : bool) (ev : event) (s : agent) : agent * list output :=
  match ev with
  | Message e type len body => handle_server_cmd enabled e type len body s
  | Reaped pid envs => reap enabled envs pid s
  | Polled ready => set_conns s (poll_conns ready (a_conns s))
  | Trigger fd type len data => (s, handle_trigger_io fd type len data)
  end.
(** exit(1) *)
Definition dies (out : list output) : bool :=
  existsb (fun o => match o with Dies => true | _ => false end) out.

(** ** handle_single_command, qrexec-fork-server.c 67-106: [info_len] is
    info.cmdline_len, [data] what can be read from the socket *)
Definition fork_server_command (info_len : Z) (data : string) : option parsed_command :=
  if (info_len <? 1) || (info_len >? 2147483647) then None
  else if zlen data <? info_len then None
  else
    let line := stake (Z.to_nat info_len) data in
    if negb (String.eqb (sdrop (Z.to_nat (info_len - 1)) line) (str1 NUL)) then None
    else if negb (zlen (cstr line) =? info_len - 1) then None
    else parse_qubes_rpc_command (cstr line) false.
