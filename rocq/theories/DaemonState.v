(** The state of qrexec-daemon and its event handlers: daemon/qrexec-daemon.c *)
From Coq Require Import String Ascii List Bool Arith ZArith.
From Verif Require Import Base Sanitize DaemonAgent.
Import ListNotations.
Open Scope string_scope.
Open Scope list_scope.
Open Scope Z_scope.

(** MAX_CLIENTS, 96 (MAX_FDS, qrexec.h 34); VCHAN_BASE_DATA_PORT, 89;
    MAX_QREXEC_CMD_LEN, qrexec.h 49; VCHAN_PORT_UNUSED, 67-69 *)
Definition MAX_CLIENTS : nat := 256.
Definition VCHAN_BASE_DATA_PORT := 513.
Definition MAX_QREXEC_CMD_LEN := 65535.
Definition VCHAN_PORT_UNUSED := -1.
Definition QREXEC_CLIENT_MIN_VERSION := 3.

(** enum client_state, 60-65 *)
Inductive client_state := CLIENT_INVALID | CLIENT_HELLO | CLIENT_CMDLINE | CLIENT_RUNNING.
(** enum policy_response as used in response_sent, 78-83 *)
Inductive response := R_PENDING | R_ALLOW | R_DENY.
(** struct _policy_pending, 85-89; the ident as a C string (validate_request_id
    makes sure the rest is NUL bytes) *)
Record slot := mkSlot { s_pid : Z; s_ident : string; s_resp : response }.

(** The static variables 97-115. policy_pending_max is represented by
    [d_limit] = policy_pending_max + 1; notify entries by [None] for -1. The
    arrays indexed by port or slot are lists of MAX_CLIENTS entries, the one
    indexed by client fd a function. *)
Record daemon := mkDaemon {
  d_remote : Z;                      (* remote_domain_id *)
  d_version : Z;                     (* protocol_version *)
  d_clients : nat -> client_state;
  d_used : list Z;                   (* used_vchan_ports *)
  d_notify : list (option nat);      (* vchan_port_notify_client *)
  d_pending : list slot;             (* policy_pending *)
  d_limit : nat                      (* policy_pending_max + 1 *)
}.
Definition set_clients (s : daemon) c := mkDaemon (d_remote s) (d_version s) c (d_used s) (d_notify s) (d_pending s) (d_limit s).
Definition set_used (s : daemon) u := mkDaemon (d_remote s) (d_version s) (d_clients s) u (d_notify s) (d_pending s) (d_limit s).
Definition set_notify (s : daemon) n := mkDaemon (d_remote s) (d_version s) (d_clients s) (d_used s) n (d_pending s) (d_limit s).
Definition set_pending (s : daemon) p l := mkDaemon (d_remote s) (d_version s) (d_clients s) (d_used s) (d_notify s) p l.

(** array assignment *)
Fixpoint set_nth {A} (n : nat) (x : A) (l : list A) : list A :=
  match l with
  | [] => []
  | a :: l' => match n with O => x :: l' | S n' => a :: set_nth n' x l' end
  end.
Definition upd (f : nat -> client_state) (fd : nat) (c : client_state) : nat -> client_state :=
  fun n => if Nat.eqb n fd then c else f n.

(** init, 416-422 *)
Definition init (remote version : Z) : daemon :=
  mkDaemon remote version (fun _ => CLIENT_INVALID) (repeat VCHAN_PORT_UNUSED MAX_CLIENTS)
    (repeat None MAX_CLIENTS) (repeat (mkSlot 0 "" R_PENDING) MAX_CLIENTS) 0.

(** Messages to a client (the port given to it for a connection to [domain]) and
    to the agent: a message with struct exec_params, or MSG_SERVICE_REFUSED *)
Inductive output :=
| PortToClient (fd : nat) (domain port : Z)
| ToAgent (type len domain port : Z) (text : string)
| Refused (ident : string).

(** uint32_t to int *)
Definition to_int (x : Z) : Z := if x <? 2147483648 then x else x - 4294967296.

(** allocate_vchan_port, 479-516: the loop; [None] is the result 0 *)
Fixpoint scan_ports (fuel : nat) (i step : nat) (used : list Z) : option nat :=
  match fuel with
  | O => None
  | S fuel =>
      if (i <? MAX_CLIENTS)%nat then
        if nth i used 0 =? VCHAN_PORT_UNUSED then Some i
        else scan_ports fuel (i + step) step used
      else None
  end.
Definition allocate_vchan_port (s : daemon) (connect_domain : Z) : option (Z * daemon) :=
  let '(i, step) := if connect_domain =? 0 then (0, 1)%nat
                    else ((if connect_domain >? d_remote s then 1 else 0)%nat, 2%nat) in
  match scan_ports (S MAX_CLIENTS) i step (d_used s) with
  | None => None
  | Some n => Some (VCHAN_BASE_DATA_PORT + Z.of_nat n, set_used s (set_nth n connect_domain (d_used s)))
  end.

(** terminate_client, 537-547 *)
Definition terminate_client (s : daemon) (fd : nat) : daemon :=
  let same o := match o with Some f => Nat.eqb f fd | None => false end in
  set_notify (set_clients s (upd (d_clients s) fd CLIENT_INVALID))
    (map (fun o => if same o then None else o) (d_notify s)).

(** release_vchan_port, 549-558 *)
Definition release_vchan_port (s : daemon) (port expected_remote_id : Z) : daemon :=
  let n := Z.to_nat (port - VCHAN_BASE_DATA_PORT) in
  if nth n (d_used s) 0 =? expected_remote_id then
    let s1 := set_used s (set_nth n VCHAN_PORT_UNUSED (d_used s)) in
    match nth n (d_notify s) None with
    | Some fd => terminate_client s1 fd
    | None => s1
    end
  else s.

(** The search in handle_cmdline_body_from_client, 605-612. strncmp stops at the
    NUL byte that ends the text of the client, so it compares C strings. *)
Fixpoint find_request (l : list slot) (limit : nat) (text : string) : option nat :=
  match l, limit with
  | x :: l', S limit' =>
      if negb (s_pid x =? 0) && (match s_resp x with R_PENDING => true | _ => false end)
         && String.eqb (s_ident x) text
      then Some 0%nat
      else option_map S (find_request l' limit' text)
  | _, _ => None
  end.
Definition set_response (r : response) (x : slot) : slot := mkSlot (s_pid x) (s_ident x) r.
Definition no_slot := mkSlot 0 "" R_PENDING.

(** the keyword for the default user, 109-110: DEFAULT and the colon *)
Definition default_user_keyword := "DEFAULT:".

(** handle_cmdline_body_from_client, 560-690. [len] is hdr->len and [body] the
    bytes read after the header ([None] when the read fails); [write_ok] tells
    whether the port can be written to the client. Returns the new state, what is
    sent, and the return value (true: the client stays, in CLIENT_RUNNING).
    malloc does not fail; the vchan does not fail. *)
Definition handle_cmdline_body (default_user : string) (s : daemon) (fd : nat) (type len : Z)
  (body : option string) (write_ok : bool) : daemon * list output * bool :=
  let fail s' outs := (terminate_client s' fd, outs, false) in
  if len <=? sizeof_exec_params then fail s []
  else if len >? MAX_QREXEC_CMD_LEN then fail s []
  else match body with
  | None => fail s []
  | Some b =>
      let domain := u32 b in
      let port0 := u32 (sdrop 4 b) in
      let buf := sdrop 8 b in
      if negb (String.eqb (sdrop (String.length buf - 1) buf) (str1 NUL)) then fail s []
      else
        let granted :=
          if type =? MSG_SERVICE_CONNECT then
            match find_request (d_pending s) (d_limit s) (cstr buf) with
            | None => None
            | Some i => Some (set_pending s (set_nth i (set_response R_ALLOW (nth i (d_pending s) no_slot))
                                               (d_pending s)) (d_limit s))
            end
          else if (type =? MSG_JUST_EXEC) || (type =? MSG_EXEC_CMDLINE) then Some s
          else None in
        match granted with
        | None => fail s []
        | Some s1 =>
            let forward s2 port outs :=
              if negb (type =? MSG_SERVICE_CONNECT) && starts default_user_keyword buf then
                let text := default_user +++ sdrop 7 buf in
                (s2, outs ++ [ToAgent type (len - 7 + Z.of_nat (String.length default_user)) domain port text], true)
              else (s2, outs ++ [ToAgent type len domain port buf], true) in
            if port0 =? 0 then
              match allocate_vchan_port s1 (to_int domain) with
              | None => fail s1 []
              | Some (port, s2) =>
                  let s3 := set_notify s2 (set_nth (Z.to_nat (port - VCHAN_BASE_DATA_PORT)) (Some fd) (d_notify s2)) in
                  if write_ok then forward s3 port [PortToClient fd (to_int domain) port]
                  else (release_vchan_port (terminate_client s3 fd) port (to_int domain), [], false)
              end
            else if (port0 >=? VCHAN_BASE_DATA_PORT) && (port0 <? VCHAN_BASE_DATA_PORT + Z.of_nat MAX_CLIENTS)
            then forward s1 port0 []
            else fail s1 []
        end
  end.

(** What a client sends when its descriptor is readable: end of file (or a read
    error), or a message: type and announced length, and the bytes that follow *)
Inductive client_data := ClientEOF | ClientMessage (type len : Z) (bytes : string).

(** read_all of the announced number of bytes *)
Definition received (len : Z) (bytes : string) : option string :=
  if Z.of_nat (String.length bytes) >=? len then Some (stake (Z.to_nat len) bytes) else None.

(** handle_cmdline_message_from_client 692-715, handle_client_hello 717-745,
    handle_message_from_client 748-777 *)
Definition handle_message_from_client (default_user : string) (s : daemon) (fd : nat)
  (m : client_data) (write_ok : bool) : daemon * list output :=
  match d_clients s fd with
  | CLIENT_INVALID => (s, [])
  | CLIENT_RUNNING => (terminate_client s fd, [])
  | CLIENT_HELLO =>
      match m with
      | ClientEOF => (terminate_client s fd, [])
      | ClientMessage type len bytes =>
          if negb ((type =? MSG_HELLO) && (len =? sizeof_peer_info)) then (terminate_client s fd, [])
          else match received len bytes with
          | None => (terminate_client s fd, [])
          | Some b =>
              if u32 b <? QREXEC_CLIENT_MIN_VERSION then (terminate_client s fd, [])
              else (set_clients s (upd (d_clients s) fd CLIENT_CMDLINE), [])
          end
      end
  | CLIENT_CMDLINE =>
      match m with
      | ClientEOF => (terminate_client s fd, [])
      | ClientMessage type len bytes =>
          if (type =? MSG_EXEC_CMDLINE) || (type =? MSG_JUST_EXEC) || (type =? MSG_SERVICE_CONNECT) then
            let '(s', outs, stays) := handle_cmdline_body default_user s fd type len (received len bytes) write_ok in
            (if stays then set_clients s' (upd (d_clients s') fd CLIENT_RUNNING) else s', outs)
          else (terminate_client s fd, [])
      end
  end.

(** handle_new_client, 518-535; an fd of MAX_CLIENTS or more makes the daemon
    exit ([None]) *)
Definition handle_new_client (s : daemon) (fd : nat) (hello_sent : bool) : option daemon :=
  if (fd <? MAX_CLIENTS)%nat
  then Some (set_clients s (upd (d_clients s) fd (if hello_sent then CLIENT_HELLO else CLIENT_INVALID)))
  else None.

(** reap_children, 813-848, for one child: WIFEXITED with a code, or a signal.
    The loop over the slots goes on after a child that did not exit (continue),
    which changes nothing. *)
Inductive exit_kind := Exited (code : Z) | Signaled.
Fixpoint find_pid (l : list slot) (limit : nat) (pid : Z) : option nat :=
  match l, limit with
  | x :: l', S limit' => if s_pid x =? pid then Some 0%nat else option_map S (find_pid l' limit' pid)
  | _, _ => None
  end.
(** while (policy_pending_max > 0 && policy_pending[policy_pending_max].pid == 0) policy_pending_max-- *)
Fixpoint shrink (fuel limit : nat) (l : list slot) : nat :=
  match fuel with
  | O => limit
  | S fuel =>
      if (1 <? limit)%nat && (s_pid (nth (limit - 1) l no_slot) =? 0) then shrink fuel (limit - 1) l else limit
  end.
Definition reap_child (s : daemon) (pid : Z) (k : exit_kind) : daemon * list output :=
  match k with
  | Signaled => (s, [])
  | Exited code =>
      match find_pid (d_pending s) (d_limit s) pid with
      | None => (s, [])
      | Some i =>
          let x := nth i (d_pending s) no_slot in
          let '(r, outs) :=
            if code =? 0 then (R_ALLOW, [])
            else match s_resp x with
                 | R_PENDING => (R_DENY, [Refused (s_ident x)])
                 | r => (r, [])
                 end in
          let l := set_nth i (mkSlot 0 (s_ident x) r) (d_pending s) in
          (set_pending s l (shrink MAX_CLIENTS (d_limit s) l), outs)
      end
  end.

(** find_policy_pending_slot, 850-859 *)
Fixpoint free_slot (l : list slot) : option nat :=
  match l with
  | [] => None
  | x :: l' => if s_pid x =? 0 then Some 0%nat else option_map S (free_slot l')
  end.

(** handle_execute_service, 1281-1319: [pid] is the result of fork in the parent
    (positive) *)
Definition handle_execute_service (s : daemon) (ident : string) (pid : Z) : daemon * list output :=
  match free_slot (d_pending s) with
  | None => (s, [Refused ident])
  | Some i => (set_pending s (set_nth i (mkSlot pid ident R_PENDING) (d_pending s))
                 (Nat.max (d_limit s) (S i)), [])
  end.

(** the loop in handle_agent_restart, 1622-1625 *)
Definition close_all (l : list nat) (s : daemon) : daemon :=
  fold_left (fun s fd => match d_clients s fd with CLIENT_INVALID => s | _ => terminate_client s fd end) l s.

(** handle_agent_restart, 1601-1676, when the agent comes back and speaks
    version [v] *)
Definition handle_agent_restart (s : daemon) (v : Z) : daemon :=
  let s1 := close_all (seq 0 MAX_CLIENTS) s in
  let l := map (fun x => mkSlot 0 (s_ident x) (s_resp x)) (d_pending s1) in
  mkDaemon (d_remote s1) v (d_clients s1) (d_used s1) (d_notify s1) l 0.

(** The main loop, 1749-1812, one event at a time, in any order *)
Inductive devent :=
| NewClient (fd : nat) (hello_sent : bool)
| FromClient (fd : nat) (m : client_data) (write_ok : bool)
| FromAgent (type len : Z) (body : string) (pid : Z)
| ChildEnded (pid : Z) (k : exit_kind)
| AgentRestarted (version : Z).

Definition dstep (default_user : string) (s : daemon) (ev : devent) : option (daemon * list output) :=
  match ev with
  | NewClient fd ok => option_map (fun s' => (s', [])) (handle_new_client s fd ok)
  | FromClient fd m ok => Some (handle_message_from_client default_user s fd m ok)
  | FromAgent type len body pid =>
      match handle_message_from_agent (d_version s) type len body with
      | DaemonExits => None
      | RefuseCall raw => Some (s, [Refused (cstr raw)])
      | ServiceCall _ _ _ ident => Some (handle_execute_service s ident pid)
      | PortReleased domain port => Some (release_vchan_port s port (to_int domain), [])
      end
  | ChildEnded pid k => Some (if pid >? 0 then reap_child s pid k else (s, []))   (* the loop of reap_children, 820 *)
  | AgentRestarted v => Some (handle_agent_restart s v, [])
  end.
