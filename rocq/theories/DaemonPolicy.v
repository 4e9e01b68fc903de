(** The side of qrexec-daemon that asks for a policy decision and acts on it:
    daemon/qrexec-daemon.c and daemon/qrexec-daemon-common.c *)
From Coq Require Import String Ascii List Bool Arith ZArith.
From Verif Require Import Base Sanitize.
Import ListNotations.
Open Scope string_scope.
Open Scope nat_scope.
Open Scope list_scope.

(** ** The request: send_request_to_daemon, qrexec-daemon.c 1002-1036. All
    arguments are C strings; requested_source_domain may be a null pointer. *)
Definition request_text (source : string) (reqsrc : option string) (target service : string) : string :=
  "source=" +++ source
  +++ (match reqsrc with Some r => nl +++ "requested_source=" +++ r | None => "" end)
  +++ nl +++ "intended_target=" +++ target
  +++ nl +++ "service_and_arg=" +++ service
  +++ nl +++ nl.

(** ** The answer: parse_policy_response, 881-997 *)

(** enum policy_response 78-83 (without RESPONSE_PENDING) *)
Inductive policy_response := RESPONSE_ALLOW | RESPONSE_DENY | RESPONSE_MALFORMED.

(** the output parameters, [None] for a null pointer or -1 *)
Record reply := mkReply {
  p_user : option string;
  p_target_uuid : option string;
  p_target : option string;
  p_requested : option string;
  p_service : option string;
  p_autostart : option bool;
  p_source : option string
}.

Definition dropk (key s : string) : string := sdrop (String.length key) s.

(** One line of the answer, 911-974; [None] is goto bad_response. [res] is the
    local variable result: [Some true] after result=allow. *)
Definition parse_line (line : string) (res : option bool) (r : reply)
  : option (option bool * reply) :=
  let '(mkReply u tu t rt sv au ps) := r in
  if starts "result=" line then
    match res with
    | Some _ => None
    | None =>
        let v := dropk "result=" line in
        if String.eqb v "allow" then Some (Some true, r)
        else if String.eqb v "deny" then Some (Some false, r)
        else None
    end
  else if starts "user=" line then
    match u with
    | Some _ => None
    | None => Some (res, mkReply (Some (dropk "user=" line)) tu t rt sv au ps)
    end
  else if starts "target=" line then
    match t with
    | Some _ => None
    | None => Some (res, mkReply u tu (Some (dropk "target=" line)) rt sv au ps)
    end
  else if starts "target_uuid=" line then
    match tu with
    | Some _ => None
    | None => Some (res, mkReply u (Some (sdrop 12 line)) t rt sv au ps)
    end
  else if starts "autostart=" line then
    match au with
    | Some _ => None
    | None =>
        let v := dropk "autostart=" line in
        if String.eqb v "True" then Some (res, mkReply u tu t rt sv (Some true) ps)
        else if String.eqb v "False" then Some (res, mkReply u tu t rt sv (Some false) ps)
        else None
    end
  else if starts "requested_target=" line then
    match rt with
    | Some _ => None
    | None => Some (res, mkReply u tu t (Some (dropk "requested_target=" line)) sv au ps)
    end
  else if starts "service=" line then
    match sv with
    | Some _ => None
    | None => Some (res, mkReply u tu t rt (Some (dropk "service=" line)) au ps)
    end
  else if starts "policy_source=" line then
    match ps with
    | Some _ => None
    | None => Some (res, mkReply u tu t rt sv au (Some (dropk "policy_source=" line)))
    end
  else if has_char "=" line then Some (res, r) else None.

(** The loop over strsep(&resp, newline), 910-975: the outcome, and the output
    parameters as they are left *)
Fixpoint parse_lines (lines : list string) (res : option bool) (r : reply)
  : option (option bool) * reply :=
  match lines with
  | [] => (Some res, r)
  | l :: rest =>
      match parse_line l res r with
      | None => (None, r)
      | Some (res', r') => parse_lines rest res' r'
      end
  end.

(** one trailing newline is stripped, 905-908 *)
Definition strip_nl (s : string) : string :=
  match String.length s with
  | 0 => s
  | S n => if String.eqb (sdrop n s) nl then stake n s else s
  end.

(** parse_policy_response, 881-997. [response] is [None] when reading it failed
    (null pointer, zero length). [ps0] is the value of *policy_source on entry,
    the one output parameter the function does not reset (893). *)
Definition parse_policy_response (response : option string) (ps0 : option string)
  : policy_response * reply :=
  let empty := mkReply None None None None None None ps0 in
  match response with
  | None => (RESPONSE_MALFORMED, empty)
  | Some s =>
      if String.eqb s "" then (RESPONSE_MALFORMED, empty)
      else if has_char NUL s then (RESPONSE_MALFORMED, empty)
      else
        match parse_lines (split_all NL (strip_nl s)) None empty with
        | (None, r) => (RESPONSE_MALFORMED, r)
        | (Some (Some true), r) =>
            match p_user r, p_target r, p_requested r, p_autostart r with
            | Some _, Some _, Some _, Some _ => (RESPONSE_ALLOW, r)
            | _, _, _, _ => (RESPONSE_MALFORMED, r)
            end
        | (Some (Some false), r) =>
            match p_user r, p_target r, p_requested r, p_autostart r with
            | None, None, None, None => (RESPONSE_DENY, r)
            | _, _, _, _ => (RESPONSE_MALFORMED, r)
            end
        | (Some None, r) => (RESPONSE_MALFORMED, r)
        end
  end.

(** qubes_read_all_to_malloc(fd, 64, 4096, ..), libqrexec/ioall.c 97-182: all the
    bytes up to the end of the stream, or failure when there are 4096 or more
    (see IoAll.v for the loop itself) *)
Definition read_answer (s : string) : option string :=
  if String.length s <? 4096 then Some s else None.

(** What happens when qrexec-daemon asks qrexec-policy-daemon: it cannot connect,
    or the peer sends some bytes and closes *)
Inductive daemon_answer := NoDaemon | Answer (s : string).

(** connect_daemon_socket, 1053-1164. [fallback] is the run of qrexec-policy-exec
    --: its exit status and what it prints; [None] in the result is
    daemon__exit(QREXEC_EXIT_PROBLEM). The fallback is not told the requested
    source domain (1127-1133). A policy program that dies from a signal (the loop
    at 1149 waits forever) is not modelled. *)
Definition connect_daemon_socket (daemon : daemon_answer) (fallback : nat * string)
  : option (policy_response * reply) :=
  let try_exec ps0 :=
    let '(status, out) := fallback in
    if status =? 0 then Some (parse_policy_response (read_answer out) ps0) else None in
  match daemon with
  | NoDaemon => try_exec None
  | Answer s =>
      match parse_policy_response (read_answer s) None with
      | (RESPONSE_MALFORMED, r) => try_exec (p_source r)
      | x => Some x
      end
  end.

(** target_refers_to_dom0, qrexec-daemon-common.c 54-66 *)
Definition target_refers_to_dom0 (target : string) : bool :=
  match target with
  | String c rest =>
      if Ascii.eqb c "@" then String.eqb rest "adminvm"
      else if Ascii.eqb c "d" then String.eqb rest "om0"
      else if Ascii.eqb c "u" then String.eqb rest "uid:00000000-0000-0000-0000-000000000000"
      else false
  | EmptyString => false
  end.

(** What the child of qrexec-daemon does with a service call: exit with a status,
    run a command in dom0 on behalf of a qube (run_qrexec_to_dom0), or run a
    command line in a qube (qrexec_execute_vm) *)
Inductive call_outcome :=
| ChildExits (status : nat)
| RunInDom0 (source cmd : string)
| RunInVM (target : string) (autostart : bool) (cmd : string) (use_uuid : bool).

Definition QREXEC_EXIT_REQUEST_REFUSED := 126.
Definition QREXEC_EXIT_PROBLEM := 125.

(** handle_execute_service_child, 1182-1279, after connect_daemon_socket *)
Definition act_on_reply (remote_domain_name requested_service_name : string)
  (x : option (policy_response * reply)) : call_outcome :=
  match x with
  | None => ChildExits QREXEC_EXIT_PROBLEM
  | Some (RESPONSE_ALLOW, r) =>
      let str o := match o with Some s => s | None => "" end in
      let target_service_name := match p_service r with Some s => s | None => requested_service_name end in
      let source_domain := match p_source r with Some s => s | None => remote_domain_name end in
      let trailer := if has_char "+" target_service_name then "" else "+" in
      let target := str (p_target r) in
      let target_domain := str (p_requested r) in
      if target_refers_to_dom0 target then
        let '(type, td) := if starts "@" target_domain then ("keyword", sdrop 1 target_domain)
                           else ("name", target_domain) in
        RunInDom0 source_domain
          ("QUBESRPC " +++ target_service_name +++ trailer +++ " " +++ source_domain +++ " "
           +++ type +++ " " +++ td)
      else
        let cmd := str (p_user r) +++ ":QUBESRPC " +++ target_service_name +++ trailer
                   +++ " " +++ source_domain in
        RunInVM (match p_target_uuid r with Some u => u | None => target end)
                (match p_autostart r with Some b => b | None => true end) cmd
                (match p_target_uuid r with Some _ => true | None => false end)
  | Some (_, _) => ChildExits QREXEC_EXIT_REQUEST_REFUSED
  end.

Definition execute_service_child (remote_domain_name requested_service_name : string)
  (daemon : daemon_answer) (fallback : nat * string) : call_outcome :=
  act_on_reply remote_domain_name requested_service_name (connect_daemon_socket daemon fallback).
