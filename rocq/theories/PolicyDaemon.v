(** qrexec/tools/qrexec_policy_daemon.py, and get_result / main of
    qrexec/tools/qrexec_policy_exec.py *)
From Coq Require Import String Ascii List Bool Arith.
From Verif Require Import Base SysInfo Token Rule Policy PolicyExec Sanitize.
Import ListNotations.
Open Scope string_scope.
Open Scope nat_scope.
Open Scope list_scope.

(** bytes.decode("ascii"), str.encode("ascii", "strict") *)
Definition is_ascii7 (s : string) : bool := sforall (fun c => nat_of_ascii c <? 128) s.

(** REQUIRED_REQUEST_ARGUMENTS .. ALLOWED_REQUEST_ARGUMENTS, 67-81 *)
Definition REQUIRED_REQUEST_ARGUMENTS := ["source"; "intended_target"; "service_and_arg"].
Definition OPTIONAL_REQUEST_ARGUMENTS := ["assume_yes_for_ask"; "just_evaluate"; "requested_source"].
Definition ALLOWED_REQUEST_ARGUMENTS := REQUIRED_REQUEST_ARGUMENTS ++ OPTIONAL_REQUEST_ARGUMENTS.

(** Values in the args dict: text, or a converted boolean *)
Inductive argval := VText (s : string) | VBool (b : bool).
Definition text_of (v : option argval) : string :=
  match v with Some (VText s) => s | _ => "" end.
Definition bool_of (v : option argval) : bool :=
  match v with Some (VBool b) => b | _ => false end.

(** The loop of handle_client_connection, 88-121, over the lines the reader
    yields: reader.readline() returns the text up to a newline, or what is left
    when the peer closes the connection, so the lines are the pieces of the
    input between newlines; an empty piece is both an empty line and the end of
    the input. [None]: the connection is closed without an answer (the return
    statements and the exceptions). The 64 KiB limit of readline is not
    modelled. *)
Fixpoint read_args (lines : list string) (args : list (string * argval))
  : option (list (string * argval)) :=
  match lines with
  | [] => Some args
  | line :: rest =>
      if negb (is_ascii7 line) then None
      else if String.eqb line "" then Some args
      else match split1 "=" line with
      | None => None
      | Some (argument, value) =>
          if dmem args argument then None
          else if negb (smem argument ALLOWED_REQUEST_ARGUMENTS) then None
          else if smem argument ["assume_yes_for_ask"; "just_evaluate"] then
            if String.eqb value "yes" then read_args rest (dset args argument (VBool true))
            else if String.eqb value "no" then read_args rest (dset args argument (VBool false))
            else None
          else read_args rest (dset args argument (VText value))
      end
  end.

(** handle_client_connection, 84-139: the bytes written to the peer ([None] when
    nothing is written) and the messages sent to policy agents. requested_source
    is absent or empty alike (parser.py 815-868, 1022 test its truth value). *)
Definition handle_client_connection (policy : res (list rule)) (sysinfo : option info)
  (agent : option string) (input : string) : option string * list event :=
  match read_args (split_all NL input) [] with
  | None => (None, [])
  | Some args =>
      if negb (forallb (fun a => dmem args a) REQUIRED_REQUEST_ARGUMENTS) then (None, [])
      else
        match handle_request policy sysinfo agent
                (text_of (dget args "source")) (text_of (dget args "intended_target"))
                (text_of (dget args "service_and_arg"))
                (bool_of (dget args "just_evaluate")) (bool_of (dget args "assume_yes_for_ask"))
                (text_of (dget args "requested_source")) with
        | (Ok result, evs) =>
            (if String.eqb result "" then Some ("result=deny" +++ nl)
             else if is_ascii7 result then Some result else None, evs)
        | (Err _, evs) => (None, evs)
        end
  end.

(** read_all_up_to_limit, 142-155. [chunks] is how the data arrives: each read
    returns a non-empty prefix of the next chunk, at most [limit] bytes of it;
    no chunks left is the end of the stream. An empty chunk is also taken for
    the end, as stream.read() does. *)
Fixpoint read_all_up_to_limit (chunks : list string) (limit : nat) : string :=
  match chunks with
  | [] => ""
  | c :: rest =>
      if limit =? 0 then ""
      else if String.eqb c "" then ""
      else stake limit c +++ read_all_up_to_limit rest (limit - String.length c)
  end.

(** _extract_qrexec_parameters, 158-178: service, argument, remote domain and
    what is left in the stream; [None] when an exception is raised *)
Definition extract_parameters (input : string)
  : option (string * option string * string * string) :=
  match split1 " " input with
  | None => None
  | Some (cmd, rest) =>
      let '(service, arg) := match split1 "+" cmd with
                             | Some (s, a) => (s, Some a)
                             | None => (cmd, None)
                             end in
      match split1 NUL rest with
      | None => None
      | Some (meta, payload) =>
          let remote := match split1 " " meta with Some (r, _) => r | None => meta end in
          if is_ascii7 remote then Some (service, arg, remote, payload) else None
      end
  end.

Definition has_tag (i : info) (name tag : string) : bool :=
  match dget i name with Some d => smem tag (d_tags d) | None => false end.

(** qrexec_policy_eval, 181-273. [sysinfo] is [None] when get_system_info
    raises: the exception is not caught here. *)
Definition qrexec_policy_eval (policy : res (list rule)) (sysinfo : option info)
  (agent : option string) (check_gui : bool) (remote : string) (queried : option string)
  (untrusted_data : string) : option string * list event :=
  match queried with
  | None => (None, [])
  | Some service =>
      if String.eqb service "" || starts "+" service then (None, [])
      else match split1 NUL untrusted_data with
      | None => (None, [])
      | Some (source, target) =>
          let lt := String.length target in
          let ls := String.length source in
          if negb ((1 <=? lt) && (lt <=? 63)) then (None, [])
          else if negb ((1 <=? ls) && (ls <=? 31)) then (None, [])
          else if negb (is_ascii7 source && is_ascii7 target) then (None, [])
          else match sanitize_domain_name source true, sanitize_domain_name target true with
          | Ok _, Ok _ =>
              match sysinfo with
              | None => (None, [])
              | Some i =>
                  if check_gui &&
                     negb (has_tag i source ("guivm-" +++ remote) && has_tag i target ("guivm-" +++ remote))
                  then (None, [])
                  else if negb (is_ascii7 service) then (None, [])
                  else match handle_request policy (Some i) agent source target service true true "" with
                       | (Ok result, evs) =>
                           (if is_ascii7 result then Some (result +++ nl) else None, evs)
                       | (Err _, evs) => (None, evs)
                       end
              end
          | _, _ => (None, [])
          end
      end
  end.

(** handle_qrexec_connection, 277-309: the stream holds the header written by
    qrexec ([input]); [chunks] is how the payload after it arrives *)
Definition handle_qrexec_connection (policy : res (list rule)) (sysinfo : option info)
  (agent : option string) (check_gui : bool) (service_name : string)
  (input : string) (chunks : list string) : option string * list event :=
  match extract_parameters input with
  | None => (None, [])
  | Some (invoked, queried, remote, buffered) =>
      if negb (String.eqb invoked service_name) then (None, [])
      else qrexec_policy_eval policy sysinfo agent check_gui remote queried
             (read_all_up_to_limit (if String.eqb buffered "" then chunks else buffered :: chunks) 96)
  end.

(** ** qrexec-policy-exec *)

(** What the program does: write the answer and exit, just exit with a status,
    run qrexec-client with the given arguments (after creating a disposable from
    and starting the given qubes) and exit with its status, or die from an
    exception (exit status 1). *)
Inductive program :=
| Prints (text : string) (status : nat)
| Exits (status : nat)
| RunsClient (create : option string) (argv : list string)
| Dies.

(** result: Dict[str, str] = {} ... , qrexec_policy_exec.py 289-294 *)
Fixpoint answer_dict (lines : list string) (d : list (string * string))
  : option (list (string * string)) :=
  match lines with
  | [] => Some d
  | l :: rest =>
      match split1 "=" l with
      | None => None
      | Some (k, v) => if dmem d k then None else answer_dict rest (dset d k v)
      end
  end.

Definition QREXEC_CLIENT := "/usr/lib/qubes/qrexec-client".

(** get_result and main, qrexec_policy_exec.py 246-342. [paths] are the --path
    options given: any of them makes the default list longer than two, and then
    args.path on the list of arguments raises AttributeError (248-249).
    [args] are the positional arguments; a number other than 3 or 5 makes argparse
    exit with status 2. [newdisp] is the qube created by
    admin.vm.CreateDisposable; the calls to qubesd are assumed to succeed. *)
Definition qrexec_policy_exec (policy : res (list rule)) (sysinfo : option info)
  (agent : option string) (paths : list string) (just_evaluate assume_yes : bool)
  (args : list string) (newdisp : string) : program * list event :=
  match paths with
  | _ :: _ => (Dies, [])
  | [] =>
      let evaluate source target service :=
        handle_request policy sysinfo agent source target service just_evaluate assume_yes "" in
      match args with
      | [source; target; service] =>
          match evaluate source target service with
          | (Err _, evs) => (Dies, evs)
          | (Ok s, evs) =>
              if negb just_evaluate then (Prints (s +++ nl) (main_status s), evs)
              else match answer_dict (split_all NL s) [] with
                   | None => (Dies, evs)
                   | Some d =>
                       match dget d "result" with
                       | None => (Dies, evs)
                       | Some r => if String.eqb r "allow" then (Exits 0, evs) else (Exits 1, evs)
                       end
                   end
          end
      | [domain_id; source; target; service; ident] =>
          match evaluate source target service with
          | (Err _, evs) => (Dies, evs)
          | (Ok s, evs) =>
              match answer_dict (split_all NL s) [] with
              | None => (Dies, evs)
              | Some d =>
                  match dget d "result" with
                  | None => (Dies, evs)
                  | Some r =>
                      if negb (String.eqb r "allow") then (Exits 1, evs)
                      else if just_evaluate then (Exits 0, evs)
                      else
                        match dget d "target" with
                        | None => (Dies, evs)
                        | Some granted =>
                            let dispvm := starts "@dispvm:" granted in
                            let cmd := "QUBESRPC " +++ service +++ " " +++ source in
                            let ids := ident +++ "," +++ source +++ "," +++ domain_id in
                            let argv t c := [QREXEC_CLIENT; if dispvm then "-EWkd" else "-Ed"; t;
                                             "-c"; ids; "--"; c] in
                            if String.eqb granted "dom0" || String.eqb granted "@adminvm" then
                              if String.eqb target "" then (Dies, evs)
                              else
                                let '(ty, t) := if starts "@" target then ("keyword", sdrop 1 target)
                                                else ("name", target) in
                                (RunsClient None (argv granted (cmd +++ " " +++ ty +++ " " +++ t)), evs)
                            else
                              match dget d "target_uuid", dget d "user" with
                              | Some u, Some user =>
                                  let c := (if String.eqb user "" then "DEFAULT" else user) +++ ":" +++ cmd in
                                  if dispvm then (RunsClient (Some u) (argv newdisp c), evs)
                                  else (RunsClient None (argv u c), evs)
                              | _, _ => (Dies, evs)
                              end
                        end
                  end
              end
          end
      | _ => (Exits 2, [])
      end
  end.
