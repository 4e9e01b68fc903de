(** qrexec/utils.py 86-120 (qubesd_call) and 151-176 (get_system_info, before the loop that is
    SysInfo.get_system_info): the question to qubesd and what is made of the answer. Connecting to
    the socket and writing to it succeed. *)
From Coq Require Import String Ascii List Bool.
From Verif Require Import Base Json Server SysInfo Rule.
From Verif Require PolicyExec PolicyDaemon.
Import ListNotations.
Open Scope string_scope.
Open Scope list_scope.

(** qrexec/__init__.py: QUBESD_INTERNAL_SOCK and QUBESD_SOCK; 92-95 *)
Definition QUBESD_INTERNAL_SOCK := "/var/run/qubesd.internal.sock".
Definition QUBESD_SOCK := "/var/run/qubesd.sock".
Definition call_socket (method : string) : string :=
  if starts "internal." method then QUBESD_INTERNAL_SOCK else QUBESD_SOCK.
(** 103-109: what is written; [None] if it cannot be encoded in ASCII. *)
Definition call_text (dest method : string) (arg : option string) (payload : option string) : option string :=
  let header := method +++ "+" +++ match arg with Some a => a | None => "" end +++ " dom0 name " +++ dest +++ str1 NUL in
  if is_ascii header then Some (header +++ match payload with Some p => p | None => "" end) else None.

(** 111-120: what becomes of the answer, which is read up to the end of the file *)
Inductive called :=
| Data (d : string)
| MgmtError (exc_type : string)     (* QubesMgmtException *)
| Fails.                            (* AssertionError, or another exception *)
(** bytes.split(sep, n) *)
Fixpoint splitn (n : nat) (sep : ascii) (s : string) : list string :=
  match n with
  | O => [s]
  | S n' => match split1 sep s with
            | Some (a, b) => a :: splitn n' sep b
            | None => [s]
            end
  end.
Definition call_result (return_data : string) : called :=
  if starts ("0" +++ str1 NUL) return_data then Data (sdrop 2 return_data)
  else if starts ("2" +++ str1 NUL) return_data then
    match splitn 4 NUL return_data with
    | [_; exc_type; _; _; _] => if is_ascii exc_type then MgmtError exc_type else Fails
    | _ => Fails
    end
  else Fails.

(** the description of a domain. Simplified: Python looks at a member when it is used; here an
    exception is assumed at once if a member is missing or of another kind (of those that
    parser.py reads with get(), only if it is there and of another kind). Texts with characters
    above U+00FF are not modelled (the same). A uuid that is null makes the loop at 173 fail. *)
Definition opt_text (v : json) (key : string) : option (option string) :=
  match field v key with
  | None => Some None
  | Some JNull => Some None
  | Some (JStr u) => option_map Some (of_u u)
  | Some _ => None
  end.
Definition decode_uuid (v : json) : option (option string) :=
  match field v "uuid" with
  | None => Some None
  | Some (JStr u) => option_map Some (of_u u)
  | Some _ => None
  end.
Definition decode_flag (x : option json) : option bool :=
  match x with Some JTrue => Some true | Some JFalse => Some false | _ => None end.
Definition decode_tags (v : json) : option (list string) :=
  match field v "tags" with
  | Some (JList l) => all_some (map (fun t => match t with JStr u => of_u u | _ => None end) l)
  | _ => None
  end.
Definition decode_entry (v : json) : option dom :=
  match v with
  | JDict _ =>
      match decode_uuid v, text_field v "type", decode_tags v, decode_flag (field v "template_for_dispvms"),
            opt_text v "default_dispvm", text_field v "power_state",
            decode_flag (match field v "internal" with None => Some JFalse | x => x end),
            opt_text v "guivm", opt_text v "relayvm", opt_text v "transport_rpc" with
      | Some uuid, Some type, Some tags, Some tmpl, Some ddisp, Some power, Some internal, Some guivm, Some relay, Some transport =>
          Some (mkDom uuid type tags tmpl ddisp power internal guivm relay transport "")
      | _, _, _, _, _, _, _, _, _, _ => None
      end
  | _ => None
  end.
(** system_info_decoded["domains"].items(): the keys in the order in which they came first, with
    the last value of each *)
Definition decode_domain (l : list (ustr * json)) (k : ustr) : option (string * dom) :=
  match of_u k, last_value l k with
  | Some n, Some v => match decode_entry v with Some d => Some (n, d) | None => None end
  | _, _ => None
  end.
Definition decode_info (v : json) : option info :=
  match field v "domains" with
  | Some (JDict l) => all_some (map (decode_domain l) (keys [] l))
  | _ => None
  end.

(** get_system_info. Answers that are not in ASCII are not modelled (qubesd uses json.dumps). *)
Inductive fetched :=
| Fetched (i : info)
| Unavailable (exc_type : string)
| Exception.
Definition get_system_info (return_data : string) : fetched :=
  match call_result return_data with
  | Data text =>
      if is_ascii text then
        match loads text with
        | Some v => match decode_info v with Some raw => Fetched (SysInfo.get_system_info raw) | None => Exception end
        | None => Exception
        end
      else Exception
  | MgmtError e => Unavailable e
  | Fails => Exception
  end.

(** qrexec_policy_exec.py 361-366: handle_request, with the answer of qubesd; an exception goes to
    the caller *)
Definition handle_request (policy : res (list rule)) (return_data : string) (agent : option string)
  (source intended_target service_and_arg : string) (just_evaluate assume_yes : bool) (reqsrc : string) : PolicyExec.io string :=
  match get_system_info return_data with
  | Fetched i => PolicyExec.handle_request policy (Some i) agent source intended_target service_and_arg just_evaluate assume_yes reqsrc
  | Unavailable _ => PolicyExec.handle_request policy None agent source intended_target service_and_arg just_evaluate assume_yes reqsrc
  | Exception => PolicyExec.ioret (Err EOs)
  end.
(** the same for the socket of the daemon, qrexec_policy_daemon.py 84-139 *)
Definition handle_client_connection (policy : res (list rule)) (return_data : string)
  (agent : option string) (input : string) : option string * list PolicyExec.event :=
  match get_system_info return_data with
  | Fetched i => PolicyDaemon.handle_client_connection policy (Some i) agent input
  | Unavailable _ => PolicyDaemon.handle_client_connection policy None agent input
  | Exception => (None, [])
  end.
