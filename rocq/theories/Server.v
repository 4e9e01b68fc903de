(** qrexec/server.py: how the policy daemon and the policy agent talk to each other, and what the
    agent (qrexec/tools/qrexec_policy_agent.py 577-626) does with a request. Opening, connecting
    and closing of sockets always succeed. Any exception in the agent closes the connection
    without an answer (75-77). *)
From Coq Require Import String Ascii List Bool Arith NArith.
From Verif Require Import Base Json Dialog.
Import ListNotations.
Open Scope string_scope.
Open Scope list_scope.

(** a string of bytes as a Python string (Latin-1), and back: [None] when a code point is too
    big for a byte. Names in this model are strings of bytes; the dialog of a request with
    other names is not modelled (see [ask_params]). *)
Fixpoint to_u (s : string) : ustr :=
  match s with EmptyString => [] | String c s' => N_of_ascii c :: to_u s' end.
Fixpoint of_u (u : ustr) : option string :=
  match u with
  | [] => Some ""
  | c :: u' => if (c <? 256)%N
               then match of_u u' with Some s => Some (String (ascii_of_N c) s) | None => None end
               else None
  end.
(** whether bytes.decode("ascii") and str.encode("ascii") succeed *)
Definition is_ascii (s : string) : bool := sforall (fun c => N_of_ascii c <? 128)%N s.

(** ** The client *)
(** params, qrexec_policy_exec.py 95-102; [icons] has the icon of each name *)
Definition ask_message (p : params) (icons : list (string * string)) : json :=
  JDict [(to_u "source", JStr (to_u (p_source p))); (to_u "service", JStr (to_u (p_service p)));
         (to_u "argument", JStr (to_u (p_argument p)));
         (to_u "targets", JList (map (fun t => JStr (to_u t)) (p_targets p)));
         (to_u "default_target", JStr (to_u (p_default p)));
         (to_u "icons", JDict (map (fun e => (to_u (fst e), JStr (to_u (snd e)))) icons))].
(** qrexec_policy_exec.py 139-148 and 406-415 *)
Definition notify_message (resolution service argument source target : string) : json :=
  JDict [(to_u "resolution", JStr (to_u resolution)); (to_u "service", JStr (to_u service));
         (to_u "argument", JStr (to_u argument)); (to_u "source", JStr (to_u source)); (to_u "target", JStr (to_u target))].
(** call_socket_service_local, 99-114: what is written before the end of the file *)
Definition local_request (service source : string) (v : json) : string :=
  (if String.eqb source "dom0" then service +++ " dom0 name dom0" else service +++ " " +++ source) +++ str1 NUL +++ dumps v.
(** call_socket_service_remote, 117-120: what is written to the standard input of the client
    (call_async, client.py 58-80); the rest of the request is from qrexec *)
Definition remote_input (v : json) : string := dumps v.
(** what the client makes of the answer: decode() of the bytes read, 113-114; for a remote call
    the status of the client program, and client.py 78-80. [None]: an exception. Only answers
    in ASCII are modelled for the latter. *)
Definition local_answer (read : string) : option string := if is_ascii read then Some read else None.
Definition remote_answer (status : nat) (output : string) : option string :=
  if Nat.eqb status 0 then if is_ascii output then Some output else None else None.

(** ** The server *)
(** _client_connected, 54-69: the service, the source domain and the parameters *)
Definition parse_request (data : string) : option (string * string * json) :=
  if negb (is_ascii data) then None
  else match split1 NUL data with
       | None => None
       | Some (header, text) =>
           match split_all " " header with
           | service :: source :: _ =>
               match loads text with Some v => Some (service, source, v) | None => None end
           | _ => None
           end
       end.

(** params[key], for a dict: the last value that was given. [None]: KeyError, or TypeError if
    it is no dict *)
Fixpoint ustr_eqb (a b : ustr) : bool :=
  match a, b with
  | [], [] => true
  | x :: a', y :: b' => (x =? y)%N && ustr_eqb a' b'
  | _, _ => false
  end.
Fixpoint last_value (l : list (ustr * json)) (k : ustr) : option json :=
  match l with
  | [] => None
  | (k', v) :: l' => match last_value l' k with
                     | Some v' => Some v'
                     | None => if ustr_eqb k' k then Some v else None
                     end
  end.
Definition field (v : json) (key : string) : option json :=
  match v with JDict l => last_value l (to_u key) | _ => None end.
Definition text_field (v : json) (key : string) : option string :=
  match field v key with Some (JStr u) => of_u u | _ => None end.
(** the keys of a dict, in the order in which they came first *)
Fixpoint keys (seen : list ustr) (l : list (ustr * json)) : list ustr :=
  match l with
  | [] => []
  | (k, _) :: l' => if existsb (ustr_eqb k) seen then keys seen l' else k :: keys (k :: seen) l'
  end.
Fixpoint all_some {A} (l : list (option A)) : option (list A) :=
  match l with
  | [] => Some []
  | Some x :: l' => match all_some l' with Some r => Some (x :: r) | None => None end
  | None :: _ => None
  end.

(** handle_ask, 592-609: what confirm_rpc is called with. Simplified: an exception is also
    assumed if targets is no list of strings, or default_target neither a string nor null. *)
Definition ask_params (v : json) : option params :=
  match text_field v "source", text_field v "service", text_field v "argument", field v "targets", field v "default_target", field v "icons" with
  | Some source, Some service, Some argument, Some (JList l), Some d, Some (JDict icons) =>
      match all_some (map (fun t => match t with JStr u => of_u u | _ => None end) l),
            match d with JStr u => of_u u | JNull => Some "" | _ => None end,
            all_some (map of_u (keys [] icons)) with
      | Some targets, Some default, Some names => Some (mkParams source service argument targets default names)
      | _, _, _ => None
      end
  | _, _, _, _, _, _ => None
  end.

(** what the agent does because of a request: it opens the dialog, or shows a notification with
    this body (handle_notify, 616-626), or nothing *)
Inductive action :=
| AskUser (p : params)
| Show (body : string)
| Nothing.
Definition handle_request (service : string) (v : json) : action :=
  if String.eqb service "policy.Ask" then
    match ask_params v with Some p => AskUser p | None => Nothing end
  else if String.eqb service "policy.Notify" then
    match text_field v "resolution", text_field v "service", text_field v "argument", text_field v "source", text_field v "target" with
    | Some r, Some s, Some a, Some src, Some dst =>
        match notify_body r s a src dst with Some b => Show b | None => Nothing end
    | _, _, _, _, _ => Nothing
    end
  else Nothing.                                                   (* ValueError, 589 *)
Definition agent_action (data : string) : action :=
  match parse_request data with
  | Some (service, _, v) => handle_request service v
  | None => Nothing
  end.

(** what is written to the connection, 71-74, before it is closed; [result] is how the dialog
    ended, [None] if it could not be opened *)
Definition written (a : action) (result : option string) : string :=
  match a, result with
  | AskUser _, Some r => if is_ascii r then r else ""
  | _, _ => ""
  end.
