(** Messages from the agent: daemon/qrexec-daemon.c, libqrexec/qrexec.h *)
From Coq Require Import String Ascii List Bool Arith ZArith.
From Verif Require Import Base Sanitize.
Import ListNotations.
Open Scope string_scope.
Open Scope list_scope.
Open Scope Z_scope.

(** libqrexec/qrexec.h 55-80: protocol versions; 83-127: message types *)
Definition QREXEC_PROTOCOL_VERSION := 4.
Definition QREXEC_PROTOCOL_V2 := 2.
Definition QREXEC_PROTOCOL_V3 := 3.
Definition QREXEC_PROTOCOL_V4 := 4.
Definition QREXEC_AGENT_MIN_VERSION := QREXEC_PROTOCOL_V2.
Definition MSG_EXEC_CMDLINE := 512.
Definition MSG_JUST_EXEC := 513.
Definition MSG_SERVICE_CONNECT := 514.
Definition MSG_SERVICE_REFUSED := 515.
Definition MSG_TRIGGER_SERVICE := 528.
Definition MSG_CONNECTION_TERMINATED := 529.
Definition MSG_TRIGGER_SERVICE3 := 530.
Definition MSG_TRIGGER_SERVICE4 := 531.
Definition MSG_HELLO := 768.
Definition MAX_SERVICE_NAME_LEN := 65000.

(** sizes of the structures of qrexec.h 135-169 *)
Definition sizeof_ident := 32.
Definition sizeof_exec_params := 8.
Definition sizeof_trigger_service_params := 128.   (* 64 + 32 + 32 *)
Definition sizeof_trigger_service_params3 := 96.   (* 64 + 32 *)
Definition sizeof_trigger_service_params4 := 160.  (* 64 + 64 + 32 *)
Definition sizeof_peer_info := 4.

(** handle_agent_hello, qrexec-daemon.c 235-283: the negotiated version, [None]
    for -1; the header and the body are what was received (uint32_t values) *)
Definition handle_agent_hello (hdr_type hdr_len version : Z) : option Z :=
  if negb ((hdr_type =? MSG_HELLO) && (hdr_len =? sizeof_peer_info)) then None
  else
    let actual := if version <? QREXEC_PROTOCOL_VERSION then version else QREXEC_PROTOCOL_VERSION in
    if actual <? QREXEC_AGENT_MIN_VERSION then None else Some actual.

(** sanitize_message_from_agent, 1342-1399: [false] is exit(1) *)
Definition sanitize_message_from_agent (protocol_version type len : Z) : bool :=
  if type =? MSG_TRIGGER_SERVICE then
    if protocol_version >=? QREXEC_PROTOCOL_V3 then false
    else len =? sizeof_trigger_service_params
  else if type =? MSG_TRIGGER_SERVICE3 then
    if protocol_version <? QREXEC_PROTOCOL_V3 then false
    else if len <=? sizeof_trigger_service_params3 then false
    else negb (len - sizeof_trigger_service_params3 >? MAX_SERVICE_NAME_LEN)
  else if type =? MSG_TRIGGER_SERVICE4 then
    if protocol_version <? QREXEC_PROTOCOL_V4 then false
    else if len <=? sizeof_trigger_service_params4 then false
    else negb (len - sizeof_trigger_service_params4 >? MAX_SERVICE_NAME_LEN)
  else if type =? MSG_CONNECTION_TERMINATED then len =? sizeof_exec_params
  else false.

(** validate_request_id, 1401-1433: [ident] is the content of the 32 byte array *)
Definition ident_char (c : ascii) : bool :=
  between "0" "9" c || between "A" "Z" c || between "a" "z" c
  || Ascii.eqb c "_" || Ascii.eqb c "-" || Ascii.eqb c "." || Ascii.eqb c " ".
Fixpoint all_nul (s : string) : bool :=
  match s with
  | EmptyString => true
  | String c s' => if Ascii.eqb c NUL then all_nul s' else false
  end.
Fixpoint validate_request_id (ident : string) : bool :=
  match ident with
  | EmptyString => false
  | String c s' =>
      if ident_char c then validate_request_id s'
      else if Ascii.eqb c NUL then all_nul s'
      else false
  end.

(** ENSURE_NULL_TERMINATED, 1435, on an array *)
Definition ensure_nul (s : string) : string :=
  stake (String.length s - 1) s +++ str1 NUL.

(** validate_service_name, 1437-1450: [None] is false, otherwise the sanitised
    name (the buffer is modified in place). Argument and result are C strings. *)
Definition validate_service_name (name : string) : option string :=
  match cstr name with
  | EmptyString => None
  | String c _ => if Ascii.eqb c "+" then None else Some (cstr (c_sanitize_name name "+"))
  end.

(** What the daemon does with a message: exit(1) or a vchan error, refuse the
    call (echoing the request identifier), hand the call to
    handle_execute_service, or release a port *)
Inductive agent_action :=
| DaemonExits
| RefuseCall (ident : string)
| ServiceCall (reqsrc : option string) (target service ident : string)
| PortReleased (domain port : Z).

(** a 4 byte little-endian field of a structure (uint32_t) *)
Definition u32 (s : string) : Z :=
  fold_right (fun c acc => Z.of_nat (nat_of_ascii c) + 256 * acc) 0 (list_ascii_of_string (stake 4 s)).

(** handle_connection_terminated, 1321-1340; VCHAN_BASE_DATA_PORT is 513 and
    MAX_CLIENTS 256 *)
Definition handle_connection_terminated (body : string) : agent_action :=
  let domain := u32 body in
  let port := u32 (sdrop 4 body) in
  if (port <? 513) || (port >=? 513 + 256) then DaemonExits
  else PortReleased domain port.

(** The part of handle_message_from_agent common to MSG_TRIGGER_SERVICE3 and 4,
    1499-1537 and 1545-1587: [src], [tgt], [ident] and [name] are the fields of
    the structure, [name] being the flexible array of len - sizeof bytes *)
Definition trigger (src : option string) (tgt ident name : string) : agent_action :=
  let n := (String.length name - 1)%nat in
  let clean s := cstr (c_sanitize_name (ensure_nul s) "@:") in
  if negb (validate_request_id ident) then RefuseCall ident
  else if negb (String.eqb (sdrop n name) (str1 NUL)) then RefuseCall ident
  else if negb (Nat.eqb (String.length (cstr name)) n) then RefuseCall ident
  else match validate_service_name name with
       | None => RefuseCall ident
       | Some service => ServiceCall (option_map clean src) (clean tgt) service (cstr ident)
       end.

(** handle_message_from_agent, 1455-1596. [body] is the data received after the
    header; receiving fewer bytes than announced is a vchan error. The order of
    the length and identifier checks does not matter for the outcome. *)
Definition handle_message_from_agent (protocol_version type len : Z) (body : string) : agent_action :=
  if negb (sanitize_message_from_agent protocol_version type len) then DaemonExits
  else if negb (Z.of_nat (String.length body) =? len) then DaemonExits
  else if type =? MSG_TRIGGER_SERVICE then
    let name := ensure_nul (stake 64 body) in
    let tgt := ensure_nul (stake 32 (sdrop 64 body)) in
    let ident := stake 32 (sdrop 96 body) in
    let name' := c_sanitize_name name "+" in
    if negb (validate_request_id ident) then RefuseCall ident
    else match validate_service_name name' with
         | None => RefuseCall ident
         | Some service => ServiceCall None (cstr (c_sanitize_name tgt "@:")) service (cstr ident)
         end
  else if type =? MSG_TRIGGER_SERVICE3 then
    trigger None (stake 64 body) (stake 32 (sdrop 64 body)) (sdrop 96 body)
  else if type =? MSG_TRIGGER_SERVICE4 then
    trigger (Some (stake 64 body)) (stake 64 (sdrop 64 body)) (stake 32 (sdrop 128 body)) (sdrop 160 body)
  else handle_connection_terminated body.
