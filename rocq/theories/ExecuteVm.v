(** Running a service in a qube: daemon/qrexec-daemon-common.c, and qubesd_call of
    libqrexec/ioall.c *)
From Coq Require Import String Ascii List Bool Arith ZArith.
From Verif Require Import Base Sanitize DaemonAgent DaemonState.
Import ListNotations.
Open Scope string_scope.
Open Scope list_scope.
Open Scope Z_scope.

(** A 32 bit number as it is sent (the machines are little-endian) *)
Definition byte (z : Z) : ascii := ascii_of_nat (Z.to_nat (z mod 256)).
Definition le32 (z : Z) : string :=
  String (byte z) (String (byte (z / 256)) (String (byte (z / 65536)) (String (byte (z / 16777216)) ""))).

(** qubesd_call2, ioall.c 258-335 (qubesd_call, 253-256, with an empty payload): the
    request that is sent, with an empty argument of the method *)
Definition qubesd_request (dest method payload : string) : string :=
  method +++ "+" +++ (match dest with
                      | String c dest' => if Ascii.eqb c "@" then " dom0 keyword " +++ dest' else " dom0 name " +++ dest
                      | "" => " dom0 name "
                      end) +++ str1 NUL +++ payload.
(** and what it returns of the bytes received ([None]: NULL; also when the connection
    fails) *)
Definition qubesd_response (received : option string) : option string :=
  match received with
  | None => None
  | Some b => if (String.length b <? 2)%nat || negb (has_char NUL b) then None else Some b
  end.

(** connect_unix_socket, 249-279: connect(2), then handle_daemon_handshake, 68-106: the
    daemon speaks first ([None]: end of file before the message is complete); [sends]
    tells whether our own hello can be sent. A socket is not left open by the model when
    the handshake fails (the code forgets it). *)
Inductive connect_result := ConnOk | ConnEnoent | ConnRefused | ConnError.
Inductive conn := Connected | NotRunning | ConnFailed.
Record sock_env := { se_connect : connect_result; se_hello : option (Z * Z * Z); se_sends : bool }.
Definition QREXEC_CLIENT_PROTOCOL_VERSION := 3.
Definition handle_daemon_handshake (e : sock_env) : conn :=
  match se_hello e with
  | None => ConnFailed
  | Some (type, len, version) =>
      if negb ((type =? MSG_HELLO) && (len =? sizeof_peer_info)) then ConnFailed
      else if version <? QREXEC_CLIENT_PROTOCOL_VERSION then ConnFailed
      else if se_sends e then Connected else ConnFailed
  end.
Definition SUN_PATH := 108.   (* sizeof of sun_path *)
Definition socket_path (socket_dir name : string) : string := socket_dir +++ "/qrexec." +++ name.
Definition connect_unix_socket (socket_dir name : string) (e : sock_env) : conn :=
  if Z.of_nat (String.length (socket_path socket_dir name)) >=? SUN_PATH then ConnFailed
  else match se_connect e with
       | ConnOk => handle_daemon_handshake e
       | ConnEnoent | ConnRefused => NotRunning
       | ConnError => ConnFailed
       end.

(** negotiate_connection_params, 17-52: what is sent, and what the answer means.
    [None] as the answer: the writes fail. assert() is on. *)
Definition command_message (type other_domid : Z) (cmd : string) : string :=
  le32 type +++ le32 (8 + Z.of_nat (String.length cmd)) +++ le32 other_domid +++ le32 0 +++ cmd.
Inductive negotiated := Agreed (domain port : Z) | NotAgreed | Aborts.
Definition negotiate_answer (type : Z) (answer : option string) : negotiated :=
  match answer with
  | None => NotAgreed
  | Some b =>
      if (String.length b <? 8)%nat then NotAgreed
      else if negb (u32 b =? type) then Aborts
      else if negb (u32 (sdrop 4 b) =? 8) then NotAgreed
      else if (String.length b <? 16)%nat then NotAgreed
      else Agreed (to_int (u32 (sdrop 8 b))) (to_int (u32 (sdrop 12 b)))
  end.

(** send_service_connect, 281-299; strncpy pads with NUL bytes *)
Fixpoint zeros (n : nat) : string := match n with O => "" | S n => String NUL (zeros n) end.
Definition ident_field (ident : string) : string :=
  let i := stake 31 (cstr ident) in i +++ zeros (32 - String.length i).
Definition service_connect_message (ident : string) (domain port : Z) : string :=
  le32 MSG_SERVICE_CONNECT +++ le32 40 +++ le32 domain +++ le32 port +++ ident_field ident.

(** connect_unix_socket_by_id, 231-238: the decimal number, here of a domain id below
    65536 (the ids of Xen); we leave its digits to [string_of_id] *)
Fixpoint digits (fuel : nat) (n : Z) (acc : string) : string :=
  match fuel with
  | O => acc
  | S fuel => let acc := String (ascii_of_nat (48 + Z.to_nat (n mod 10))) acc in
              if n / 10 =? 0 then acc else digits fuel (n / 10) acc
  end.
Definition string_of_id (n : Z) : string := digits 10 n "".

(** What the function does, in order *)
Inductive action :=
| Qubesd (request : string)
| Connect (name : string)             (* to a daemon *)
| Send (bytes : string)               (* to the daemon just connected to *)
| Wait                                (* poll(2) until the daemon of the target closes the connection *)
| Close.                              (* closes the connection to the daemon of the target *)
(** The answers it gets *)
Record world := {
  w_dir : string;                     (* socket_dir *)
  w_create : option string;           (* from qubesd: creation *)
  w_first : sock_env;                 (* the first connection to the daemon of the target *)
  w_start : option string;            (* from qubesd: start *)
  w_second : sock_env;                (* the second connection to it *)
  w_answer : option string;           (* of the daemon of the target to the command *)
  w_back : sock_env;                  (* the connection to the daemon of the caller *)
  w_back_sends : bool                 (* whether the message to it can be sent *)
}.
Inductive result := Returns (b : bool) | Dies.

Definition dispvm_prefix := "@dispvm:".
Definition zero := "0" +++ str1 NUL.

(** qrexec_execute_vm, 108-229, from the connection on (176-229); [name] is the target,
    [kill] says that it is a disposable created here *)
Definition execute_connected (w : world) (remote_domain_id : Z) (name cmd request_id : string)
  (just_exec wait kill : bool) : list action * result :=
  let killing := if kill then [Qubesd (qubesd_request name "admin.vm.Kill" "")] else [] in
  let type := if just_exec then MSG_JUST_EXEC else MSG_EXEC_CMDLINE in
  let sent := Send (command_message type remote_domain_id (cmd +++ str1 NUL)) in
  match negotiate_answer type (w_answer w) with
  | Aborts => ([sent], Dies)
  | NotAgreed => (sent :: killing, Returns false)
  | Agreed domain port =>
      let back := string_of_id remote_domain_id in
      let '(more, rc) :=
        match connect_unix_socket (w_dir w) back (w_back w) with
        | Connected => ([Connect back; Send (service_connect_message request_id domain port)], w_back_sends w)
        | _ => ([Connect back], false)
        end in
      (sent :: (if wait then [] else [Close]) ++ more ++ (if wait then Wait :: killing else []), Returns rc)
  end.
(** 157-175: connecting, and starting the qube if needed. [kill] as above, in this case the qube is not
    connected to before it is started. *)
Definition execute_named (w : world) (autostart : bool) (remote_domain_id : Z) (name cmd request_id : string)
  (just_exec wait kill : bool) : list action * result :=
  let killing := if kill then [Qubesd (qubesd_request name "admin.vm.Kill" "")] else [] in
  let first := if kill then NotRunning else connect_unix_socket (w_dir w) name (w_first w) in
  let a1 := if kill then [] else [Connect name] in
  match first with
  | Connected => let '(a, r) := execute_connected w remote_domain_id name cmd request_id just_exec wait kill in (a1 ++ a, r)
  | ConnFailed => (a1 ++ killing, Returns false)
  | NotRunning =>
      if negb autostart then (a1 ++ killing, Returns false)
      else
        let start := Qubesd (qubesd_request name "admin.vm.Start" "") in
        let accepted := match qubesd_response (w_start w) with
                        | None => false
                        | Some b => starts zero b || starts ("2" +++ str1 NUL +++ "QubesVMNotHaltedError" +++ str1 NUL) b
                        end in
        if negb accepted then (a1 ++ [start], Returns false)
        else match connect_unix_socket (w_dir w) name (w_second w) with
             | Connected => let '(a, r) := execute_connected w remote_domain_id name cmd request_id just_exec wait kill in
                            (a1 ++ [start; Connect name] ++ a, r)
             | _ => (a1 ++ [start; Connect name] ++ killing, Returns false)
             end
  end.
(** the answer to the creation of a disposable, 134-158: the name of the new qube *)
Definition created_name (use_uuid : bool) (b : string) : option string :=
  if starts zero b then
    let name := cstr (sdrop 2 b) in
    if negb (String.length name =? String.length b - 2)%nat then None
    else if use_uuid && negb ((String.length b =? 43)%nat && starts "uuid:" name) then None
    else Some name
  else None.
(** 108-156. [cmd] without the NUL byte that service_length counts *)
Definition qrexec_execute_vm (w : world) (target : string) (autostart : bool) (remote_domain_id : Z) (cmd request_id : string)
  (just_exec wait use_uuid : bool) : list action * result :=
  let service_length := Z.of_nat (String.length cmd) + 1 in
  if (service_length <? 2) || (service_length >? MAX_QREXEC_CMD_LEN) then ([], Returns false)
  else if starts dispvm_prefix target then
    if negb autostart then ([], Returns false)
    else if just_exec then ([], Returns false)
    else
      let create := Qubesd (qubesd_request (sdrop 8 target) "admin.vm.CreateDisposable" (if use_uuid then "uuid" else "")) in
      match qubesd_response (w_create w) with
      | None => ([create], Returns false)
      | Some b =>
          match created_name use_uuid b with
          | None => ([create], Returns false)
          | Some name => let '(a, r) := execute_named w autostart remote_domain_id name cmd request_id just_exec true true in (create :: a, r)
          end
      end
  else execute_named w autostart remote_domain_id target cmd request_id just_exec wait false.
