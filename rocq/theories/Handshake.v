(** The handshakes on the vchans between dom0 and an agent, and between two agents:
    which version of the protocol is used afterwards *)
From Coq Require Import String Ascii List Bool Arith ZArith.
From Verif Require Import Base Sanitize DaemonAgent DaemonState ExecuteVm.
Import ListNotations.
Open Scope string_scope.
Open Scope Z_scope.

(** QREXEC_PROTOCOL_VERSION, qrexec.h 32; QREXEC_DATA_MIN_VERSION, qrexec-agent-data.c 52 and
    qrexec-daemon-common.c 301; QREXEC_AGENT_MIN_VERSION, qrexec-daemon.c 44 *)
Definition OWN_VERSION := 4.
Definition MIN_VERSION := 2.

(** A MSG_HELLO: struct msg_header and struct peer_info *)
Definition hello (version : Z) : string := le32 MSG_HELLO +++ le32 sizeof_peer_info +++ le32 version.
(** Receiving one: the field [version] is unsigned. [None]: the vchan is closed before it is
    complete, or it is another message. *)
Definition received_hello (incoming : string) : option Z :=
  if (String.length incoming <? 8)%nat then None
  else if negb ((u32 incoming =? MSG_HELLO) && (u32 (sdrop 4 incoming) =? sizeof_peer_info)) then None
  else if (String.length incoming <? 12)%nat then None
  else Some (u32 (sdrop 8 incoming)).
Definition choose (own version : Z) : option Z :=
  let actual := if version <? own then version else own in
  if actual <? MIN_VERSION then None else Some actual.

(** handle_handshake, qrexec-agent-data.c 91-136, in an agent of the version [own]: sends its
    hello first; then, with the bytes that come from the other end, the result ([None]: -1) *)
Definition handle_handshake (own : Z) (incoming : string) : option Z :=
  match received_hello incoming with Some v => choose own v | None => None end.
(** handle_agent_handshake, qrexec-daemon-common.c 317-363, in dom0: what is sent, and the
    result *)
Definition handle_agent_handshake (own : Z) (remote_send_first : bool) (incoming : string) : string * option Z :=
  let result := match received_hello incoming with Some v => choose own v | None => None end in
  if remote_send_first then
    match result with Some v => (hello own, Some v) | None => ("", None) end
  else (hello own, result).
(** handle_agent_hello, qrexec-daemon.c 235-285, on the control vchan: the hello that is sent
    back has the version that was received (the assignment is commented out, 271) *)
Definition handle_agent_hello (own : Z) (incoming : string) : string * option Z :=
  match received_hello incoming with
  | Some v => match choose own v with Some actual => (hello v, Some actual) | None => ("", None) end
  | None => ("", None)
  end.
