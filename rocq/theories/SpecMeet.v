(** Specification vocabulary: a call between two qubes, as seen by the daemons of both *)
From Coq Require Import String Ascii List Bool Arith ZArith.
From Verif Require Import Base Sanitize DaemonAgent DaemonState ExecuteVm.
Import ListNotations.
Open Scope string_scope.
Open Scope list_scope.
Open Scope Z_scope.

(** What a daemon reads of the bytes that a client has sent: type and length, and the rest *)
Definition message_of (bytes : string) : client_data :=
  ClientMessage (u32 bytes) (u32 (sdrop 4 bytes)) (sdrop 8 bytes).
(** What the daemon of the qube [remote] writes to the client that gave a command, when it
    has chosen a port (qrexec-daemon.c 641-646): the type of the message again, and the
    number of its own qube with the port *)
Definition written_to_client (remote type : Z) (outs : list output) : option string :=
  match outs with
  | PortToClient _ _ port :: _ => Some (le32 type +++ le32 8 +++ le32 remote +++ le32 port)
  | _ => None
  end.
