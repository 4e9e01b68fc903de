(** Model: the start of a call to dom0 (daemon/qrexec-daemon-common.c), up to the connection to the caller *)
From Coq Require Import String Ascii List Bool Arith ZArith.
From Verif Require Import Base ExecuteVm.
From Verif Require Spawn.
Import ListNotations.
Open Scope string_scope.
Open Scope list_scope.
Open Scope Z_scope.

(** What becomes of it: it ends with a status before there is a connection, it is killed by its own
    assert (daemon-common.c 40), or the connection to that port of that domain is tried, and then it
    goes on as in [Spawn] *)
Inductive dom0_call :=
| Stops (status : Z)
| Aborted
| GoesOn (domain port : Z) (rest : Spawn.outcome).

(** run_qrexec_to_dom0, daemon-common.c 499-564. [dir] is socket_dir, [e] the daemon of the caller as it is
    connected to (513-515, and connect_unix_socket_by_id, 230-238), [field] the 32 bytes of svc_params (a
    struct service_params: the identifier of the call, a NUL byte, and whatever follows), [answer] what the
    daemon writes ([None]: our writes fail); [k d p] is the connection to port [p] of domain [d] (537-549),
    which the other side accepts within the timeout or not. The rest, from the parsing of the command on, is
    in Spawn.v; parsing and starting come before the connection is tried there, and have no effect on it.
    set_remote_domain (a variable for the environment of the service) is in Exec.v. The socket to the daemon
    stays open until the program exits. *)
Definition run_to_dom0 (dir : string) (e : sock_env) (src : Z) (field : string) (answer : option string)
  (m : Spawn.machine) (k : Z -> Z -> Spawn.link) (line : string) : list action * dom0_call :=
  let name := string_of_id src in
  match connect_unix_socket dir name e with
  | Connected =>
      ([Connect name; Send (command_message 514 0 field)],
       match negotiate_answer 514 answer with
       | Agreed domain port => GoesOn domain port (Spawn.run_qrexec_to_dom0 m (k domain port) line)
       | NotAgreed => Stops 125
       | Aborts => Aborted
       end)
  | _ => ([Connect name], Stops 125)
  end.
