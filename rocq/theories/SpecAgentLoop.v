(** What is due in a turn of the agent's loop *)
From Coq Require Import String Ascii List Bool Arith ZArith.
From Verif Require Import Base Agent AgentLoop.
Import ListNotations.
Open Scope string_scope.
Open Scope list_scope.
Open Scope Z_scope.

(** The children that have ended; then, unless the call was interrupted, the connections whose
    descriptor has something, the messages of the daemon, and the local client that connects: those
    that add messages to the vchan only if there is space in it *)
Definition due (t : turn) : list event :=
  map (fun c => Reaped (fst c) (snd c)) (t_children t) ++
  match t_poll t with
  | PollDone ready =>
      Polled (fun fd => t_space t && ready (Conn fd)) ::
      map (fun m => let '(e, type, len, body) := m in Message e type len body) (t_messages t) ++
      (if t_space t && ready Trigger_socket then let '(fd, type, len, data) := t_client t in [Trigger fd type len data] else [])
  | _ => []
  end.

(** a connection in slot [i] of the table *)
Definition in_slot (conns : list (option connection)) (i : nat) (c : connection) : Prop := nth_error conns i = Some (Some c).
(** ... is over: it has a descriptor, and that one has something *)
Definition over (ready : Z -> bool) (c : connection) : Prop := c_fd c <> -1 /\ ready (c_fd c) = true.
