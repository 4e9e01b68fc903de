(** The turns of the daemon's loop *)
From Coq Require Import String Ascii List Bool Arith ZArith.
From Verif Require Import Base DaemonState SpecState DaemonLoop.
Import ListNotations.
Open Scope string_scope.
Open Scope list_scope.
Open Scope Z_scope.

(** a client that is connected *)
Definition connected (s : daemon) (fd : nat) : Prop := d_clients s fd <> CLIENT_INVALID.

(** the turns of a daemon so far, the history they make (newest first), and its state *)
Inductive turned (default_user : string) (remote version : Z) : history -> loop -> Prop :=
| turned_begin : turned default_user remote version [] (begin remote version)
| turned_on h l t done l' : turned default_user remote version h l -> one_turn default_user l t = (done, Goes l') ->
    turned default_user remote version (rev done ++ h) l'.

(** What has to be attended to in a turn, when the connected clients are those for which [client]
    holds: the children that have ended; then, if the call was not interrupted: either the agent that
    is back, or the new client, the messages of the agent and the clients that have something, in
    this order. Clients, new or not, only count when there is space to pass on their messages. *)
Definition attention (client : nat -> Prop) (t : turn) (evs : list devent) : Prop :=
  exists children new agent clients,
    evs = children ++ new ++ agent ++ clients /\
    children = map (fun c => ChildEnded (fst c) (snd c)) (t_children t) /\
    match t_poll t with
    | Polled ready =>
        if t_open t then
          new = (if t_space t && ready Listening then [NewClient (fst (t_accept t)) (snd (t_accept t))] else []) /\
          agent = map (fun m => let '(type, len, body, pid) := m in FromAgent type len body pid) (t_messages t) /\
          exists fds, clients = map (fun fd => FromClient fd (fst (t_sent t fd)) (snd (t_sent t fd))) fds /\
            NoDup fds /\ forall fd, In fd fds <-> t_space t = true /\ client fd /\ ready (Client fd) = true
        else new = [] /\ clients = [] /\ agent = match t_back t with Some v => [AgentRestarted v] | None => [] end
    | _ => new = [] /\ agent = [] /\ clients = []
    end.

(** The number of a descriptor that accept gives is not that of an open one: no client has it. [s] is
    the state before the events *)
Fixpoint apart (default_user : string) (s : daemon) (evs : list (devent * list output)) : Prop :=
  match evs with
  | [] => True
  | (ev, _) :: evs' =>
      match ev with NewClient fd _ => ~ connected s fd | _ => True end /\
      match dstep default_user s ev with Some (s', _) => apart default_user s' evs' | None => True end
  end.
