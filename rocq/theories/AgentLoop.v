(** The main loop of qrexec-agent: agent/qrexec-agent.c 940-1005. What the handlers do is in Agent.
    A failure of the vchan (which ends the agent) is not modelled. *)
From Coq Require Import String Ascii List Bool Arith ZArith.
From Verif Require Import Base Agent.
Import ListNotations.
Open Scope string_scope.
Open Scope list_scope.
Open Scope Z_scope.

(** an entry of the array for ppoll: the vchan's, the trigger socket, or the fd of a connection *)
Inductive who := Vchan | Trigger_socket | Conn (fd : Z).

(** What happens in one turn, as far as the agent does not decide it: the children that have ended,
    each with what the system does when held back requests are carried out; whether there is space in
    the vchan; what ppoll gives; the messages in the vchan; the local client that connects *)
Inductive poll_result := Interrupted | PollFailed | PollDone (ready : who -> bool).
Record turn := mkTurn {
  t_children : list (Z * (nat -> do_env));
  t_space : bool;
  t_poll : poll_result;
  t_messages : list (msg_env * Z * Z * string);
  t_client : nat * Z * Z * string
}.

(** 962-970: the entries; [nfds] is the length of the result *)
Fixpoint conn_entries (conns : list (option connection)) : list who :=
  match conns with
  | [] => []
  | Some c :: cs => if negb (c_fd c =? -1) then Conn (c_fd c) :: conn_entries cs else conn_entries cs
  | None :: cs => conn_entries cs
  end.
Definition fill (space : bool) (conns : list (option connection)) : list who :=
  Vchan :: (if space then Trigger_socket :: conn_entries conns else []).
Definition polled (ready : who -> bool) (fds : list who) : list (who * bool) := map (fun w => (w, ready w)) fds.

(** handle_terminated_fork_client 872-881, for the connection in one slot *)
Definition terminated (c : connection) : option connection * list output :=
  (None, [Closed (c_fd c); Terminated (c_domain c) (c_port c)]).

(** 993-1006: the second pass over the slots; [left] are the entries from fds_checked on. [None]: abort,
    or one of the assertions fails *)
Fixpoint second_pass (left : list (who * bool)) (conns : list (option connection))
  : option (list (option connection) * list output * list (who * bool)) :=
  match conns with
  | [] => Some ([], [], left)
  | Some c :: cs =>
      if negb (c_fd c =? -1) then
        match left with
        | (Conn fd, revents) :: left' =>
            if fd =? c_fd c then
              let (c', out) := if revents then terminated c else (Some c, []) in
              match second_pass left' cs with
              | Some (cs', out', rest) => Some (c' :: cs', out ++ out', rest)
              | None => None
              end
            else None
        | _ => None
        end
      else
        match second_pass left cs with
        | Some (cs', out, rest) => Some (Some c :: cs', out, rest)
        | None => None
        end
  | None :: cs =>
      match second_pass left cs with
      | Some (cs', out, rest) => Some (None :: cs', out, rest)
      | None => None
      end
  end.
(** 979-1009, with the assertion that all entries have been used *)
Definition check_conns (entries : list (who * bool)) (conns : list (option connection))
  : option (list (option connection) * list output) :=
  if (2 <? length entries)%nat then
    match second_pass (skipn 2 entries) conns with
    | Some (cs, out, []) => Some (cs, out)
    | _ => None
    end
  else Some (conns, []).

Inductive outcome := Goes (s : agent) | Exits | Aborts.
(** some calls of handlers, one after the other; exit(1) in one of them is the end *)
Fixpoint handle_all (enabled : bool) (s : agent) (evs : list event) : list (list output) * outcome :=
  match evs with
  | [] => ([], Goes s)
  | ev :: evs' =>
      let (s', out) := step enabled ev s in
      if dies out then ([out], Exits)
      else let (done, r) := handle_all enabled s' evs' in (out :: done, r)
  end.
Definition reaped (c : Z * (nat -> do_env)) : event := Reaped (fst c) (snd c).
Definition message (m : msg_env * Z * Z * string) : event := let '(e, type, len, body) := m in Message e type len body.
Definition trigger_event (c : nat * Z * Z * string) : event := let '(fd, type, len, data) := c in Trigger fd type len data.

(** one turn, 952-1016: what is done in it, one list for each handler that is called *)
Definition one_turn (enabled : bool) (s : agent) (t : turn) : list (list output) * outcome :=
  match handle_all enabled s (map reaped (t_children t)) with
  | (done, Goes s1) =>
      let fds := fill (t_space t) (a_conns s1) in
      match t_poll t with
      | Interrupted => (done, Goes s1)
      | PollFailed => (done, Exits)
      | PollDone ready =>
          let entries := polled ready fds in
          match check_conns entries (a_conns s1) with
          | None => (done, Aborts)
          | Some (conns, out) =>
              let s2 := mkAgent conns (a_waiting s1) (a_wait s1) in
              let rest := map message (t_messages t) ++
                          match nth_error entries 1 with Some (_, true) => [trigger_event (t_client t)] | _ => [] end in
              let (done', r) := handle_all enabled s2 rest in
              (done ++ out :: done', r)
          end
      end
  | x => x
  end.
