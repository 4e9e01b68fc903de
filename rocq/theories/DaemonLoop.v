(** The main loop of qrexec-daemon: daemon/qrexec-daemon.c 1749-1816, with max_client_fd, 112 and
    533-534. What the handlers do is in DaemonState. Failures of the vchan inside a handler (which
    end the daemon, or show up as a closed vchan in the next turn) are not modelled. *)
From Coq Require Import String Ascii List Bool Arith ZArith.
From Verif Require Import Base DaemonState.
Import ListNotations.
Open Scope string_scope.
Open Scope list_scope.
Open Scope Z_scope.

(** the state of the handlers, and max_client_fd *)
Record loop := mkLoop { l_daemon : daemon; l_max : Z }.
(** 112 *)
Definition begin (remote version : Z) : loop := mkLoop (init remote version) (-1).

(** the fd of a struct pollfd: the vchan's, the listening socket, or that of a client *)
Inductive who := Vchan | Listening | Client (fd : nat).

(** What happens in one turn, as far as the daemon does not decide it: the children that have ended
    (none if child_exited is not set), whether there is space in the vchan, what ppoll gives, whether
    the vchan is open, the version of the agent that comes back (if it does), the result of accept and
    whether the hello can be sent, the messages in the vchan, and what each client has sent *)
Inductive poll_result := Interrupted | PollFailed | Polled (ready : who -> bool).
Record turn := mkTurn {
  t_children : list (Z * exit_kind);
  t_space : bool;
  t_poll : poll_result;
  t_open : bool;
  t_back : option Z;
  t_accept : nat * bool;
  t_messages : list (Z * Z * string * Z);
  t_sent : nat -> client_data * bool
}.

(** 1770-1783: the array for ppoll; [None]: the assertion in 1776 fails *)
Definition valid (s : daemon) (fd : nat) : bool :=
  match d_clients s fd with CLIENT_INVALID => false | _ => true end.
Definition fill (space : bool) (l : loop) : option (list who) :=
  if space then
    if l_max l <? Z.of_nat MAX_CLIENTS then
      Some (Vchan :: Listening :: map Client (filter (valid (l_daemon l)) (seq 0 (Z.to_nat (l_max l + 1)))))
    else None
  else Some [Vchan].

(** One call of a handler: its effect on the state, and 533-534. [None]: the daemon exits *)
Definition handle (default_user : string) (l : loop) (ev : devent) : option (loop * list output) :=
  match dstep default_user (l_daemon l) ev with
  | None => None
  | Some (s, out) =>
      let m := match ev with
               | NewClient fd true => if Z.of_nat fd >? l_max l then Z.of_nat fd else l_max l
               | _ => l_max l
               end in
      Some (mkLoop s m, out)
  end.
Inductive outcome := Goes (l : loop) | Exits | AssertionFails.
(** some calls of handlers, one after the other, and what they have sent *)
Fixpoint handle_all (default_user : string) (l : loop) (evs : list devent) : list (devent * list output) * outcome :=
  match evs with
  | [] => ([], Goes l)
  | ev :: evs' =>
      match handle default_user l ev with
      | None => ([], Exits)
      | Some (l', out) => let (done, r) := handle_all default_user l' evs' in ((ev, out) :: done, r)
      end
  end.
Definition and_then (default_user : string) (x : list (devent * list output) * outcome) (evs : list devent)
  : list (devent * list output) * outcome :=
  match x with
  | (done, Goes l) => let (done', r) := handle_all default_user l evs in (done ++ done', r)
  | _ => x
  end.

(** 1805-1815: what ppoll has put in the entries decides which handlers are called *)
Definition polled (ready : who -> bool) (fds : list who) : list (who * bool) := map (fun w => (w, ready w)) fds.
Definition calls_of_client (sent : nat -> client_data * bool) (e : who * bool) : list devent :=
  match e with
  | (Client fd, true) => [FromClient fd (fst (sent fd)) (snd (sent fd))]
  | _ => []
  end.
Definition from_agent (m : Z * Z * string * Z) : devent :=
  let '(type, len, body, pid) := m in FromAgent type len body pid.

(** one turn of the loop *)
Definition one_turn (default_user : string) (l : loop) (t : turn) : list (devent * list output) * outcome :=
  let x := handle_all default_user l (map (fun c => ChildEnded (fst c) (snd c)) (t_children t)) in
  match x with
  | (done, Goes l1) =>
      match fill (t_space t) l1 with
      | None => (done, AssertionFails)
      | Some fds =>
          match t_poll t with
          | Interrupted => x
          | PollFailed => (done, Exits)
          | Polled ready =>
              if negb (t_open t) then
                match t_back t with
                | None => (done, Exits)
                | Some v => and_then default_user x [AgentRestarted v]
                end
              else
                let entries := polled ready fds in
                let x1 := match nth_error entries 1 with
                          | Some (_, true) => and_then default_user x [NewClient (fst (t_accept t)) (snd (t_accept t))]
                          | _ => x
                          end in
                let x2 := and_then default_user x1 (map from_agent (t_messages t)) in
                and_then default_user x2 (flat_map (calls_of_client (t_sent t)) (skipn 2 entries))
          end
      end
  | _ => x
  end.
