(** Specification vocabulary: the connection that a client of the daemon set up *)
From Coq Require Import String Ascii List Bool Arith ZArith.
From Verif Require Import Base Sanitize DaemonState SpecState.
Import ListNotations.
Open Scope list_scope.
Open Scope Z_scope.

(** What ends the connection of the client with descriptor [fd] other than the end of the
    connection it set up: it closes it or sends something more, or the agent restarts *)
Definition drops (ev : devent) (fd : nat) : Prop :=
  match ev with FromClient g _ _ | NewClient g _ => g = fd | AgentRestarted _ => True | _ => False end.
(** The client [fd] was given port [p] for a connection to domain [d], and since then
    neither did the client leave nor was the end of that connection reported *)
Inductive holds : history -> nat -> Z -> Z -> Prop :=
| ho_now ev outs h fd d p : In (PortToClient fd d p) outs -> holds ((ev, outs) :: h) fd d p
| ho_still ev outs h fd d p : holds h fd d p -> ~ reports_end ev d p -> ~ drops ev fd -> holds ((ev, outs) :: h) fd d p.
(** The kernel gives a new connection a descriptor that is not in use *)
Definition fresh_descriptors (du : string) (remote version : Z) (h : history) : Prop :=
  forall h1 h2 fd ok outs s, h = h2 ++ (NewClient fd ok, outs) :: h1 -> runs du remote version h1 s ->
    d_clients s fd = CLIENT_INVALID.
