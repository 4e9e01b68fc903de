(** The command line of qrexec-agent, and names of fork servers' sockets *)
From Coq Require Import String Ascii List Bool Arith ZArith.
From Verif Require Import Base SpecClient Agent AgentLoop.
Import ListNotations.
Open Scope string_scope.
Open Scope list_scope.

Inductive a_opt := AHelp | ASocket (path : string) | AFork (template : string) | ANoFork.
Definition a_spelled (o : a_opt) (ws : list string) : Prop :=
  match o with
  | AHelp => flag_words (Some "h") (Some "help") ws
  | ASocket p => value_words (Some "a") (Some "agent-socket") p ws
  | AFork t => value_words (Some "s") (Some "fork-server-socket") t ws
  | ANoFork => flag_words (Some "S") (Some "no-fork-server") ws
  end.
Definition of_socket (o : a_opt) : option string := match o with ASocket p => Some p | _ => None end.
(** what is said about fork servers: where they are, or that there are none *)
Definition of_fork (o : a_opt) : option (option string) := match o with AFork t => Some (Some t) | ANoFork => Some None | _ => None end.

(** [stands_for t u p]: the text [t] with %s for the user, %% for a percent sign, gives [p] *)
Inductive plain_text : string -> string -> Prop :=
| pt_end : plain_text "" ""
| pt_percent t p : plain_text t p -> plain_text ("%%" +++ t) ("%" +++ p)
| pt_char c t p : c <> "%"%char -> plain_text t p -> plain_text (String c t) (String c p).
Definition stands_for (t u p : string) : Prop :=
  plain_text t p \/ exists a b pa pb, t = a +++ "%s" +++ b /\ plain_text a pa /\ plain_text b pb /\ p = pa +++ u +++ pb.
