(** What a request to the policy agent says *)
From Coq Require Import String Ascii List NArith.
From Verif Require Import Base Json SpecJson Dialog Server.
From Verif Require SpecExec.
Import ListNotations.
Open Scope string_scope.
Open Scope list_scope.

(** [says u s]: the string [u] has exactly the characters of [s] *)
Definition says (u : ustr) (s : string) : Prop := u = map N_of_ascii (list_ascii_of_string s).
(** [gives v key x]: [v] is an object whose last member of this name is [x] *)
Definition gives (v : json) (key : string) (x : json) : Prop :=
  exists a k b, v = JDict (a ++ (k, x) :: b) /\ says k key /\ forall k' x', In (k', x') b -> ~ says k' key.
Definition gives_text (v : json) (key s : string) : Prop := exists u, gives v key (JStr u) /\ says u s.
(** the names of the members of an object, each once *)
Definition names (l : list (ustr * json)) (ns : list string) : Prop :=
  NoDup ns /\ (forall n, In n ns -> exists k x, In (k, x) l /\ says k n) /\ (forall k x, In (k, x) l -> exists n, In n ns /\ says k n).

(** a request for a service: the header, a NUL, and a JSON text *)
Definition request_for (service : string) (v : json) (data : string) : Prop :=
  exists rest text, data = service +++ " " +++ rest +++ str1 NUL +++ text /\ SpecExec.lacks NUL rest /\ json_text text v.
(** a question for the user *)
Record question (v : json) (p : params) : Prop := {
  qu_source : gives_text v "source" (p_source p);
  qu_service : gives_text v "service" (p_service p);
  qu_argument : gives_text v "argument" (p_argument p);
  qu_targets : exists l, gives v "targets" (JList l) /\ Forall2 (fun x t => exists u, x = JStr u /\ says u t) l (p_targets p);
  qu_default : gives_text v "default_target" (p_default p) \/ (gives v "default_target" JNull /\ p_default p = "");
  qu_icons : exists l, gives v "icons" (JDict l) /\ names l (p_icons p)
}.
