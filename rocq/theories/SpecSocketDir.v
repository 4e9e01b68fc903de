(** Reaching a qube by its name *)
From Coq Require Import String Ascii List Bool Arith.
From Verif Require Import Base SocketDir.
From Verif Require SpecExec.
Import ListNotations.
Open Scope string_scope.
Open Scope list_scope.

(** connecting to the name [n] leads to process [p] *)
Inductive leads (d : dir) : string -> nat -> Prop :=
| leads_sock : forall n p, d n = Some (Sock p) -> leads d n p
| leads_link : forall n t p, d n = Some (Link t) -> leads d t p -> leads d n p.

(** names and ids as qubes have them: a name begins with a letter and has no colon, an id is a
    number *)
Definition letter (c : ascii) : bool := let n := nat_of_ascii c in ((65 <=? n) && (n <=? 90) || (97 <=? n) && (n <=? 122))%nat%bool.
Definition decimal (s : string) : Prop := s <> "" /\ forall c, has_char c s = true -> (48 <= nat_of_ascii c <= 57)%nat.
Definition usual (i : ident) : Prop :=
  (exists c s, i_name i = String c s /\ letter c = true) /\ has_char ":" (i_name i) = false /\ decimal (i_xid i).
(** the daemons of different qubes *)
Definition different (i j : ident) : Prop := i_xid i <> i_xid j /\ i_name i <> i_name j /\ i_uuid i <> i_uuid j.
(** a daemon is started for a qube only when there is none that still runs for it *)
Definition alive (x : proc) : Prop := p_phase x <> Gone.
Inductive orderly : state -> list event -> Prop :=
| or_nil : forall s, orderly s []
| or_start : forall s i h s', usual i -> (forall x, In x (s_procs s) -> alive x -> different i (p_id x)) ->
    step s (EStart i) = Some s' -> orderly s' h -> orderly s (EStart i :: h)
| or_other : forall s e h s', (forall i, e <> EStart i) -> step s e = Some s' -> orderly s' h -> orderly s (e :: h).
