(** The answers of the policy program, as qrexec-daemon reads them: lines of the form key=value *)
From Coq Require Import String Ascii List Bool.
From Verif Require Import Base SpecDaemon DaemonPolicy.
Import ListNotations.
Open Scope string_scope.
Open Scope list_scope.

(** the text [t] is made of the lines [ls], with or without a newline after the last *)
Definition written (t : string) (ls : list string) : Prop :=
  ls <> [] /\ (forall l, In l ls -> one_line l /\ no_nul l) /\ (t = join nl ls \/ t = join nl ls +++ nl).

(** what the lines say for a key: what comes after the first equals sign *)
Definition values (key : string) (ls : list string) : list string :=
  flat_map (fun l => match split1 "=" l with Some (k, v) => if String.eqb k key then [v] else [] | None => [] end) ls.

(** a key is given once, or not at all *)
Definition once {A} (o : option A) : list A := match o with Some x => [x] | None => [] end.

(** The lines say [result] and [r]; other keys may be there. [before] is what was known about
    policy_source before *)
Definition says (ls : list string) (result : string) (before : option string) (r : reply) : Prop :=
  (forall l, In l ls -> has_char "=" l = true) /\
  values "result" ls = [result] /\
  values "user" ls = once (p_user r) /\
  values "target" ls = once (p_target r) /\
  values "target_uuid" ls = once (p_target_uuid r) /\
  values "autostart" ls = once (option_map (fun b : bool => if b then "True" else "False") (p_autostart r)) /\
  values "requested_target" ls = once (p_requested r) /\
  values "service" ls = once (p_service r) /\
  once before ++ values "policy_source" ls = once (p_source r).
