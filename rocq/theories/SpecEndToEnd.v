(** Specification vocabulary: a call from the qube that makes it to the program that serves it *)
From Coq Require Import String Ascii List Bool Arith ZArith.
From Verif Require Import Base SysInfo Token Rule Policy SpecPolicy SpecDaemon DaemonPolicy SpecCall SpecExec.
Import ListNotations.
Open Scope string_scope.
Open Scope list_scope.
Open Scope Z_scope.

(** What is assumed of the policy and of qubesd: rules as the parser makes them; texts on one line; users
    of the policy without a colon; transport services without a blank or a plus sign *)
Record well_set_up (rules : list rule) (i : info) : Prop := {
  ws_rules : forall r, In r rules -> wf_rule r /\ ~ uuid_dispvm (r_target r);
  ws_users : forall r u, In r rules -> user_of (r_action r) = Some u -> plain_text u /\ lacks ":" u;
  ws_info : wf_info i /\ wf_refs i /\ plain_system i;
  ws_transport : forall n d t, dget i n = Some d -> d_transport d = Some t -> lacks " " t /\ lacks "+" t /\ size t <= 255
}.
(** a service with its argument: the name is at most 255 bytes, all of it at most 64000 *)
Definition moderate (service : string) : Prop :=
  size service <= 64000 /\ exists name arg, split_service_text service name arg /\ size name <= 255.

(** how the program learns which target was asked for *)
Inductive asked_for (requested : string) : asked -> Prop :=
| af_keyword kw : requested = "@" +++ kw -> asked_for requested (AskedKeyword kw)
| af_name : starts "@" requested = false -> asked_for requested (AskedName requested).

(** who may be named as the caller of a call that comes from qube [remote] on behalf of [claim]: [remote]
    itself, or a remote qube that it is the relay of *)
Definition caller_named (i : info) (remote claim caller : string) : Prop :=
  caller = remote \/ claim <> "" /\ caller = claim /\ exists d, dget i claim = Some d /\ d_type d = "RemoteVM" /\ d_relay d = Some remote.
