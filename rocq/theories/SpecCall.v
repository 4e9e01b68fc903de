(** Specification vocabulary: what carrying out an allowed call means *)
From Coq Require Import String Ascii List Bool Arith ZArith.
From Verif Require Import Base SysInfo Token Rule Policy SpecPolicy SpecDaemon DaemonPolicy.
Import ListNotations.
Open Scope string_scope.
Open Scope list_scope.

Definition plain_text (s : string) : Prop := one_line s /\ no_nul s.

(** no name, uuid or transport service of the system contains a line break or a
    NUL byte *)
Definition plain_system (i : info) : Prop :=
  forall n d, dget i n = Some d -> plain_text n /\
    (forall u, d_uuid d = Some u -> plain_text u) /\
    (forall t, d_transport d = Some t -> plain_text t).
Definition user_of (a : action) : option string :=
  match a with Deny _ => None | Allow _ u _ _ => u | Ask _ _ u _ _ => u end.
Definition plain_users (rules : list rule) : Prop :=
  forall r u, In r rules -> user_of (r_action r) = Some u -> plain_text u.

(** a service with its argument: the argument may be empty but not absent *)
Definition with_argument (service : string) : string :=
  if has_char "+" service then service else service +++ "+".
(** the service and the caller that the receiving side is told *)
Definition told_service (g : granted_call) (service : string) : string :=
  with_argument (match gc_service g with Some s => s | None => service end).
Definition told_caller (g : granted_call) (caller : string) : string :=
  match gc_source g with Some s => s | None => caller end.

(** [performed caller service g o]: [o] carries out [g], decided for a call of
    [service] by [caller] *)
Inductive performed (caller service : string) (g : granted_call) : call_outcome -> Prop :=
| pf_dom0_keyword kw : means_dom0 (gc_target g) -> gc_requested g = "@" +++ kw ->
    performed caller service g (RunInDom0 (told_caller g caller)
      ("QUBESRPC " +++ told_service g service +++ " " +++ told_caller g caller +++ " keyword " +++ kw))
| pf_dom0_name : means_dom0 (gc_target g) -> starts "@" (gc_requested g) = false ->
    performed caller service g (RunInDom0 (told_caller g caller)
      ("QUBESRPC " +++ told_service g service +++ " " +++ told_caller g caller +++ " name " +++ gc_requested g))
| pf_qube u : ~ means_dom0 (gc_target g) -> gc_uuid g = Some u ->
    performed caller service g (RunInVM u (gc_autostart g)
      (gc_user g +++ ":QUBESRPC " +++ told_service g service +++ " " +++ told_caller g caller) true).

(** The rule that authorises it, and who agreed *)
Definition decided_for (rules : list rule) (agent : option string) (q : request) (g : granted_call) : Prop :=
  exists r, first_applicable rules q r /\
  match r_action r with
  | Deny _ => False
  | Allow t u n a => exists x, grants (q_info q) (q_source q) (sent_to t q) x /\
      (a = false -> needs_no_start (q_info q) x) /\ x <> q_source q /\ granted q u x a g
  | Ask t dt u n a => exists x, choice rules q t a x /\ agent = Some ("allow:" +++ x) /\
      x <> q_source q /\ granted q u x a g
  end.

(** the answer qrexec-daemon gets when qrexec-policy-daemon closes the
    connection after writing [w] *)
Definition answered (w : option string) : daemon_answer :=
  Answer (match w with Some s => s | None => "" end).
Definition claimed (rs : option string) : string :=
  match rs with Some s => s | None => "" end.

(** ** qrexec-policy-exec with the arguments for running qrexec-client itself *)
Definition place (target : string) : string :=
  if starts "@" target then "keyword " +++ sdrop 1 target else "name " +++ target.
(** [client_run ... g create argv]: qrexec-client with arguments [argv], in a new
    disposable [disp] based on [create] if given, carries out [g] *)
Inductive client_run (domain_id source target service ident disp : string) (g : granted_call)
  : option string -> list string -> Prop :=
| cr_dom0 : means_dom0 (gc_target g) ->
    client_run domain_id source target service ident disp g None
      ["/usr/lib/qubes/qrexec-client"; "-Ed"; gc_target g; "-c"; ident +++ "," +++ source +++ "," +++ domain_id;
       "--"; "QUBESRPC " +++ service +++ " " +++ source +++ " " +++ place target]
| cr_disp u : gc_uuid g = Some u -> starts "@dispvm:" (gc_target g) = true ->
    client_run domain_id source target service ident disp g (Some u)
      ["/usr/lib/qubes/qrexec-client"; "-EWkd"; disp; "-c"; ident +++ "," +++ source +++ "," +++ domain_id;
       "--"; gc_user g +++ ":QUBESRPC " +++ service +++ " " +++ source]
| cr_qube u : gc_uuid g = Some u -> starts "@dispvm:" (gc_target g) = false ->
    gc_target g <> "dom0" -> gc_target g <> "@adminvm" ->
    client_run domain_id source target service ident disp g None
      ["/usr/lib/qubes/qrexec-client"; "-Ed"; u; "-c"; ident +++ "," +++ source +++ "," +++ domain_id;
       "--"; gc_user g +++ ":QUBESRPC " +++ service +++ " " +++ source].
