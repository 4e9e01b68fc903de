(** Who a command runs as *)
From Coq Require Import String Ascii List Bool Arith ZArith.
From Verif Require Import Base Exec SpecExec Login.
Import ListNotations.
Open Scope string_scope.
Open Scope list_scope.
Open Scope Z_scope.

(** an account that can be used: the two fields are not empty *)
Definition usable (a : account) : Prop := ac_name a <> "" /\ ac_dir a <> "" /\ ac_passwd a = true.
(** the system lets a process become this user *)
Record permitted (w : world) (user : string) (a : account) : Prop := {
  pm_account : w_accounts w user = Some a;
  pm_usable : usable a;
  pm_auth : w_auth w = true;
  pm_groups : w_groups w = true;
  pm_cred : w_cred w = true;
  pm_session : w_session w = true;
  pm_fork : w_fork w = true;
  pm_setgid : w_setgid w = true;
  pm_setuid : w_setuid w = true;
  pm_put : forall name v, In name ["QREXEC_AGENT_PID"; "HOME"; "SHELL"; "USER"; "LOGNAME"] -> w_put w (name +++ "=" +++ v) = true
}.
(** the fields are not longer than these limits *)
Definition short_fields (a : account) : Prop :=
  size (ac_dir a) <= 58 /\ size (ac_shell a) <= 57 /\ size (ac_name a) <= 55.

(** the variables of a login session *)
Record session_of (env : list string) (a : account) (pid : Z) : Prop := {
  sv_home : value env "HOME" (Some (ac_dir a));
  sv_shell : value env "SHELL" (Some (ac_shell a));
  sv_user : value env "USER" (Some (ac_name a));
  sv_logname : value env "LOGNAME" (Some (ac_name a));
  sv_pid : exists s, decimal s pid /\ value env "QREXEC_AGENT_PID" (Some s)
}.
(** [b] is the last component of [path] *)
Inductive last_component : string -> string -> Prop :=
| lc_only b : lacks "/" b -> last_component b b
| lc_in d b : lacks "/" b -> last_component (d +++ "/" +++ b) b.
