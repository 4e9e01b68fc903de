(** When a call can be started, and what its caller is told otherwise *)
From Coq Require Import String Ascii List Bool Arith ZArith.
From Verif Require Import Base Stream SpecStream Spawn.
From Verif Require Exec SpecExec SpecLookup Toml Agent.
Import ListNotations.
Open Scope string_scope.
Open Scope list_scope.
Open Scope Z_scope.

Definition files_of (m : machine) : Exec.filesystem := Agent.f_fs (m_files m).
(** [dirs] are the directories with services, and the names tried there are not too long *)
Definition services_in (m : machine) (dirs : list string) : Prop := SpecLookup.search_path (m_services m) dirs.
Definition short_paths (m : machine) (dirs : list string) (c : SpecExec.call) : Prop :=
  SpecLookup.fits dirs (SpecExec.c_full c) /\ SpecLookup.fits dirs (SpecExec.c_name c) /\
  forall path t, SpecLookup.implementation (files_of m) dirs c path (SpecLookup.Tcp t) -> SpecLookup.link_fits (SpecLookup.Tcp t).
(** the machine has nothing by the name of the service *)
Definition not_installed (m : machine) (dirs : list string) (c : SpecExec.call) : Prop :=
  SpecLookup.nowhere (files_of m) dirs (SpecExec.c_full c) /\ SpecLookup.nowhere (files_of m) dirs (SpecExec.c_name c).
(** the configuration of the service can be read *)
Definition configured (m : machine) (c : SpecExec.call) (user : option string) (cf : Toml.config) (user' : option string) : Prop :=
  Toml.load_service_config_v2 (files_of m) (Agent.f_contents (m_files m)) (Agent.f_path (m_files m))
    (SpecExec.c_full c) (SpecExec.c_name c) user = Some (cf, user').
Definition misconfigured (m : machine) (c : SpecExec.call) : Prop :=
  forall user cf user', ~ configured m c user cf user'.

(** [can_start m dirs command greet user c st]: the call [c] (None: a command for the shell)
    can be started as [st] *)
Inductive can_start (m : machine) (dirs : list string) (command : string) (greet : bool) (user : option string)
  : option SpecExec.call -> started -> Prop :=
| cs_program c path :
    SpecLookup.implementation (files_of m) dirs c path (SpecLookup.Is (Exec.KFile true)) -> m_forks m = true ->
    can_start m dirs command greet user (Some c) (OnProcess (Some path) command user)
| cs_socket c path :
    SpecLookup.implementation (files_of m) dirs c path (SpecLookup.Is Exec.KSocket) -> m_connects m = true ->
    can_start m dirs command greet user (Some c)
      (OnSocket (Exec.ConnectSocket path (if greet then Some (command +++ str1 NUL) else None)))
| cs_tcp c path t host port :
    SpecLookup.implementation (files_of m) dirs c path (SpecLookup.Tcp t) ->
    SpecLookup.tcp_to t (SpecExec.c_arg c) host port -> SpecLookup.port_number port -> m_connects m = true ->
    can_start m dirs command greet user (Some c)
      (OnSocket (Exec.ConnectTcp host port (if greet then Some (command +++ str1 NUL) else None)))
| cs_shell : m_forks m = true -> can_start m dirs command greet user None (OnProcess None command user).

(** the call named by a command line for a qube (agent, with a user) or for dom0 *)
Inductive asks (m : machine) (dom0 : bool) (line : string) :
  string -> option SpecExec.call -> bool -> option string -> Prop :=
| as_call user nogui command c cf user' :
    SpecExec.line_means (negb dom0) line user nogui command (Some c) -> (dom0 && nogui = false)%bool ->
    configured m c user cf user' -> (dom0 = true -> Toml.cf_wait_for_session cf = true -> m_session m = true) ->
    asks m dom0 line command (Some c) (Toml.cf_send_service_descriptor cf) user'
| as_nogui user command c :
    SpecExec.line_means (negb dom0) line user true command (Some c) -> dom0 = true ->
    asks m dom0 line command (Some c) true user
| as_shell user nogui command :
    SpecExec.line_means (negb dom0) line user nogui command None ->
    asks m dom0 line command None true user.

(** a connection over which all can be said *)
Definition works (k : link) : Prop := k_open k = true /\ k_hello k = true.
