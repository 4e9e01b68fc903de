(** Running a command as a user: do_exec of qrexec-agent (agent/qrexec-agent.c 140-350, built
    with PAM), of the fork server (agent/qrexec-fork-server.c 40-61) and of the programs of
    dom0 (daemon/qrexec-daemon.c 1166-1181, daemon/qrexec-client.c 64-81).

    Not modelled: strdup and malloc failures, signal masks, the working directory (the home
    directory if it can be entered), what is logged. *)
From Coq Require Import String Ascii List Bool Arith ZArith.
From Verif Require Import Base Exec.
From Verif Require Agent.
Import ListNotations.
Open Scope string_scope.
Open Scope list_scope.
Open Scope Z_scope.

(** struct passwd; [ac_passwd]: pw_passwd is not NULL *)
Record account := mkAcc { ac_name : string; ac_passwd : bool; ac_uid : Z; ac_gid : Z; ac_dir : string; ac_shell : string }.

(** What the process finds: its effective uid, the account of that uid, the accounts by
    name; whether pam_start and pam_authenticate, initgroups, pam_setcred, pam_open_session
    succeed; for which entries pam_putenv does; the environment PAM gives the session before
    that; the parent's pid; whether fork, setgid, setuid succeed; its own environment *)
Record world := mkWorld {
  w_euid : Z; w_self : option account; w_accounts : string -> option account;
  w_auth : bool; w_groups : bool; w_cred : bool; w_session : bool;
  w_put : string -> bool; w_pamenv : list string; w_ppid : nat;
  w_fork : bool; w_setgid : bool; w_setuid : bool; w_environ : list string }.

(** the ids of the process that runs: those qrexec has, or these (with the groups
    initgroups gives [name] and [gid]) *)
Inductive identity := Same | Becomes (uid gid : Z) (name : string).
Inductive ran :=
| Runs (who : identity) (path : string) (argv env : list string)
| NotRun (code : Z).
Definition as_user (who : identity) (r : exec_result) : ran :=
  match r with
  | Execve path argv env => Runs who path argv env
  | ExecExit code => NotRun code
  | ExecAbort => NotRun 134
  end.

(** basename(3), the GNU version: what follows the last slash *)
Definition basename (s : string) : string := last (split_all "/" s) "".

(** pam_putenv: the value replaces another one of the same name *)
Definition putenv (name value : string) (env : list string) : list string :=
  filter (fun e => negb (starts (name +++ "=") e)) env ++ [name +++ "=" +++ value].
(** snprintf to env_buf (64 bytes) and pam_putenv, 239-262; [None]: goto error *)
Definition ENV_BUF := 64.
Definition add_var (w : world) (name value : string) (env : option (list string)) : option (list string) :=
  match env with
  | None => None
  | Some env =>
      let e := name +++ "=" +++ value in
      if ENV_BUF <=? zlen e then None else if w_put w e then Some (putenv name value env) else None
  end.
Definition session_env (w : world) (a : account) : option (list string) :=
  add_var w "LOGNAME" (ac_name a)
    (add_var w "USER" (ac_name a)
      (add_var w "SHELL" (ac_shell a)
        (add_var w "HOME" (ac_dir a)
          (add_var w "QREXEC_AGENT_PID" (Agent.print_nat (S (w_ppid w)) (w_ppid w)) (Some (w_pamenv w)))))).

(** do_exec of qrexec-agent, 140-350 *)
Definition do_exec (w : world) (prog : option string) (cmd user : string) : ran :=
  if negb (w_euid w =? 0) then
    match w_self w with
    | None => NotRun 125
    | Some a =>
        if negb (String.eqb (ac_name a) user) then NotRun 125
        else match prog with
             | Some p => as_user Same (exec_qubes_rpc2 p cmd (w_environ w) false)
             | None => Runs Same "/bin/sh" ["sh"; "-c"; cmd] (w_environ w)
             end
    end
  else
    match w_accounts w user with
    | None => NotRun 125
    | Some a =>
        if negb (negb (String.eqb (ac_name a) "") && negb (String.eqb (ac_dir a) "") && ac_passwd a) then NotRun 125
        else if negb (w_auth w) then NotRun 125
        else if negb (w_groups w) then NotRun 125
        else if negb (w_cred w) then NotRun 125
        else if negb (w_session w) then NotRun 125
        else
          match session_env w a with
          | None => NotRun 125
          | Some env =>
              if negb (w_fork w) then NotRun 125
              else if negb (w_setgid w) then NotRun 125
              else if negb (w_setuid w) then NotRun 125
              else
                let who := Becomes (ac_uid a) (ac_gid a) (ac_name a) in
                match prog with
                | Some p => as_user who (exec_qubes_rpc2 p cmd env true)
                | None => Runs who (ac_shell a) ["-" +++ basename (ac_shell a); "-c"; cmd] env
                end
          end
    end.

(** the parent, 311-335: what its exit status is; [ended] is whether pam_end succeeds *)
Inductive waited := Exited (code : Z) | Signalled (signal : Z) | NotWaited.
Definition parent_status (st : waited) (ended : bool) : Z :=
  if negb ended then 125
  else match st with Exited z => z | Signalled n => n + 128 | NotWaited => 1 end.

(** getenv *)
Definition getenv (env : list string) (name : string) : option string :=
  match find (starts (name +++ "=")) env with
  | Some e => Some (sdrop (S (String.length name)) e)
  | None => None
  end.
(** do_exec of the fork server, fork-server.c 40-61: it runs as the user it belongs to *)
Definition fork_server_exec (environ : list string) (prog : option string) (cmd : string) : ran :=
  match prog with
  | Some p => as_user Same (exec_qubes_rpc2 p cmd environ false)
  | None =>
      let shell := match getenv environ "SHELL" with Some s => s | None => "/bin/sh" end in
      Runs Same shell [basename shell; "-c"; cmd] environ
  end.
(** do_exec of qrexec-daemon and qrexec-client *)
Definition dom0_exec (environ : list string) (prog : option string) (cmd : string) (user : option string) : ran :=
  match prog with
  | Some p => as_user Same (exec_qubes_rpc2 p cmd environ false)
  | None => Runs Same "/bin/bash" ["bash"; "-c"; cmd] environ
  end.
