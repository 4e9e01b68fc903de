(** Local sockets: libqrexec/unix-server.c 31-66 (get_server_socket), libqrexec/exec.c 302-340
    (qubes_connect), agent/qrexec-agent.c 448-484 (the connection to a fork server),
    agent/qrexec-client-vm.c 51-71 (the connection to the agent), agent/qrexec-fork-server.c
    108-160 (main). The connection of dom0 programs to a daemon is in ExecuteVm.v. *)
From Coq Require Import String Ascii List Bool Arith ZArith.
From Verif Require Import Base Sanitize Exec.
From Verif Require Agent.
Import ListNotations.
Open Scope string_scope.
Open Scope list_scope.
Open Scope nat_scope.

(** ** Names in the file system *)
(** What there is under a name: a socket of the server [n] (that listens), a symbolic link, a
    directory or something else. Names are compared as texts: no links among the directories
    that lead to them. *)
Inductive node := Socket (n : nat) | Link (to : string) | Dir | Other.
Definition names := string -> option node.
Definition set (fs : names) (p : string) (x : option node) : names := fun q => if String.eqb q p then x else fs q.
(** the directory part of a name, with its slash *)
Fixpoint last_slash (s : string) : option nat :=
  match s with
  | "" => None
  | String c s' => match last_slash s' with
                   | Some n => Some (S n)
                   | None => if Ascii.eqb c "/" then Some 0 else None
                   end
  end.
Definition dir_of (p : string) : string := match last_slash p with Some n => stake (S n) p | None => "" end.
(** connect(2): which server is reached; a chain of links is followed as far as the kernel does *)
Fixpoint reaches (fuel : nat) (fs : names) (p : string) : option nat :=
  match fs p with
  | Some (Socket n) => Some n
  | Some (Link to) =>
      match fuel with
      | O => None
      | S fuel' => reaches fuel' fs (if starts "/" to then to else dir_of p +++ to)
      end
  | _ => None
  end.
Definition MAX_LINKS := 40.
Definition SUN_PATH := 108.

(** ** unix-server.c 31-66: [n] starts to serve; None: exit(1). [ok]: socket, bind and listen
    work, provided that there is nothing under the name. unlink does nothing to directories. *)
Definition unlink (fs : names) (p : string) : names := match fs p with Some Dir => fs | _ => set fs p None end.
Definition get_server_socket (ok : bool) (fs : names) (n : nat) (path : string) : option names :=
  let fs1 := unlink fs path in
  let address := stake (SUN_PATH - 1) path in
  match fs1 address with
  | Some _ => None
  | None => if ok then Some (set fs1 address (Some (Socket n))) else None
  end.

(** ** exec.c 302-340 *)
(** What the system does: the name of the new directory (mkdtemp), whether symlink works, and
    the errors before the last answer of connect; [true] those after which it is tried again
    (EINTR, EAGAIN) *)
Record attempt := mkAttempt { t_tmp : option string; t_symlink : bool; t_errors : list bool }.
(** 328-330: the answer comes when no further error does; an error of the other kind ends it *)
Fixpoint connect_loop (errors : list bool) (answer : option nat) : option nat :=
  match errors with
  | [] => answer
  | true :: errors' => connect_loop errors' answer
  | false :: _ => None
  end.
(** the server reached, and the states of the file system one after the other *)
Definition qubes_connect (t : attempt) (fs : names) (path : string) : option nat * list names :=
  if SUN_PATH <=? String.length path then
    match t_tmp t with
    | None => (None, [fs])
    | Some d =>
        let link := d +++ "/qrexec-socket" in
        let fs1 := set fs d (Some Dir) in
        if t_symlink t then
          let fs2 := set fs1 link (Some (Link path)) in
          (connect_loop (t_errors t) (reaches MAX_LINKS fs2 link), [fs; fs1; fs2; set fs2 link None; set (set fs2 link None) d None])
        else (None, [fs; fs1; set fs1 link None; set (set fs1 link None) d None])
    end
  else (connect_loop (t_errors t) (reaches MAX_LINKS fs path), [fs]).

(** ** qrexec-client-vm.c 51-71: the address. [garbage]: what is in the memory that is not
    written, from the last byte of sun_path on *)
Definition trigger_address (garbage : string) (path : string) : option string :=
  let a := if String.length path <? SUN_PATH - 1 then path else stake (SUN_PATH - 1) path +++ cstr garbage in
  if SUN_PATH <? String.length a then None else Some a.

(** ** Fork servers *)
(** qrexec-agent.h 28 *)
Definition fork_server_path (user : string) : string := "/var/run/qubes/qrexec-server." +++ user +++ ".sock".
(** qrexec-agent.c 464-479: the address *)
Definition fork_server_address (user : string) : string := stake (SUN_PATH - 1) (fork_server_path user).
(** qrexec-fork-server.c 117-128: the name of the socket; printf writes (null) for a null
    pointer. None: exit(1) *)
Definition fork_server_socket (args : list string) (user : option string) : option string :=
  match args with
  | [] => Some (fork_server_path (match user with Some u => u | None => "(null)" end))
  | [p] => Some p
  | _ => None
  end.
(** 143-158: the commands run, one for each connection whose header and command line can be
    read. [Gone]: accept fails, and the socket is removed. None: it goes on waiting. *)
Inductive arrival := Came (info_len : Z) (data : string) | Cut | Gone.
Fixpoint serve (arrivals : list arrival) : list (option parsed_command) * bool :=
  match arrivals with
  | [] => ([], false)
  | Gone :: _ => ([], true)
  | Cut :: l => let r := serve l in (None :: fst r, snd r)
  | Came len data :: l => let r := serve l in (Agent.fork_server_command len data :: fst r, snd r)
  end.
(** what happens to the sockets: a user starts a server, with or without success of the system
    calls, or a server of the user ends (158) *)
Inductive happens := Starts (ok : bool) (n : nat) (user : string) | Ends (user : string).
Definition step (fs : names) (e : happens) : names :=
  match e with
  | Starts ok n u =>
      match get_server_socket ok fs n (fork_server_path u) with
      | Some fs' => fs'
      | None => unlink fs (fork_server_path u)
      end
  | Ends u => unlink fs (fork_server_path u)
  end.
Definition after (fs : names) (es : list happens) : names := fold_left step es fs.
