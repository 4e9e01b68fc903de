(** Running a command: libqrexec/exec.c.

    C strings are Coq [string]s without NUL bytes; sizes are integers. Failures of
    malloc, calloc, strdup, asprintf and fork are not modelled. *)
From Coq Require Import String Ascii List Bool Arith ZArith.
From Verif Require Import Base Sanitize DaemonAgent.
Import ListNotations.
Open Scope string_scope.
Open Scope list_scope.
Open Scope Z_scope.

Definition zlen (s : string) : Z := Z.of_nat (String.length s).
(** limits.h *)
Definition NAME_MAX := 255.
(** libqrexec-utils.h 223 *)
Definition QUBES_SOCKADDR_UN_MAX_PATH_LEN := 1024.

(** ** parse_qubes_rpc_command, exec.c 534-634 *)

(** struct qrexec_parsed_command, libqrexec-utils.h: the fields set by the parser.
    [pc_descriptor], [pc_name] and [pc_source] are NULL together. *)
Record parsed_command := mkCmd {
  pc_username : option string;
  pc_command : string;
  pc_nogui : bool;
  pc_descriptor : option string;
  pc_name : option string;
  pc_arg : option string;
  pc_source : option string
}.

(** the part of the parser that handles the text after QUBESRPC and one space,
    exec.c 576-627: descriptor, name, argument, source domain *)
Definition parse_call (cmd : string) : option (string * string * option string * string) :=
  match split1 " " cmd with
  | None => None                                          (* no space found *)
  | Some (desc, rest) =>
      if zlen desc =? 0 then None                         (* end <= start *)
      else if zlen desc >? MAX_SERVICE_NAME_LEN then None
      else
        let plus := split1 "+" desc in
        let name := match plus with Some (n, _) => n | None => desc end in
        if zlen name >? NAME_MAX then None
        else if zlen name <? 1 then None
        else
          let descriptor := match plus with Some _ => desc | None => desc +++ "+" end in
          let arg := match plus with Some (_, a) => Some a | None => None end in
          let source := match split1 " " rest with Some (s, _) => s | None => rest end in
          if zlen source =? 0 then None
          else Some (descriptor, name, arg, source)
  end.

(** exec.c 534-634; [None] is NULL *)
Definition parse_qubes_rpc_command (cmdline : string) (strip_username : bool) : option parsed_command :=
  match (if strip_username then
           match split1 ":" cmdline with
           | None => None
           | Some (u, c) => Some (Some u, c)
           end
         else Some (None, cmdline)) with
  | None => None
  | Some (username, command) =>
      let nogui := starts "nogui:" command in
      let command := if nogui then sdrop 6 command else command in
      if starts "QUBESRPC" command then
        if negb (starts " " (sdrop 8 command)) then None
        else
          let command := sdrop 9 command in
          match parse_call command with
          | None => None
          | Some (d, n, a, s) => Some (mkCmd username command nogui (Some d) (Some n) a (Some s))
          end
      else Some (mkCmd username command nogui None None None None)
  end.

(** ** find_file, exec.c 357-448 *)

(** What stat(2) says about a path, and euidaccess(path, X_OK) for a file that is
    not a socket (a directory counts as such a file) *)
Inductive kind := KSocket | KFile (executable : bool).
Inductive stat_result := StatAbsent | StatError | StatOk (k : kind).
(** What lstat(2) says, for a symbolic link with what readlink(2) returns ([None]:
    an error) and what stat(2) says. The file system does not change during a
    search. *)
Inductive lstat_result :=
| LAbsent | LError | LFound (k : kind) | LLink (target : option string) (followed : stat_result).
Definition filesystem := string -> lstat_result.

(** the successive values of [path_start .. path_end], 382-385 and 437-439: empty
    components are skipped except at the very start *)
Definition search_dirs (path_list : string) : list string :=
  match path_list with
  | EmptyString => []
  | _ => match split_all ":" path_list with
         | [] => []
         | d :: ds => d :: filter (fun x => negb (String.eqb x "")) ds
         end
  end.

(** [FoundLink] is the case where buffer holds the target of a link to /dev/tcp and
    statbuf describes the link itself *)
Inductive find_result := Found (path : string) (k : kind) | FoundLink (target : string) | NotFound | FindError.

(** links to /dev/tcp are special, 405-407 *)
Definition tcp_target (t : string) : bool :=
  starts "/dev/tcp/" t || String.eqb t "/dev/tcp".

(** one iteration of the loop, [None] to go on with the next directory; [links] is
    whether statbuf is not NULL *)
Definition find_in (fs : filesystem) (dir name : string) (size : Z) (links : bool) : option find_result :=
  if zlen dir + zlen name + 1 >=? size then Some FindError
  else
    let path := dir +++ "/" +++ name in
    let followed s := match s with
                      | StatOk k => Some (Found path k)
                      | StatAbsent => None
                      | StatError => Some FindError
                      end in
    match fs path with
    | LFound k => Some (Found path k)
    | LAbsent => None
    | LError => Some FindError
    | LLink target s =>
        if links then
          match target with
          | None => Some FindError
          | Some t =>
              if tcp_target t then
                if zlen t >=? size then Some FindError
                else if zlen t =? 9 then Some FindError
                else Some (FoundLink t)
              else followed s
          end
        else followed s
    end.

Fixpoint find_loop (fs : filesystem) (dirs : list string) (name : string) (size : Z) (links : bool) : find_result :=
  match dirs with
  | [] => NotFound
  | d :: ds => match find_in fs d name size links with
               | Some r => r
               | None => find_loop fs ds name size links
               end
  end.

Definition find_file (fs : filesystem) (path_list name : string) (size : Z) (links : bool) : find_result :=
  if zlen name >? NAME_MAX then NotFound
  else find_loop fs (search_dirs path_list) name size links.

(** ** validate_port, exec.c 692-711; memcmp of five bytes is the byte order *)
Definition digit (c : ascii) : bool := between "0" "9" c.
Definition validate_port (port : string) : bool :=
  match port with
  | EmptyString => false
  | String c rest =>
      if negb (between "1" "9" c) then false
      else if negb (sforall digit rest) then false
      else if zlen port >? 5 then false
      else if zlen port <? 5 then true
      else str_leb port "65535"
  end.

(** ** find_qrexec_service, exec.c 766-920 *)

(** what is done to reach the service: connect to a local socket or to a TCP port,
    the data put in stdin_buffer first; run a program; return -1 or -2. The
    result of the connection attempt (-2 on failure) is up to the environment. *)
Inductive service :=
| ConnectSocket (path : string) (first : option string)
| ConnectTcp (host port : string) (first : option string)
| RunProgram (path : string)
| ServiceAbsent
| ServiceError.

(** strrchr(s, c): before and after the last occurrence *)
Definition split_last (c : ascii) (s : string) : option (string * string) :=
  match rev (split_all c s) with
  | [] => None
  | [_] => None
  | last :: front => Some (join (str1 c) (rev front), last)
  end.

(** the host and the port, 826-878; [target] is the link's target. [None]: -2 *)
Definition tcp_address (target : string) (arg : option string) : option (string * string) :=
  let address := sdrop 8 target in
  let no_arg := match arg with None => true | Some a => String.eqb a "" end in
  let argument := match arg with None => "" | Some a => a end in
  if starts "/" address then
    match split1 "/" (sdrop 1 address) with
    | Some (host, port) => if no_arg then Some (host, port) else None
    | None => if no_arg then None else Some (sdrop 1 address, argument)
    end
  else if no_arg then None
  else match split_last "+" argument with
       | None => None
       | Some (host, port) =>
           if has_char "_" host then None
           else Some (smap (fun c => if Ascii.eqb c "+" then ":"%char else c) host, port)
       end.

(** [sockets] is whether socket_fd is not NULL; [send] is send_service_descriptor *)
Definition find_qrexec_service (fs : filesystem) (service_path : string) (sockets send : bool)
    (descriptor name : string) (arg : option string) (command : string) : service :=
  let size := QUBES_SOCKADDR_UN_MAX_PATH_LEN in
  let first := if send then Some (command +++ str1 NUL) else None in
  let found := match find_file fs service_path descriptor size true with
               | NotFound => find_file fs service_path name size true
               | r => r
               end in
  match found with
  | NotFound => ServiceAbsent
  | FindError => ServiceError
  | Found path KSocket => if sockets then ConnectSocket path first else ServiceError
  | Found path (KFile x) => if x then RunProgram path else ServiceError
  | FoundLink target =>
      if sockets then
        match tcp_address target arg with
        | None => ServiceError
        | Some (host, port) => if validate_port port then ConnectTcp host port first else ServiceError
        end
      else ServiceError
  end.

(** ** exec_qubes_rpc2, exec.c 54-206 *)

(** should_strip_env_var, exec.c 54-61 *)
Definition should_strip_env_var (var : string) : bool :=
  if negb (starts "QREXEC" var) then false
  else
    let rest := sdrop 6 var in
    negb (starts "_SERVICE_PATH=" rest) && negb (starts "_AGENT_PID=" rest).

(** execve(path, argv, envp), or the exit code of the process, or abort() *)
Inductive exec_result :=
| Execve (path : string) (argv env : list string)
| ExecExit (code : Z)
| ExecAbort.

(** EXTEND and EXTEND_RAW, 83-95: [None] is abort() *)
Definition extend (cap : nat) (buf : option (list string)) (v : string) : option (list string) :=
  match buf with
  | None => None
  | Some l => if (cap <=? List.length l)%nat then None else Some (l ++ [v])
  end.

(** strtok_r(cmd, one space): the maximal runs of other characters *)
Definition tokens (cmd : string) : list string :=
  filter (fun x => negb (String.eqb x "")) (split_all " " cmd).

(** the shell script, 176-197 *)
Definition shell_script (is_keyword is_name has_arg nonempty_arg : bool) : string :=
  "set -e" +++ nl +++
  "unset QREXEC_SERVICE_FULL_NAME QREXEC_REMOTE_DOMAIN QREXEC_REQUESTED_TARGET_TYPE " +++
  "QREXEC_SERVICE_ARGUMENT QREXEC_REQUESTED_TARGET QREXEC_REQUESTED_TARGET_KEYWORD" +++ nl +++
  "export ""QREXEC_SERVICE_FULL_NAME=$2"" ""QREXEC_REMOTE_DOMAIN=$3"" QREXEC_REQUESTED_TARGET_TYPE=" +++
  (if is_keyword then "keyword QREXEC_REQUESTED_TARGET_KEYWORD=""$5"""
   else if is_name then "name QREXEC_REQUESTED_TARGET=""$5""" else "") +++ " " +++
  (if has_arg then """QREXEC_SERVICE_ARGUMENT=$4""" else "") +++ nl +++
  "exec ""$1"" " +++ (if nonempty_arg then """$4""" else "").

Definition exec_qubes_rpc2 (program cmd : string) (envp : list string) (use_shell : bool) : exec_result :=
  let cap := (5 + List.length envp)%nat in
  let buf := fold_left (fun b e => if should_strip_env_var e then b else extend cap b e) envp (Some []) in
  let toks := tokens cmd in
  if (9 <? List.length toks)%nat then ExecExit 125
  else if negb (starts "/" program) then ExecExit 125
  else
    let run full remote target :=
      let p := split1 "+" full in
      if negb use_shell then
        let b := match target with
                 | Some (ty, t) =>
                     let b := extend cap buf ("QREXEC_REQUESTED_TARGET_TYPE=" +++ ty) in
                     if String.eqb ty "name" then extend cap b ("QREXEC_REQUESTED_TARGET=" +++ t)
                     else if String.eqb ty "keyword" then extend cap b ("QREXEC_REQUESTED_TARGET_KEYWORD=" +++ t)
                     else b
                 | None => extend cap buf "QREXEC_REQUESTED_TARGET_TYPE="
                 end in
        let b := extend cap b ("QREXEC_SERVICE_FULL_NAME=" +++ full) in
        let b := extend cap b ("QREXEC_REMOTE_DOMAIN=" +++ remote) in
        let b := match p with Some (_, a) => extend cap b ("QREXEC_SERVICE_ARGUMENT=" +++ a) | None => b end in
        match b with
        | None => ExecAbort
        | Some env =>
            Execve program
              (program :: match p with
                          | Some (_, a) => if String.eqb a "" then [] else [a]
                          | None => []
                          end) env
        end
      else
        let is_name := match target with Some (ty, _) => String.eqb ty "name" | None => false end in
        let is_keyword := match target with Some (ty, _) => String.eqb ty "keyword" | None => false end in
        let arg := match p with Some (_, a) => a | None => "" end in
        let script := shell_script is_keyword is_name
                        (match p with Some _ => true | None => false end)
                        (negb (String.eqb arg "")) in
        match buf with
        | None => ExecAbort
        | Some env =>
            Execve "/bin/sh"
              (["/bin/sh"; "-lc"; script; "sh"; program; full; remote; arg]
                 ++ match target with Some (_, t) => [t] | None => [] end) env
        end in
    match toks with
    | [full; remote] => run full remote None
    | [full; remote; ty; t] => run full remote (Some (ty, t))
    | _ => ExecExit 125
    end.
