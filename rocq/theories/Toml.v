(** Per-service configuration files: libqrexec/toml.c and the functions of
    libqrexec/exec.c that use it.

    A file's contents is a string of bytes, possibly with NUL bytes. Failures of
    malloc and read errors are not modelled; messages are left out. *)
From Coq Require Import String Ascii List Bool Arith ZArith.
From Verif Require Import Base Sanitize DaemonAgent Exec.
Import ListNotations.
Open Scope string_scope.
Open Scope list_scope.
Open Scope Z_scope.

(** qubes_isspace, toml.c 13-15 *)
Definition qubes_isspace (c : ascii) : bool := Ascii.eqb c " " || Ascii.eqb c TAB.
(** the loops that move past blanks, 108-110, 278-279 and 284-286 *)
Fixpoint skip_space (s : string) : string :=
  match s with
  | EmptyString => EmptyString
  | String c s' => if qubes_isspace c then skip_space s' else s
  end.
(** the longest prefix of characters in a class, and the rest *)
Fixpoint span (p : ascii -> bool) (s : string) : string * string :=
  match s with
  | EmptyString => (EmptyString, EmptyString)
  | String c s' => if p c then let (a, b) := span p s' in (String c a, b) else (EmptyString, s)
  end.

(** ** parse_toml_value, toml.c 30-119; [None] is TOML_TYPE_INVALID *)
Inductive toml_value := TBool (b : bool) | TInt (n : Z) | TStr (s : string).

(** strtoull(s, &end, 10) where s starts with a digit: all the digits are used;
    errno is ERANGE if the number exceeds ULLONG_MAX *)
Definition ULLONG_MAX := 18446744073709551615.
Fixpoint digits_value (s : string) (acc : Z) : Z :=
  match s with
  | EmptyString => acc
  | String c s' => digits_value s' (10 * acc + (Z.of_nat (nat_of_ascii c) - 48))
  end.

(** the switch, 39-107: the value and what follows it *)
Definition toml_value_start (v : string) : option (toml_value * string) :=
  match v with
  | EmptyString => None                                   (* the terminating NUL: default *)
  | String c rest =>
      if Ascii.eqb c "0" then Some (TInt 0, rest)
      else if between "1" "9" c then
        let (ds, e) := span digit v in
        if digits_value ds 0 >? ULLONG_MAX then None else Some (TInt (digits_value ds 0), e)
      else if Ascii.eqb c "t" then
        if starts "true" v then Some (TBool true, sdrop 4 v) else None
      else if Ascii.eqb c "f" then
        if starts "false" v then Some (TBool false, sdrop 5 v) else None
      else if Ascii.eqb c "'" then
        if starts "''" rest then None                     (* triple quotes *)
        else match split1 "'" rest with
             | None => None
             | Some (s, e) => Some (TStr s, e)
             end
      else None                                           (* double quotes, default *)
  end.

Definition parse_toml_value (v : string) : option toml_value :=
  match toml_value_start v with
  | None => None
  | Some (t, e) =>
      let e := skip_space e in
      if String.eqb e "" || starts "#" e then Some t else None
  end.

(** ** qubes_toml_config_parse, toml.c 174-323 *)

(** qubes_is_key_byte, 121-133 *)
Definition qubes_is_key_byte (c : ascii) : bool :=
  between "0" "9" c || between "A" "Z" c || between "a" "z" c ||
  Ascii.eqb c "." || Ascii.eqb c "-" || Ascii.eqb c "_".

(** getline, 209: the lines without their newline, and whether there was one *)
Fixpoint get_lines (s cur : string) : list (string * bool) :=
  match s with
  | EmptyString => match cur with EmptyString => [] | _ => [(cur, false)] end
  | String c s' =>
      if Ascii.eqb c NL then (cur, true) :: get_lines s' EmptyString
      else get_lines s' (cur +++ str1 c)
  end.

(** a carriage return before the newline is dropped, 229-232 *)
Fixpoint drop_cr (s : string) : string :=
  match s with
  | EmptyString => EmptyString
  | String c EmptyString => if Ascii.eqb c CR then EmptyString else s
  | String c s' => String c (drop_cr s')
  end.
(** trailing blanks are dropped, 238-241, but not the first character of the line:
    [chop_tail] drops trailing blanks from what follows it *)
Fixpoint chop_tail (s : string) : string :=
  match s with
  | EmptyString => EmptyString
  | String c s' =>
      match chop_tail s' with
      | EmptyString => if qubes_isspace c then EmptyString else str1 c
      | r => String c r
      end
  end.
Definition chop_blanks (s : string) : string :=
  match s with
  | EmptyString => EmptyString
  | String c s' => String c (chop_tail s')
  end.

(** what a line is, 242-291: to be skipped, an error, or a key with its value *)
Inductive toml_line := LineSkip | LineBad | LineKey (key : string) (v : toml_value).

Definition parse_line (line : string) : toml_line :=
  match line with
  | EmptyString => LineSkip
  | String c rest =>
      if Ascii.eqb c "#" then LineSkip
      else if between "a" "z" c || between "A" "Z" c then
        let (k, after) := span qubes_is_key_byte rest in
        match skip_space after with
        | String "=" v =>
            match parse_toml_value (skip_space v) with
            | None => LineBad
            | Some v => LineKey (String c k) v
            end
        | _ => LineBad
        end
      else LineBad
  end.

(** the fields of struct qrexec_parsed_command set here, and tmp_user of
    load_service_config_v2. 471-474 of exec.c: exit-on-service-eof is
    exit_on_stdout_eof and exit-on-client-eof is exit_on_stdin_eof. *)
Record config := mkConfig {
  cf_wait_for_session : bool;
  cf_user : option string;
  cf_send_service_descriptor : bool;
  cf_exit_on_stdout_eof : bool;
  cf_exit_on_stdin_eof : bool
}.

(** one key, 293-316; [seen] are the known keys seen before (five booleans in the
    code); [None]: goto bad *)
Definition toml_key (key : string) (v : toml_value) (st : config * list string) : option (config * list string) :=
  let (cf, seen) := st in
  let dup := existsb (String.eqb key) seen in
  if String.eqb key "wait-for-session" then
    if dup then None
    else match v with
         | TInt n =>
             if n <? 2 then
               Some (mkConfig (negb (n =? 0)) (cf_user cf) (cf_send_service_descriptor cf)
                       (cf_exit_on_stdout_eof cf) (cf_exit_on_stdin_eof cf), key :: seen)
             else None
         | TBool b =>
             Some (mkConfig b (cf_user cf) (cf_send_service_descriptor cf)
                     (cf_exit_on_stdout_eof cf) (cf_exit_on_stdin_eof cf), key :: seen)
         | TStr _ => None
         end
  else if String.eqb key "exit-on-client-eof" then
    if dup then None
    else match v with
         | TBool b =>
             Some (mkConfig (cf_wait_for_session cf) (cf_user cf) (cf_send_service_descriptor cf)
                     (cf_exit_on_stdout_eof cf) b, key :: seen)
         | _ => None
         end
  else if String.eqb key "exit-on-service-eof" then
    if dup then None
    else match v with
         | TBool b =>
             Some (mkConfig (cf_wait_for_session cf) (cf_user cf) (cf_send_service_descriptor cf)
                     b (cf_exit_on_stdin_eof cf), key :: seen)
         | _ => None
         end
  else if String.eqb key "skip-service-descriptor" then
    if dup then None
    else match v with
         | TBool b =>
             Some (mkConfig (cf_wait_for_session cf) (cf_user cf) (negb b)
                     (cf_exit_on_stdout_eof cf) (cf_exit_on_stdin_eof cf), key :: seen)
         | _ => None
         end
  else if String.eqb key "force-user" then
    if dup then None
    else match v with
         | TStr u =>
             Some (mkConfig (cf_wait_for_session cf) (Some u) (cf_send_service_descriptor cf)
                     (cf_exit_on_stdout_eof cf) (cf_exit_on_stdin_eof cf), key :: seen)
         | _ => None
         end
  else Some (cf, seen).                                   (* unsupported: a message *)

(** the loop, 209-317; strlen differs from the length of the line if it has a NUL
    byte *)
Fixpoint toml_loop (lines : list (string * bool)) (st : config * list string) : option config :=
  match lines with
  | [] => Some (fst st)
  | (l, newline) :: rest =>
      if has_char NUL l then None
      else
        match parse_line (chop_blanks (if newline then drop_cr l else l)) with
        | LineSkip => toml_loop rest st
        | LineBad => None
        | LineKey k v => match toml_key k v st with
                         | None => None
                         | Some st' => toml_loop rest st'
                         end
        end
  end.

(** [None]: -1. [cf0] is what the variables hold before the call; 198-199. *)
Definition qubes_toml_config_parse (content : string) (cf0 : config) : option config :=
  toml_loop (get_lines content EmptyString)
    (mkConfig false (cf_user cf0) true (cf_exit_on_stdout_eof cf0) (cf_exit_on_stdin_eof cf0), []).

(** ** exec.c 453-522 *)

(** what parse_qubes_rpc_command leaves in a command (calloc, and 543) and NULL *)
Definition no_config : config := mkConfig false None true false false.

(** load_service_config_raw, 453-475; [contents path] is what fopen and getline give,
    [None] if fopen fails; the result is [None] if it is negative *)
Definition load_service_config_raw (fs : filesystem) (contents : string -> option string)
    (config_path descriptor name : string) : option config :=
  let size := QUBES_SOCKADDR_UN_MAX_PATH_LEN in
  let ret := match find_file fs config_path descriptor size false with
             | NotFound => find_file fs config_path name size false
             | r => r
             end in
  match ret with
  | NotFound => Some no_config
  | Found path _ | FoundLink path =>
      match contents path with
      | None => None
      | Some text => qubes_toml_config_parse text no_config
      end
  | FindError => None
  end.

(** load_service_config_v2, 484-508; the user is [cf_user] if it is set, else the
    one in the command *)
Definition load_service_config_v2 (fs : filesystem) (contents : string -> option string)
    (config_path descriptor name : string) (username : option string) : option (config * option string) :=
  match load_service_config_raw fs contents config_path descriptor name with
  | None => None
  | Some cf =>
      match cf_user cf with
      | None => Some (cf, username)
      | Some u =>
          if negb (cf_send_service_descriptor cf) then None
          else if cf_exit_on_stdin_eof cf then None
          else if cf_exit_on_stdout_eof cf then None
          else Some (cf, Some u)
      end
  end.

(** qrexec_cmd_use_fork_server, 477-482, for a command that is not NULL *)
Definition qrexec_cmd_use_fork_server (nogui : bool) (cf : config) : bool :=
  negb nogui && cf_send_service_descriptor cf && negb (cf_exit_on_stdin_eof cf) &&
  negb (cf_exit_on_stdout_eof cf).
