(** Specification vocabulary: command lines, service lookup, environment of services *)
From Coq Require Import String Ascii List Bool Arith ZArith.
From Verif Require Import Base.
Import ListNotations.
Open Scope string_scope.
Open Scope list_scope.
Open Scope Z_scope.

Definition size (s : string) : Z := Z.of_nat (String.length s).
Definition lacks (c : ascii) (s : string) : Prop := has_char c s = false.
Definition begins (p s : string) : Prop := exists r, s = p +++ r.

(** ** Command lines: [user:][nogui:]command, where the command is a service call
    if it starts with QUBESRPC *)
Inductive user_part : bool -> string -> option string -> string -> Prop :=
| up_none s : user_part false s None s
| up_user u s : lacks ":" u -> user_part true (u +++ ":" +++ s) (Some u) s.
Inductive gui_part : string -> bool -> string -> Prop :=
| gp_without s : gui_part ("nogui:" +++ s) true s
| gp_with s : ~ begins "nogui:" s -> gui_part s false s.

(** [service_part desc name arg full]: a service descriptor, the parts of it, and
    the descriptor used from then on, which always has a + *)
Inductive service_part : string -> string -> option string -> string -> Prop :=
| sp_plain name : lacks "+" name -> service_part name name None (name +++ "+")
| sp_arg name arg : lacks "+" name -> service_part (name +++ "+" +++ arg) name (Some arg) (name +++ "+" +++ arg).

(** what a word is followed by *)
Definition end_of_word (s : string) : Prop := s = "" \/ begins " " s.

Record call := mkCall { c_full : string; c_name : string; c_arg : option string; c_source : string }.

Inductive call_text : string -> call -> Prop :=
| ct desc name arg full source rest :
    service_part desc name arg full -> lacks " " desc -> size desc <= 65000 -> 1 <= size name <= 255 ->
    lacks " " source -> source <> "" -> end_of_word rest ->
    call_text (desc +++ " " +++ source +++ rest) (mkCall full name arg source).

(** [line_means strip line user nogui command c]: what [line] says; [c] is the
    service call, if it is one *)
Inductive line_means (strip : bool) (line : string) (user : option string) (nogui : bool) : string -> option call -> Prop :=
| lm_call rest text c :
    user_part strip line user rest -> gui_part rest nogui ("QUBESRPC " +++ text) -> call_text text c ->
    line_means strip line user nogui text (Some c)
| lm_plain rest text :
    user_part strip line user rest -> gui_part rest nogui text -> ~ begins "QUBESRPC" text ->
    line_means strip line user nogui text None.

(** ** Port numbers: [decimal s n] is the canonical decimal representation of a
    positive number *)
Inductive digit_of : ascii -> Z -> Prop :=
| dg c : 48 <= Z.of_nat (nat_of_ascii c) <= 57 -> digit_of c (Z.of_nat (nat_of_ascii c) - 48).
Inductive decimal : string -> Z -> Prop :=
| dec_first c d : digit_of c d -> d <> 0 -> decimal (str1 c) d
| dec_next s n c d : decimal s n -> digit_of c d -> decimal (s +++ str1 c) (10 * n + d).

(** ** Environment: a list of name=value entries *)
Definition is_var (name entry : string) : Prop := begins (name +++ "=") entry.
(** [value env name v]: [name] has value [v] and no other; [None]: it is not set *)
Definition value (env : list string) (name : string) (v : option string) : Prop :=
  match v with
  | Some x => In (name +++ "=" +++ x) env /\
              forall e, In e env -> is_var name e -> e = name +++ "=" +++ x
  | None => forall e, In e env -> ~ is_var name e
  end.
(** the variables reserved for qrexec *)
Definition reserved (e : string) : Prop :=
  begins "QREXEC" e /\ ~ is_var "QREXEC_SERVICE_PATH" e /\ ~ is_var "QREXEC_AGENT_PID" e.
Definition reserved_names : list string :=
  ["QREXEC_SERVICE_FULL_NAME"; "QREXEC_REMOTE_DOMAIN"; "QREXEC_REQUESTED_TARGET_TYPE";
   "QREXEC_SERVICE_ARGUMENT"; "QREXEC_REQUESTED_TARGET"; "QREXEC_REQUESTED_TARGET_KEYWORD"].

Inductive argument_of : string -> option string -> Prop :=
| ao_none full : lacks "+" full -> argument_of full None
| ao_some n a : lacks "+" n -> argument_of (n +++ "+" +++ a) (Some a).

(** how the caller named the target *)
Inductive asked := AskedNothing | AskedName (t : string) | AskedKeyword (t : string).

Record call_env (env : list string) (full remote : string) (arg : option string) (a : asked) : Prop := {
  ce_full : value env "QREXEC_SERVICE_FULL_NAME" (Some full);
  ce_remote : value env "QREXEC_REMOTE_DOMAIN" (Some remote);
  ce_arg : value env "QREXEC_SERVICE_ARGUMENT" arg;
  ce_type : value env "QREXEC_REQUESTED_TARGET_TYPE"
    (Some match a with AskedNothing => "" | AskedName _ => "name" | AskedKeyword _ => "keyword" end);
  ce_target : value env "QREXEC_REQUESTED_TARGET" (match a with AskedName t => Some t | _ => None end);
  ce_keyword : value env "QREXEC_REQUESTED_TARGET_KEYWORD" (match a with AskedKeyword t => Some t | _ => None end)
}.

(** the words of a command line, separated by spaces *)
Definition blanks (s : string) : Prop := forall c, has_char c s = true -> c = " "%char.
Inductive words : string -> list string -> Prop :=
| w_nil s : blanks s -> words s []
| w_cons b w s l : blanks b -> w <> "" -> lacks " " w -> end_of_word s -> words s l ->
    words (b +++ w +++ s) (w :: l).

Inductive call_words : string -> string -> string -> asked -> Prop :=
| cw_none cmd full remote : words cmd [full; remote] -> call_words cmd full remote AskedNothing
| cw_name cmd full remote t : words cmd [full; remote; "name"; t] -> call_words cmd full remote (AskedName t)
| cw_keyword cmd full remote t : words cmd [full; remote; "keyword"; t] -> call_words cmd full remote (AskedKeyword t).

(** program arguments of a service: its argument, unless empty *)
Definition service_args (arg : option string) : list string :=
  match arg with Some a => if String.eqb a "" then [] else [a] | None => [] end.

(** ** A fragment of the POSIX shell: commands on one line each, words separated
    by spaces, double-quoted text with the positional parameters $1 to $9, and
    the commands set -e, unset, export and exec. Anything else is outside the
    fragment ([None]). *)
Fixpoint sh_words (args : list string) (quoted : bool) (word : option string) (s : string)
  : option (list string) :=
  match s with
  | EmptyString =>
      if quoted then None else Some match word with None => [] | Some w => [w] end
  | String c s' =>
      if quoted then
        if Ascii.eqb c """" then sh_words args false word s'
        else if Ascii.eqb c "$" then
          match s' with
          | String d s'' =>
              let n := (nat_of_ascii d - 48)%nat in
              if (1 <=? n)%nat && (n <=? 9)%nat
              then sh_words args true (option_map (fun w => w +++ nth (n - 1) args "") word) s''
              else None
          | EmptyString => None
          end
        else if has_char c "`\" then None
        else sh_words args true (option_map (fun w => w +++ str1 c) word) s'
      else if Ascii.eqb c " " then
        match word with
        | None => sh_words args false None s'
        | Some w => match sh_words args false None s' with Some l => Some (w :: l) | None => None end
        end
      else if Ascii.eqb c """" then
        sh_words args true (match word with None => Some "" | w => w end) s'
      else if has_char c "$`\'|&;<>()*?[#~%{}!" then None
      else sh_words args false (Some (match word with None => "" | Some w => w end +++ str1 c)) s'
  end.

Definition entry_of (name entry : string) : bool := starts (name +++ "=") entry.
Definition sh_unset (names env : list string) : list string :=
  filter (fun e => negb (existsb (fun n => entry_of n e) names)) env.
(** export name=value *)
Definition sh_export (env : list string) (assignment : string) : list string :=
  match split1 "=" assignment with
  | Some (n, _) => sh_unset [n] env ++ [assignment]
  | None => env
  end.
(** what exec finally runs, with which environment *)
Fixpoint sh_run (args : list string) (lines env : list string) : option (string * list string * list string) :=
  match lines with
  | [] => None
  | line :: rest =>
      match sh_words args false None line with
      | Some (cmd :: params) =>
          if String.eqb cmd "set" then sh_run args rest env
          else if String.eqb cmd "unset" then sh_run args rest (sh_unset params env)
          else if String.eqb cmd "export" then sh_run args rest (fold_left sh_export params env)
          else if String.eqb cmd "exec" then
            match params with p :: l => Some (p, p :: l, env) | [] => None end
          else None
      | _ => None
      end
  end.
(** sh -lc script name arg1 arg2 ... ; [env] is the environment after the login
    profile has run *)
Definition sh_login (argv env : list string) : option (string * list string * list string) :=
  match argv with
  | sh :: "-lc" :: script :: _ :: args => sh_run args (split_all NL script) env
  | _ => None
  end.

(** [without P l l']: [l'] is [l] without the elements satisfying [P] *)
Inductive without {A} (P : A -> Prop) : list A -> list A -> Prop :=
| wo_nil : without P [] []
| wo_drop x l l' : P x -> without P l l' -> without P (x :: l) l'
| wo_keep x l l' : ~ P x -> without P l l' -> without P (x :: l) (x :: l').
