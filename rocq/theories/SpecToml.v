(** Specification vocabulary: service configuration files *)
From Coq Require Import String Ascii List Bool Arith ZArith.
From Verif Require Import Base Exec SpecExec SpecLookup Toml.
Import ListNotations.
Open Scope string_scope.
Open Scope list_scope.
Open Scope Z_scope.

Inductive blanks : string -> Prop :=
| bl_nil : blanks ""
| bl_space s : blanks s -> blanks (String " " s)
| bl_tab s : blanks s -> blanks (String TAB s).

Inductive setting := Yes | No | Number (n : Z) | Text (s : string).
(** how a value is written: no leading zeros, 64 bits, single quotes *)
Inductive value_text : string -> setting -> Prop :=
| vt_true : value_text "true" Yes
| vt_false : value_text "false" No
| vt_zero : value_text "0" (Number 0)
| vt_number s n : decimal s n -> n < 2 ^ 64 -> value_text s (Number n)
| vt_text s : lacks "'" s -> value_text ("'" +++ s +++ "'") (Text s).

Definition letter (c : ascii) : Prop :=
  (65 <= nat_of_ascii c <= 90 \/ 97 <= nat_of_ascii c <= 122)%nat.
Inductive key_char : ascii -> Prop :=
| kc_letter c : letter c -> key_char c
| kc_digit c d : digit_of c d -> key_char c
| kc_dot : key_char "."
| kc_dash : key_char "-"
| kc_under : key_char "_".
Inductive key_chars : string -> Prop :=
| kcs_nil : key_chars ""
| kcs_cons c s : key_char c -> key_chars s -> key_chars (String c s).
Inductive key_name : string -> Prop :=
| kn c s : letter c -> key_chars s -> key_name (String c s).

Definition comment (s : string) : Prop := begins "#" s.

(** what a line says: nothing, or the value of one key *)
Inductive config_line : string -> option (string * setting) -> Prop :=
| cl_empty : config_line "" None
| cl_comment s : comment s -> config_line s None
| cl_setting k b1 b2 vt v b3 tail :
    key_name k -> blanks b1 -> blanks b2 -> value_text vt v -> blanks b3 -> tail = "" \/ comment tail ->
    config_line (k +++ b1 +++ "=" +++ b2 +++ vt +++ b3 +++ tail) (Some (k, v)).

(** the lines of a file: each ends with LF or CR LF; at the end of the file LF may be
    missing, and a CR there is part of the line *)
Inductive file_lines : string -> list string -> Prop :=
| fl_end : file_lines "" []
| fl_last s : s <> "" -> lacks NL s -> file_lines s [s]
| fl_lf s rest ls : lacks NL s -> (forall r, s <> r +++ str1 CR) -> file_lines rest ls ->
    file_lines (s +++ str1 NL +++ rest) (s :: ls)
| fl_crlf s rest ls : lacks NL s -> file_lines rest ls ->
    file_lines (s +++ str1 CR +++ str1 NL +++ rest) (s :: ls).

Inductive says : list string -> list (string * setting) -> Prop :=
| sy_nil : says [] []
| sy_skip l ls es : config_line l None -> says ls es -> says (l :: ls) es
| sy_set l ls e es : config_line l (Some e) -> says ls es -> says (l :: ls) (e :: es).

(** the keys that mean something, and the values each may have *)
Inductive allowed : string -> setting -> Prop :=
| al_wait_yes : allowed "wait-for-session" Yes
| al_wait_no : allowed "wait-for-session" No
| al_wait_1 : allowed "wait-for-session" (Number 1)
| al_wait_0 : allowed "wait-for-session" (Number 0)
| al_client_yes : allowed "exit-on-client-eof" Yes
| al_client_no : allowed "exit-on-client-eof" No
| al_service_yes : allowed "exit-on-service-eof" Yes
| al_service_no : allowed "exit-on-service-eof" No
| al_skip_yes : allowed "skip-service-descriptor" Yes
| al_skip_no : allowed "skip-service-descriptor" No
| al_user u : allowed "force-user" (Text u).
Definition known : list string :=
  ["wait-for-session"; "exit-on-client-eof"; "exit-on-service-eof"; "skip-service-descriptor"; "force-user"].

(** a well-formed list of settings: each known key at most once, with a value that
    makes sense. Keys that are not known may be anything. *)
Definition well_formed (es : list (string * setting)) : Prop :=
  (forall k v, In (k, v) es -> In k known -> allowed k v) /\
  (forall a b k v v', es = a ++ (k, v) :: b -> In k known -> ~ In (k, v') (a ++ b)).

(** a file that says [es]. *)
Definition config_file (content : string) (es : list (string * setting)) : Prop :=
  lacks NUL content /\ exists ls, file_lines content ls /\ says ls es /\ well_formed es.

(** the settings in effect *)
Record settings := mkSettings {
  s_wait : bool;             (* wait for the session of the user *)
  s_user : option string;    (* run as this user *)
  s_descriptor : bool;       (* send the descriptor to a socket service *)
  s_service_eof : bool;      (* end the call when the service closes its output *)
  s_client_eof : bool        (* end the call when the client closes its input *)
}.
Record in_effect (es : list (string * setting)) (s : settings) : Prop := {
  ie_wait : s_wait s = true <-> In ("wait-for-session", Yes) es \/ In ("wait-for-session", Number 1) es;
  ie_user u : s_user s = Some u <-> In ("force-user", Text u) es;
  ie_descriptor : s_descriptor s = false <-> In ("skip-service-descriptor", Yes) es;
  ie_service_eof : s_service_eof s = true <-> In ("exit-on-service-eof", Yes) es;
  ie_client_eof : s_client_eof s = true <-> In ("exit-on-client-eof", Yes) es
}.

Definition to_settings (c : config) : settings :=
  mkSettings (cf_wait_for_session c) (cf_user c) (cf_send_service_descriptor c)
    (cf_exit_on_stdout_eof c) (cf_exit_on_stdin_eof c).

(** ** Which file: the first directory that has one named after the service with its
    argument, or else after the service. Links are followed. *)
Inductive has_file (fs : filesystem) (path : string) : Prop :=
| hf_file k : fs path = LFound k -> has_file fs path
| hf_link t k : fs path = LLink t (StatOk k) -> has_file fs path.
Inductive no_file (fs : filesystem) (path : string) : Prop :=
| nf_absent : fs path = LAbsent -> no_file fs path
| nf_dangling t : fs path = LLink t StatAbsent -> no_file fs path.
Definition no_config_named (fs : filesystem) (dirs : list string) (name : string) : Prop :=
  size name > 255 \/ forall d, In d dirs -> no_file fs (in_dir d name).
Definition first_config (fs : filesystem) (dirs : list string) (name path : string) : Prop :=
  size name <= 255 /\
  exists before d after, dirs = before ++ d :: after /\
    (forall d', In d' before -> no_file fs (in_dir d' name)) /\
    path = in_dir d name /\ has_file fs path.
Inductive config_for (fs : filesystem) (dirs : list string) (full name path : string) : Prop :=
| cg_exact : first_config fs dirs full path -> config_for fs dirs full name path
| cg_general : no_config_named fs dirs full -> first_config fs dirs name path -> config_for fs dirs full name path.

(** the settings of a call and the user it runs as *)
Inductive governed (fs : filesystem) (contents : string -> option string) (dirs : list string)
    (full name : string) (username : option string) : settings -> option string -> Prop :=
| gv_default : no_config_named fs dirs full -> no_config_named fs dirs name ->
    governed fs contents dirs full name username (mkSettings false None true false false) username
| gv_file p text es s : config_for fs dirs full name p -> contents p = Some text ->
    config_file text es -> in_effect es s -> s_user s = None ->
    governed fs contents dirs full name username s username
| gv_user p text es s u : config_for fs dirs full name p -> contents p = Some text ->
    config_file text es -> in_effect es s -> s_user s = Some u ->
    s_descriptor s = true -> s_client_eof s = false -> s_service_eof s = false ->
    governed fs contents dirs full name username s (Some u).
