(** What qubes-policy-lint is for: which lines of a policy file are right in themselves, whatever
    the files are that they include. *)
From Coq Require Import String Ascii List Bool Arith.
From Verif Require Import Base SysInfo Token Rule FileSys SpecPolicy SpecRule SpecLoader.
Import ListNotations.
Open Scope string_scope.
Open Scope list_scope.

(** Line number [n], counted from 1 *)
Definition line_no (text : string) (n : nat) (l : string) : Prop :=
  exists k, n = S k /\ nth_error (lines_univ text) k = Some l.

(** A line of a policy file *)
Inductive fine_line (l : string) : Prop :=
| fl_inert : inert l -> fine_line l
| fl_rule ws r : ~ inert l -> ~ directive l -> fields l ws -> rule_fields "" ws r -> fine_line l
| fl_include p : fields l ["!include"; p] -> fine_line l
| fl_include_dir p : fields l ["!include-dir"; p] -> fine_line l
| fl_include_service s a p sv ar :
    fields l ["!include-service"; s; a; p] -> service_arg s a sv ar -> fine_line l
| fl_compat : fields l ["!compat-4.0"] -> fine_line l.

(** A line of a file included with !include-service: the service and the argument come from
    elsewhere *)
Inductive fine_service_line (l : string) : Prop :=
| fs_inert : inert l -> fine_service_line l
| fs_rule b l1 l2 src tgt act ps r :
    l = b +++ l1 -> blanks b -> begins l1 -> starts "#" l1 = false ->
    legacy_spelling l1 l2 -> starts "!" l2 = false -> fields l2 (src :: tgt :: act :: ps) ->
    rule_fields "" ("*" :: "*" :: src :: tgt :: act :: ps) r -> fine_service_line l
| fs_include b l1 l2 p :
    l = b +++ l1 -> blanks b -> begins l1 ->
    legacy_spelling l1 l2 -> starts "!" l2 = true -> fields l2 ["!include"; p] -> fine_service_line l.

(** The path of an inclusion as it is usually written: a file in the directory, or in include/ *)
Definition plain_path (p : string) : Prop :=
  (has_char "/" p = false /\ p <> ".") \/
  exists n, p = "include/" +++ n /\ has_char "/" n = false /\ n <> "" /\ n <> ".".
(** a line that includes [p] *)
Definition includes (l p : string) : Prop :=
  fields l ["!include"; p] \/ exists s a, fields l ["!include-service"; s; a; p].

(** the same in a file included with !include-service, where the old spelling is understood *)
Definition service_includes (l p : string) : Prop :=
  exists b l1 l2, l = b +++ l1 /\ blanks b /\ begins l1 /\ legacy_spelling l1 l2 /\ starts "!" l2 = true /\ fields l2 ["!include"; p].

(** ** What a policy file includes can be loaded *)
Definition includes_load (opens : string -> string -> list string -> Prop)
    (lists : string -> list (string * list string) -> Prop) (legacy : list rule -> Prop) (l : string) : Prop :=
  (forall p, fields l ["!include"; p] -> exists file ls rs, opens p file ls /\ text_rules opens lists legacy file ls rs) /\
  (forall p, fields l ["!include-dir"; p] -> exists files rs, lists p files /\ files_rules opens lists legacy files rs) /\
  (forall s a p sv ar, fields l ["!include-service"; s; a; p] -> service_arg s a sv ar ->
     exists file ls rs, opens p file ls /\ service_rules opens sv ar file ls rs) /\
  (fields l ["!compat-4.0"] -> exists rs, legacy rs).
Definition service_includes_load (opens : string -> string -> list string -> Prop) (sv ar : option string) (l : string) : Prop :=
  forall p, service_includes l p -> exists file ls rs, opens p file ls /\ service_rules opens sv ar file ls rs.
