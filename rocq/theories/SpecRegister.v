(** Independent specification of argument registration. *)
From Coq Require Import String Ascii List Bool Arith.
From Verif Require Import Base SysInfo Token Rule FileSys SpecPolicy SpecRule SpecLoader AdminLoad.
Import ListNotations.
Open Scope string_scope.
Open Scope list_scope.

(** the file with the registered arguments, and the directories of the policy *)
Definition etc_dir : path := ["etc"; "qubes"; "policy.d"].
Definition run_dir : path := ["run"; "qubes"; "policy.d"].
Definition reg_name : string := "60-registered-arguments.policy".
Definition reg_file : path := etc_dir ++ [reg_name].

(** what the caller sends: 1 to 64 letters, digits, minus, dot, underscore *)
Definition arg_letter (c : ascii) : Prop :=
  let n := nat_of_ascii c in
  (65 <= n <= 90 \/ 97 <= n <= 122 \/ 48 <= n <= 57)%nat \/ In c ["-"; "."; "_"]%char.
Definition good_argument (a : string) : Prop :=
  (1 <= String.length a <= 64)%nat /\ forall c, has_char c a = true -> arg_letter c.

(** the environment of the call: qube [backend] calls policy.RegisterArgument+[service]
    with the requested target [frontend] *)
Record reg_env (env : list (string * string)) (service frontend backend : string) : Prop := {
  re_backend : dget env "QREXEC_REMOTE_DOMAIN" = Some backend;
  re_frontend : dget env "QREXEC_REQUESTED_TARGET" = Some frontend;
  re_service : dget env "QREXEC_SERVICE_ARGUMENT" = Some service
}.

(** one word of letters, digits, plus, minus, dot, underscore *)
Definition plain_word (s : string) : Prop := s <> "" /\ service_chars s.

(** the rule to be added *)
Definition registered_rule (service argument frontend backend : string) : rule :=
  mkRule (Some service) (Some ("+" +++ argument)) (TName frontend) (TName backend)
    (Allow None None false true) "/etc/qubes/policy.d/60-registered-arguments.policy".
(** some rule is for exactly this service and argument *)
Definition already (rs : list rule) (service argument : string) : Prop :=
  exists r, In r rs /\ r_service r = Some service /\ r_arg r = Some ("+" +++ argument).

(** whole lines *)
Definition whole_lines (c : string) : Prop := c = "" \/ exists c', c = c' +++ nl.

(** [reads f base ls p]: loading the lines [ls], relative paths being relative to
    [base], comes to a line that makes the loader read the file [p] *)
Definition reads (f : fs) (base : path) (ls : list string) (p : path) : Prop :=
  exists x, reached (opens_at f base) (lists_at f base) ls x /\
   ((exists q, fields x ["!include"; q] /\ resolve base q = p) \/
    (exists q n, fields x ["!include-dir"; q] /\ resolve base q ++ [n] = p) \/
    (exists s a q, fields x ["!include-service"; s; a; q] /\
       (resolve base q = p \/
        exists ls' y q', file_lines f (resolve base q) ls' /\ service_reached (opens_at f base) ls' y /\
          includes y q' /\ resolve base q' = p))).
(** no policy file includes [p] *)
Definition not_included (f : fs) (p : path) : Prop :=
  forall d n ls, In d [run_dir; etc_dir] -> policy_file f d n -> file_lines f (d ++ [n]) ls -> ~ reads f d ls p.
