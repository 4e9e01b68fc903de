(** Independent specification of policy loading: which files make up a policy,
    and which rules a file denotes. It is relational and uses the data types of
    the model, the specification of a rule line (SpecRule) and the path and
    text primitives (lines of a text, resolution of a relative path). *)
From Coq Require Import String Ascii List Bool Arith Sorting.
From Verif Require Import Base SysInfo Token Rule SpecPolicy SpecRule FileSys.
Import ListNotations.
Open Scope string_scope.
Open Scope list_scope.

(** ** Files *)

(** a file system has at most one object at a path *)
Definition wf_fs (f : fs) : Prop := NoDup (map fst f).
(** a regular file named something.policy, not hidden *)
Definition policy_name (n : string) : Prop :=
  exists stem, n = stem +++ ".policy" /\ stem <> "" /\ starts "." n = false.
Definition entry (f : fs) (d : path) (n : string) : Prop := In n (listing f d).
Definition regular (f : fs) (p : path) : Prop := exists c, fget f p = Some (NFile c).
Definition policy_file (f : fs) (d : path) (n : string) : Prop :=
  entry f d n /\ policy_name n /\ regular f (d ++ [n]).

(** lower case letters, digits, underscore, dot, minus *)
Definition filename_letter (c : ascii) : Prop :=
  let n := nat_of_ascii c in
  (97 <= n <= 122 \/ 48 <= n <= 57)%nat \/ In c ["_"; "."; "-"]%char.
Definition plain_filename (s : string) : Prop := forall c, has_char c s = true -> filename_letter c.

(** byte order *)
Inductive lt_bytes : string -> string -> Prop :=
| lb_end c s : lt_bytes "" (String c s)
| lb_char a b s t : (nat_of_ascii a < nat_of_ascii b)%nat -> lt_bytes (String a s) (String b t)
| lb_eq a s t : lt_bytes s t -> lt_bytes (String a s) (String a t).

(** [policy_dir f d l]: [l] are the policy files of directory [d] in order *)
Definition policy_dir (f : fs) (d : path) (l : list string) : Prop :=
  fget f d = Some NDir /\
  StronglySorted lt_bytes l /\
  (forall n, In n l <-> policy_file f d n) /\
  (forall n, In n l -> plain_filename n).

(** [chosen f dirs sel]: the files that make up the policy of [dirs]: of the
    files with one name, the one of the first directory that has it *)
Definition chosen (f : fs) (dirs : list path) (sel : list (path * string)) : Prop :=
  (forall d, In d dirs -> fget f d = Some NDir) /\
  (forall d n, In d dirs -> policy_file f d n -> plain_filename n) /\
  StronglySorted (fun x y => lt_bytes (snd x) (snd y)) sel /\
  (forall d n, In (d, n) sel <->
     exists before after, dirs = before ++ d :: after /\ policy_file f d n /\
       forall d', In d' before -> ~ policy_file f d' n).

(** [file_lines f p ls]: [p] is a readable text file with lines [ls] *)
Definition file_lines (f : fs) (p : path) (ls : list string) : Prop :=
  exists c, fget f p = Some (NFile (Some c)) /\ utf8_valid c = true /\ ls = lines_univ c.

(** ** Lines *)

Definition blanks (b : string) : Prop := sforall is_space b = true.
(** nothing but blanks, or a comment *)
Inductive inert : string -> Prop :=
| in_blank b : blanks b -> inert b
| in_comment b s : blanks b -> inert (b +++ "#" +++ s).
(** the line starts with an exclamation mark, blanks aside *)
Definition directive (l : string) : Prop := exists b s, blanks b /\ l = b +++ "!" +++ s.

(** starts with a character that is no blank *)
Definition begins (l : string) : Prop := exists c s, l = String c s /\ is_space c = false.

(** legacy spelling, one left-to-right pass *)
Inductive legacy_spelling : string -> string -> Prop :=
| ls_end : legacy_spelling "" ""
| ls_include s t : legacy_spelling s t -> legacy_spelling ("$include:" +++ s) ("!include " +++ t)
| ls_dollar s t : (forall r, String "$" s <> "$include:" +++ r) -> legacy_spelling s t ->
    legacy_spelling (String "$" s) (String "@" t)
| ls_comma s t : legacy_spelling s t -> legacy_spelling (String "," s) (String " " t)
| ls_char c s t : c <> "$"%char -> c <> ","%char -> legacy_spelling s t ->
    legacy_spelling (String c s) (String c t).

Definition field_of (o : option string) : string := match o with Some s => s | None => "*" end.

(** ** Rules of service-specific (legacy syntax) text

    [opens p file ls]: the path [p] names file [file] with lines [ls] *)
Inductive service_rules (opens : string -> string -> list string -> Prop)
  (sv ar : option string) : string -> list string -> list rule -> Prop :=
| sr_end file : service_rules opens sv ar file [] []
| sr_inert file l ls rs : inert l -> service_rules opens sv ar file ls rs ->
    service_rules opens sv ar file (l :: ls) rs
| sr_rule file b l l' ls src tgt act ps r rs :
    blanks b -> begins l -> starts "#" l = false ->
    legacy_spelling l l' -> starts "!" l' = false ->
    fields l' (src :: tgt :: act :: ps) ->
    rule_fields file (field_of sv :: field_of ar :: src :: tgt :: act :: ps) r ->
    service_rules opens sv ar file ls rs ->
    service_rules opens sv ar file ((b +++ l) :: ls) (r :: rs)
| sr_include file b l l' ls p file' ls' rs1 rs2 :
    blanks b -> begins l ->
    legacy_spelling l l' -> starts "!" l' = true -> fields l' ["!include"; p] ->
    opens p file' ls' -> service_rules opens sv ar file' ls' rs1 ->
    service_rules opens sv ar file ls rs2 ->
    service_rules opens sv ar file ((b +++ l) :: ls) (rs1 ++ rs2).

(** [service_arg s a sv ar]: the service and argument fields are valid *)
Definition service_arg (s a : string) (sv ar : option string) : Prop :=
  service_field s sv /\ argument_field sv a ar.

(** ** Rules of a policy text.
    [lists p files]: directory path [p] has these policy files, with lines, in
    order; [legacy rs]: the rules standing for !compat-4.0 *)
Inductive text_rules (opens : string -> string -> list string -> Prop)
  (lists : string -> list (string * list string) -> Prop)
  (legacy : list rule -> Prop) : string -> list string -> list rule -> Prop :=
| tr_end file : text_rules opens lists legacy file [] []
| tr_inert file l ls rs : inert l -> text_rules opens lists legacy file ls rs ->
    text_rules opens lists legacy file (l :: ls) rs
| tr_rule file l ls ws r rs :
    ~ inert l -> ~ directive l -> fields l ws -> rule_fields file ws r ->
    text_rules opens lists legacy file ls rs ->
    text_rules opens lists legacy file (l :: ls) (r :: rs)
| tr_include file l ls p file' ls' rs1 rs2 :
    fields l ["!include"; p] -> opens p file' ls' ->
    text_rules opens lists legacy file' ls' rs1 ->
    text_rules opens lists legacy file ls rs2 ->
    text_rules opens lists legacy file (l :: ls) (rs1 ++ rs2)
| tr_include_dir file l ls p files rs1 rs2 :
    fields l ["!include-dir"; p] -> lists p files ->
    files_rules opens lists legacy files rs1 ->
    text_rules opens lists legacy file ls rs2 ->
    text_rules opens lists legacy file (l :: ls) (rs1 ++ rs2)
| tr_include_service file l ls s a p sv ar file' ls' rs1 rs2 :
    fields l ["!include-service"; s; a; p] -> service_arg s a sv ar ->
    opens p file' ls' -> service_rules opens sv ar file' ls' rs1 ->
    text_rules opens lists legacy file ls rs2 ->
    text_rules opens lists legacy file (l :: ls) (rs1 ++ rs2)
| tr_compat file l ls rs1 rs2 :
    fields l ["!compat-4.0"] -> legacy rs1 ->
    text_rules opens lists legacy file ls rs2 ->
    text_rules opens lists legacy file (l :: ls) (rs1 ++ rs2)
with files_rules (opens : string -> string -> list string -> Prop)
  (lists : string -> list (string * list string) -> Prop)
  (legacy : list rule -> Prop) : list (string * list string) -> list rule -> Prop :=
| fr_end : files_rules opens lists legacy [] []
| fr_file file ls files rs1 rs2 : text_rules opens lists legacy file ls rs1 ->
    files_rules opens lists legacy files rs2 ->
    files_rules opens lists legacy ((file, ls) :: files) (rs1 ++ rs2).

(** ** The policy of a list of directories *)

Definition opens_at (f : fs) (base : path) (p file : string) (ls : list string) : Prop :=
  file = path_str (resolve base p) /\ file_lines f (resolve base p) ls.
Definition lists_at (f : fs) (base : path) (p : string) (files : list (string * list string)) : Prop :=
  exists names, policy_dir f (resolve base p) names /\
    Forall2 (fun n fl => fst fl = path_str (resolve base p ++ [n]) /\
                         file_lines f (resolve base p ++ [n]) (snd fl)) names files.

(** Legacy policy files: SERVICE or SERVICE+ARGUMENT, backup files, hidden files
    and names with unusual characters ignored; services in byte order, for each
    the arguments in byte order, the file without argument last *)
Definition backup_name (n : string) : Prop :=
  exists stem s, n = stem +++ s /\ stem <> "" /\ In s [".rpmsave"; ".rpmnew"; ".swp"].
Definition legacy_file (f : fs) (d : path) (n : string) : Prop :=
  entry f d n /\ regular f (d ++ [n]) /\ ~ backup_name n /\ starts "." n = false /\ service_chars n.
Definition named_for (n s a : string) : Prop :=
  has_char "+" s = false /\ ((a = "*" /\ n = s) \/ (exists x, a = "+" +++ x /\ n = s +++ a)).
Definition legacy_before (x y : string * string * string) : Prop :=
  let '(s1, a1, _) := x in let '(s2, a2, _) := y in
  lt_bytes s1 s2 \/ (s1 = s2 /\ ((a1 <> "*" /\ a2 = "*") \/ (a1 <> "*" /\ a2 <> "*" /\ lt_bytes a1 a2))).
Definition legacy_files (f : fs) (d : path) (l : list (string * string * string)) : Prop :=
  fget f d = Some NDir /\ StronglySorted legacy_before l /\
  forall s a n, In (s, a, n) l <-> legacy_file f d n /\ named_for n s a.

(** the two closing rules of an argument-specific legacy file *)
Definition closing (sv ar : option string) (file : string) : list rule :=
  [mkRule sv ar TAny TAny (Deny true) file; mkRule sv ar TAny TAdmin (Deny true) file].
Inductive legacy_rules (f : fs) (d : path) : list (string * string * string) -> list rule -> Prop :=
| lr_end : legacy_rules f d [] []
| lr_general s n l sv ar ls rs1 rs2 :
    service_arg s "*" sv ar -> file_lines f (d ++ [n]) ls ->
    service_rules (opens_at f d) sv ar (path_str (d ++ [n])) ls rs1 ->
    legacy_rules f d l rs2 -> legacy_rules f d ((s, "*", n) :: l) (rs1 ++ rs2)
| lr_specific s a n l sv ar ls rs1 rs2 :
    a <> "*" -> service_arg s a sv ar -> file_lines f (d ++ [n]) ls ->
    service_rules (opens_at f d) sv ar (path_str (d ++ [n])) ls rs1 ->
    legacy_rules f d l rs2 ->
    legacy_rules f d ((s, a, n) :: l) (rs1 ++ closing sv ar (path_str (d ++ [n])) ++ rs2).
Definition legacy_policy (f : fs) (d : path) (rs : list rule) : Prop :=
  exists l, legacy_files f d l /\ legacy_rules f d l rs.

Definition file_rules (f : fs) (legacy base : path) : string -> list string -> list rule -> Prop :=
  text_rules (opens_at f base) (lists_at f base) (legacy_policy f legacy).

Inductive chosen_rules (f : fs) (legacy : path) : list (path * string) -> list rule -> Prop :=
| cr_end : chosen_rules f legacy [] []
| cr_file d n sel ls rs1 rs2 : file_lines f (d ++ [n]) ls ->
    file_rules f legacy d (path_str (d ++ [n])) ls rs1 ->
    chosen_rules f legacy sel rs2 ->
    chosen_rules f legacy ((d, n) :: sel) (rs1 ++ rs2).

(** [policy_of f legacy dirs rs]: [rs] is the policy stored in [dirs] *)
Definition policy_of (f : fs) (legacy : path) (dirs : list path) (rs : list rule) : Prop :=
  exists sel, chosen f dirs sel /\ chosen_rules f legacy sel rs.

(** ** Reached lines *)

(** [reached opens lists ls x]: loading lines [ls] comes to line [x] of the main
    syntax, directly or through !include and !include-dir *)
Inductive reached (opens : string -> string -> list string -> Prop)
  (lists : string -> list (string * list string) -> Prop) : list string -> string -> Prop :=
| re_line ls x : In x ls -> reached opens lists ls x
| re_include ls l p file ls' x : In l ls -> fields l ["!include"; p] -> opens p file ls' ->
    reached opens lists ls' x -> reached opens lists ls x
| re_include_dir ls l p files file ls' x : In l ls -> fields l ["!include-dir"; p] -> lists p files ->
    In (file, ls') files -> reached opens lists ls' x -> reached opens lists ls x.
(** lines of service-specific files, through legacy !include *)
Inductive service_reached (opens : string -> string -> list string -> Prop) : list string -> string -> Prop :=
| sre_line ls x : In x ls -> service_reached opens ls x
| sre_include ls b l l' p file ls' x : In (b +++ l) ls -> blanks b -> begins l -> legacy_spelling l l' ->
    starts "!" l' = true -> fields l' ["!include"; p] -> opens p file ls' ->
    service_reached opens ls' x -> service_reached opens ls x.

(** a well-formed line: inert, a rule, or a directive whose object exists *)
Definition good_service_line (opens : string -> string -> list string -> Prop) (sv ar : option string) (x : string) : Prop :=
  inert x \/
  exists b l l', x = b +++ l /\ blanks b /\ begins l /\ legacy_spelling l l' /\
    ((starts "!" l' = false /\ exists file src tgt act ps r, fields l' (src :: tgt :: act :: ps) /\
        rule_fields file (field_of sv :: field_of ar :: src :: tgt :: act :: ps) r) \/
     (starts "!" l' = true /\ exists p file ls, fields l' ["!include"; p] /\ opens p file ls)).
Definition good_line (opens : string -> string -> list string -> Prop)
  (lists : string -> list (string * list string) -> Prop) (legacy : list rule -> Prop) (x : string) : Prop :=
  inert x \/
  (~ directive x /\ exists file ws r, fields x ws /\ rule_fields file ws r) \/
  (exists p file ls, fields x ["!include"; p] /\ opens p file ls) \/
  (exists p files, fields x ["!include-dir"; p] /\ lists p files) \/
  (exists s a p sv ar file ls, fields x ["!include-service"; s; a; p] /\ service_arg s a sv ar /\
     opens p file ls /\ forall y, service_reached opens ls y -> good_service_line opens sv ar y) \/
  (fields x ["!compat-4.0"] /\ exists rs, legacy rs).

(** the same rule, wherever it is written *)
Definition same_rule (r r' : rule) : Prop :=
  r_service r = r_service r' /\ r_arg r = r_arg r' /\ r_source r = r_source r' /\
  r_target r = r_target r' /\ r_action r = r_action r'.

(** the same lines, up to inert lines and blanks around a line *)
Inductive same_lines : list string -> list string -> Prop :=
| sl_nil : same_lines [] []
| sl_left l a b : inert l -> same_lines a b -> same_lines (l :: a) b
| sl_right l a b : inert l -> same_lines a b -> same_lines a (l :: b)
| sl_line x y x' y' l a b : blanks x -> blanks y -> blanks x' -> blanks y' -> same_lines a b ->
    same_lines ((x +++ l +++ y) :: a) ((x' +++ l +++ y') :: b).
(** the same objects at the same paths, up to inert text in files *)
Definition same_node (n n' : option node) : Prop :=
  n = n' \/ exists c c', n = Some (NFile (Some c)) /\ n' = Some (NFile (Some c')) /\
    utf8_valid c = true /\ utf8_valid c' = true /\ same_lines (lines_univ c) (lines_univ c').
Definition same_tree (f f' : fs) : Prop := forall p, same_node (fget f p) (fget f' p).
