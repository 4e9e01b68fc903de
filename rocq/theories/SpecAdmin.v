(** Independent specification of policy administration: names, files, tokens,
    requests and histories. *)
From Coq Require Import String Ascii List Bool Sorting.
From Verif Require Import Base Rule FileSys SpecPolicy SpecRule SpecLoader.
Import ListNotations.
Open Scope string_scope.
Open Scope list_scope.

(** names accepted as argument: letters, digits, underscore, minus *)
Definition name_letter (c : ascii) : Prop :=
  let n := nat_of_ascii c in
  (65 <= n <= 90 \/ 97 <= n <= 122 \/ 48 <= n <= 57)%nat \/ In c ["_"; "-"]%char.
Definition admin_name (s : string) : Prop := s <> "" /\ forall c, has_char c s = true -> name_letter c.

(** the file named by a request; [inc]: one of the policy.include.* services *)
Definition admin_file (pp : path) (inc : bool) (name : string) : path :=
  if inc then pp ++ ["include"; name] else pp ++ [name +++ ".policy"].
(** the temporary file used while the file is being replaced *)
Definition admin_temp (pp : path) (inc : bool) (name : string) : path :=
  if inc then pp ++ ["include"; "!" +++ name] else pp ++ ["!" +++ name +++ ".policy"].

Definition replace_service (inc : bool) : string := if inc then "policy.include.Replace" else "policy.Replace".
Definition remove_service (inc : bool) : string := if inc then "policy.include.Remove" else "policy.Remove".
Definition get_service (inc : bool) : string := if inc then "policy.include.Get" else "policy.Get".
Definition list_service (inc : bool) : string := if inc then "policy.include.List" else "policy.List".

(** the file has this content *)
Definition has_content (f : fs) (p : path) (c : string) : Prop := fget f p = Some (NFile (Some c)).
Definition same_elsewhere (f f' : fs) (ps : list path) : Prop := forall q, ~ In q ps -> fget f' q = fget f q.

(** what a token promises about the file *)
Inductive token_holds (sha256 : string -> string) (f : fs) (p : path) : string -> Prop :=
| th_any : token_holds sha256 f p "any"
| th_new : fget f p = None -> token_holds sha256 f p "new"
| th_hash c : has_content f p c -> token_holds sha256 f p ("sha256:" +++ sha256 c).

(** the names listed for a directory: the regular files with the suffix, in byte order *)
Definition listed (f : fs) (d : path) (suff : string) (l : list string) : Prop :=
  fget f d = Some NDir /\ StronglySorted lt_bytes l /\
  forall n, In n l <-> entry f d (n +++ suff) /\ regular f (d ++ [n +++ suff]).

(** a digest: hexadecimal digits *)
Definition hex_digest (sha256 : string -> string) : Prop :=
  forall s c, has_char c (sha256 s) = true -> let n := nat_of_ascii c in (48 <= n <= 57 \/ 97 <= n <= 102)%nat.

(** ** Histories: requests of any clients, in the order in which they got the
    lock, with their outcomes *)
Record event := mkEvent { ev_service : string; ev_arg : string; ev_payload : string; ev_result : bool }.
(** what the log says about file [name]: the last successful change, if any *)
Inductive last_change (inc : bool) (name : string) : list event -> option (option string) -> Prop :=
| lc_none : last_change inc name [] None
| lc_replace h token data : has_char NL token = false ->
    last_change inc name (h ++ [mkEvent (replace_service inc) name (token +++ nl +++ data) true]) (Some (Some data))
| lc_remove h token :
    last_change inc name (h ++ [mkEvent (remove_service inc) name token true]) (Some None)
| lc_other h e x :
    ~ (ev_result e = true /\ ev_arg e = name /\
       (ev_service e = replace_service inc \/ ev_service e = remove_service inc)) ->
    last_change inc name h x -> last_change inc name (h ++ [e]) x.

(** how GetFiles shows the file of a rule: its name without extension when the
    file is below the policy directory, else the whole path *)
Definition extension (n x : string) : Prop :=
  (n = x /\ forall s t, s <> "" -> t <> "" -> has_char "." t = false -> n <> s +++ "." +++ t) \/
  (exists t, x <> "" /\ t <> "" /\ has_char "." t = false /\ n = x +++ "." +++ t).
Inductive shown_as (pp : path) : string -> string -> Prop :=
| sa_inside d n x : (d = "" \/ exists d', d = d' +++ "/") -> has_char "/" n = false -> extension n x ->
    shown_as pp (path_str pp +++ "/" +++ d +++ n) x
| sa_outside file : (forall r, file <> path_str pp +++ "/" +++ r) -> shown_as pp file file.
(** the elements of a list, at their first occurrence *)
Inductive first_occurrences {A} : list A -> list A -> Prop :=
| fo_nil : first_occurrences [] []
| fo_new l m x : first_occurrences l m -> ~ In x l -> first_occurrences (l ++ [x]) (m ++ [x])
| fo_old l m x : first_occurrences l m -> In x l -> first_occurrences (l ++ [x]) m.
