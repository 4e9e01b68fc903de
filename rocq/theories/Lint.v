(** qubes-policy-lint: qrexec/tools/qubes_policy_lint.py, and the policy in memory that it uses,
    StringPolicy with ToposortMixIn and StringLoader, qrexec/policy/parser.py 2183-2390.

    Not modelled: reading standard input (path "-"), the messages (an error is its line number),
    and the order computed by ToposortMixIn.toposort, which nothing calls here. *)
From Coq Require Import String Ascii List Bool Arith.
From Verif Require Import Base SysInfo Token Rule FileSys Loader.
Import ListNotations.
Open Scope string_scope.
Open Scope list_scope.

(** str(pathlib.PurePosixPath(s)) *)
Definition pure_path (s : string) : string :=
  if path_abs s then path_str (path_parts s)
  else match path_parts s with [] => "." | l => join "/" l end.

(** ToposortMixIn.save_included_path, parser.py 2254-2275, with _path_to_key 2205-2215 (there is
    no attribute policy_path, so the key is the text of the path) *)
Definition count_slash (s : string) : nat := List.length (split_all "/" s) - 1.
Definition bad_key (k : string) : bool :=
  has_char "/" k && (negb (starts "include/" k) || Nat.ltb 1 (count_slash k)).

(** StringPolicy, parser.py 2318-2390: resolve_filepath 2332-2352 is a look-up in a dictionary,
    after save_included_path (ToposortMixIn.handle_include 2277-2289, handle_include_service
    2291-2309; for !include-service the service and the argument are checked in between, all
    three raise PolicySyntaxError); handle_include_dir 2354-2359; handle_compat40 2384-2390 with
    an empty dictionary of old files *)
Definition string_loader (policy : list (string * string)) : loader := {|
  ld_open := fun p =>
    let k := pure_path p in
    if bad_key k then Err ESyntax
    else match dget policy k with
         | None => Err ESyntax
         | Some c => Ok (k +++ "[in-memory]", lines_lf c)
         end;
  ld_dir := fun _ => Err ENotImpl;
  ld_compat := fun _ => Ok []
|}.
(** StringPolicy.__init__ 2371-2382. Three files at most are nested unless a file includes
    itself, which Python ends with RecursionError: [fuel] 4 is enough. *)
Definition string_policy (policy : list (string * string)) : res (list rule) :=
  match dget policy "__main__" with
  | None => Err ESyntax
  | Some c => load_file 4 (string_loader policy) "__main__[in-memory]" (lines_lf c)
  end.

(** parse_string_policy, qubes_policy_lint.py 66-86. In a dictionary display the last of equal
    keys wins. *)
Definition parse_string_policy (line included_path : string) (include_service : bool) : res (list rule) :=
  let main := "!include-service * * inc" in
  if negb (String.eqb included_path "") then
    if include_service
    then string_policy (dset (dset (dset [] "__main__" main) "inc" line) included_path "")
    else string_policy (dset (dset [] "__main__" line) included_path "")
  else
    if include_service
    then string_policy (dset (dset [] "__main__" main) "inc" line)
    else string_policy (dset [] "__main__" line).

(** the body of the loop of parse_file, 100-140 *)
Definition lint_line (include_service : bool) (raw : string) : res unit :=
  let line := strip raw in
  if skip_line line then Ok tt
  else
    let parse included_path := do _ <- parse_string_policy line included_path include_service; Ok tt in
    if starts "!" line then
      match split_ws line with
      | directive :: params =>
          if String.eqb directive "!include-service" then
            parse (match params with [_; _; p] => p | _ => "" end)
          else if String.eqb directive "!include" then
            parse (match params with [p] => p | _ => "" end)
          else if String.eqb directive "!include-dir" then
            match params with [_] => Ok tt | _ => Err ESyntax end
          else parse ""
      | [] => Err EValue
      end
    else parse "".
(** the numbers of the lines with errors; any other exception ends the program *)
Fixpoint lint_lines (include_service : bool) (n : nat) (lines : list string) : res (list nat) :=
  match lines with
  | [] => Ok []
  | l :: ls =>
      match lint_line include_service l with
      | Ok _ => lint_lines include_service (S n) ls
      | Err ESyntax => do r <- lint_lines include_service (S n) ls; Ok (n :: r)
      | Err e => Err e
      end
  end.
(** parse_file 89-144 for a file with this text; retrieve_list 47-63: the text is decoded and
    its lines are stripped on the right, which the loop does again *)
Definition lint_text (include_service : bool) (text : string) : res (list nat) :=
  if utf8_valid text then lint_lines include_service 1 (lines_univ text) else Err EValue.

(** main 147-186: exit status and the errors printed. A file with errors ends the program
    (sys.exit, 144), and so does any other exception: a file that does not exist (47-63), or
    that is no text. *)
Definition file_bytes (f : fs) (p : path) : res string :=
  match fget f p with Some (NFile (Some c)) => Ok c | _ => Err EOs end.
Fixpoint lint_main (f : fs) (include_service : bool) (files : list path) : nat * list (path * nat) :=
  match files with
  | [] => (0, [])
  | p :: files' =>
      match (do t <- file_bytes f p; lint_text include_service t) with
      | Ok [] => lint_main f include_service files'
      | Ok errs => (1, map (pair p) errs)
      | Err _ => (1, [])
      end
  end.
