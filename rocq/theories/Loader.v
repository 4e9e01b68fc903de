(** Loading of policy files: qrexec/policy/parser.py 67-98, 1603-1756,
    1944-2180 and qrexec/policy/parser_compat.py.

    The parsers accumulate rules in [self.rules]; the model returns the list of
    the rules handed to [handle_rule]. An exception leaves the constructor of
    the policy, so the rules accumulated until then are unreachable. [fuel]
    bounds the depth of nested files (Python's recursion limit). *)
From Coq Require Import String Ascii List Bool Arith.
From Verif Require Import Base SysInfo Token Rule FileSys.
Import ListNotations.
Open Scope string_scope.
Open Scope list_scope.

(** FILENAME_ALLOWED_CHARSET, parser.py 64; POLICYSUFFIX, qrexec/__init__.py *)
Definition filename_char (c : ascii) : bool :=
  is_digit c || is_lower c || is_char "_" c || is_char "." c || is_char "-" c.
Definition POLICYSUFFIX := ".policy".

(** filter_filepaths, parser.py 67-98, for the entries of one directory *)
Definition candidate (f : fs) (d : path) (name : string) : bool :=
  is_file f (d ++ [name]) && String.eqb (suffix name) POLICYSUFFIX && negb (starts "." name).
Definition filter_filepaths (f : fs) (d : path) (names : list string) : res (list string) :=
  let l := filter (candidate f d) names in
  if forallb (sforall filename_char) l then Ok (sort_by str_leb l)
  else Err (EAccessDenied true).

(** Python's for-loop over lines, concatenating the rules *)
Fixpoint concatM {A} (g : A -> res (list rule)) (l : list A) : res (list rule) :=
  match l with
  | [] => Ok []
  | x :: l' => do a <- g x; do b <- concatM g l'; Ok (a ++ b)
  end.

(** line[0] == hash or empty line, 1627, 1711 *)
Definition skip_line (line : string) : bool := String.eqb line "" || starts "#" line.

(** The overridable parts of a loader: opening the file named by !include and
    !include-service (resolve_filepath), listing the files of !include-dir
    (resolve_dirpath and load_policy_dir) in the order they are loaded, and
    !compat-4.0 (handle_compat40, its argument is the fuel) *)
Record loader := mkLoader {
  ld_open : string -> res (string * list string);
  ld_dir : string -> res (list (string * res (list string)));
  ld_compat : nat -> res (list rule)
}.

(** the compatibility substitutions, 1716-1718 *)
Definition compat_subst (line : string) : string :=
  replace "," " " (replace "$" "@" (replace "$include:" "!include " line)).

(** the body of the loop of load_policy_file_service 1704-1756, with
    handle_include_service 1976-1994; [sv] and [ar] have been validated, [rec]
    loads an included file *)
Definition service_line (openf : string -> res (string * list string))
  (rec : option string -> option string -> string -> list string -> res (list rule))
  (sv ar : option string) (file : string) (raw : string) : res (list rule) :=
  let line := strip raw in
  if skip_line line then Ok []
  else
    let line := compat_subst line in
    if starts "!" line then
      match split_ws line with
      | directive :: params =>
          if String.eqb directive "!include" then
            match params with
            | [p] =>
                do sa <- validate_service_and_argument sv ar;
                do fl <- openf p;
                rec (fst sa) (snd sa) (fst fl) (snd fl)
            | _ => Err ESyntax
            end
          else Err ESyntax
      | [] => Err ESyntax
      end
    else do r <- from_line_service sv ar line file; Ok [r].
Fixpoint load_service (fuel : nat) (openf : string -> res (string * list string))
  (sv ar : option string) (file : string) (lines : list string) : res (list rule) :=
  match fuel with
  | 0 => Err EFuel
  | S fuel' => concatM (service_line openf (load_service fuel' openf) sv ar file) lines
  end.

(** handle_include_service 1976-1994 *)
Definition include_service (fuel : nat) (openf : string -> res (string * list string))
  (service argument : option string) (p : string) : res (list rule) :=
  do sa <- validate_service_and_argument service argument;
  do fl <- openf p;
  load_service fuel openf (fst sa) (snd sa) (fst fl) (snd fl).

(** the body of the loop of load_policy_file 1620-1702, with handle_include
    1967-1974, handle_include_dir 2020-2026, load_policy_dir 2028-2039; [rec]
    loads an included file, [fuel] is what is left for service includes *)
Definition file_line (L : loader) (rec : string -> list string -> res (list rule)) (fuel : nat)
  (file : string) (raw : string) : res (list rule) :=
  let line := strip raw in
  if skip_line line then Ok []
  else if starts "!" line then
    match split_ws line with
    | directive :: params =>
        if String.eqb directive "!include" then
          match params with
          | [p] => do fl <- ld_open L p; rec (fst fl) (snd fl)
          | _ => Err ESyntax
          end
        else if String.eqb directive "!include-dir" then
          match params with
          | [p] =>
              do files <- ld_dir L p;
              concatM (fun fl : string * res (list string) =>
                do ls <- snd fl; rec (fst fl) ls) files
          | _ => Err ESyntax
          end
        else if String.eqb directive "!include-service" then
          match params with
          | [service; argument; p] =>
              include_service fuel (ld_open L) (Some service) (Some argument) p
          | _ => Err ESyntax
          end
        else if String.eqb directive "!compat-4.0" then
          match params with
          | [] => ld_compat L fuel
          | _ => Err ESyntax
          end
        else Err ESyntax
    | [] => Err ESyntax
    end
  else do r <- from_line line file; Ok [r].
Fixpoint load_file (fuel : nat) (L : loader) (file : string) (lines : list string)
  : res (list rule) :=
  match fuel with
  | 0 => Err EFuel
  | S fuel' => concatM (file_line L (load_file fuel' L) fuel' file) lines
  end.

(** ** Legacy policy: parser_compat.py *)

(** IGNORED_SUFFIXES 46, _list_compat_files 79-101 *)
Definition compat_candidate (f : fs) (d : path) (name : string) : bool :=
  is_file f (d ++ [name])
  && negb (smem (suffix name) [".rpmsave"; ".rpmnew"; ".swp"])
  && negb (starts "." name)
  && valid_chars name.

(** _NoArgumentLastKey 49-62 *)
Definition arg_leb (a b : string) : bool :=
  if String.eqb a b then true
  else if String.eqb a "*" then false
  else if String.eqb b "*" then true
  else str_leb a b.
(** the order of the two nested loops of _sorted_compat_files 65-76 *)
Definition compat_leb (x y : string * string * string) : bool :=
  let '(s1, a1, _) := x in let '(s2, a2, _) := y in
  if String.eqb s1 s2 then arg_leb a1 a2 else str_leb s1 s2.
Definition compat_files (f : fs) (legacy : path) : res (list (string * string * string)) :=
  do names <- iterdir f legacy;
  Ok (sort_by compat_leb
        (map (fun n => let sa := parse_service_and_argument n "*" in (fst sa, snd sa, n))
             (filter (compat_candidate f legacy) names))).

(** AbstractFileLoader.resolve_filepath 1944-1965 after resolve_path *)
Definition open_file (f : fs) (p : path) : res (string * list string) :=
  if is_file f p then do ls <- read_lines f p; Ok (path_str p, ls) else Err ESyntax.

(** Compat40Loader.resolve_path: (legacy_path / included).resolve() *)
Definition compat_open (f : fs) (legacy : path) (p : string) : res (string * list string) :=
  open_file f (resolve legacy p).

(** Compat40Parser.execute 145-182. resolve_path of the full path
    legacy/name is that path itself. *)
Definition compat_execute (f : fs) (legacy : path) (fuel : nat) : res (list rule) :=
  do files <- compat_files f legacy;
  concatM (fun x : string * string * string =>
    let '(service, argument, name) := x in
    let full := path_str (legacy ++ [name]) in
    do sa <- validate_service_and_argument (Some service) (Some argument);
    do fl <- open_file f (legacy ++ [name]);
    do rs <- load_service fuel (compat_open f legacy) (fst sa) (snd sa) (fst fl) (snd fl);
    if String.eqb argument "*" then Ok rs
    else
      do r1 <- from_line_service (Some service) (Some argument) "@anyvm @anyvm deny" full;
      do r2 <- from_line_service (Some service) (Some argument) "@anyvm @adminvm deny" full;
      Ok (rs ++ [r1; r2])) files.

(** ** FilePolicy: parser.py 2062-2126 *)

Definition file_loader (f : fs) (legacy policy_path : path) : loader := {|
  ld_open := fun p => open_file f (resolve policy_path p);
  ld_dir := fun p =>
    let d := resolve policy_path p in
    if is_dir f d then
      do names <- iterdir f d;
      do l <- filter_filepaths f d names;
      Ok (map (fun n => (path_str (d ++ [n]), read_lines f (d ++ [n]))) l)
    else Err ESyntax;
  ld_compat := compat_execute f legacy
|}.

(** load_policy_dirs 2076-2094, first loop: directories in order, a basename
    already seen is skipped *)
Fixpoint select_files (f : fs) (dirs : list path) (final : list (path * string))
  : res (list (path * string)) :=
  match dirs with
  | [] => Ok final
  | d :: dirs' =>
      do names <- iterdir f d;
      do l <- filter_filepaths f d names;
      let new := filter (fun n => negb (smem n (map snd final))) l in
      select_files f dirs' (final ++ map (fun n => (d, n)) new)
  end.
Definition name_leb (x y : path * string) : bool := str_leb (snd x) (snd y).

(** second loop: every file in the order of the names, its own directory being
    the base of the paths in it *)
Definition load_files (f : fs) (legacy : path) (fuel : nat) (l : list (path * string))
  : res (list rule) :=
  concatM (fun x : path * string =>
    do ls <- read_lines f (fst x ++ [snd x]);
    load_file fuel (file_loader f legacy (fst x)) (path_str (fst x ++ [snd x])) ls) l.

(** AbstractFileSystemLoader.__init__ 2052-2075: OSError becomes AccessDenied *)
Definition os_to_denied {A} (r : res A) : res A :=
  match r with Err EOs => Err (EAccessDenied true) | _ => r end.
Definition load_policy (f : fs) (legacy : path) (fuel : nat) (dirs : list path) : res (list rule) :=
  os_to_denied
    (do l <- select_files f dirs [];
     load_files f legacy fuel (sort_by name_leb l)).

(** the default directories, qrexec/__init__.py *)
Definition RUNTIME_POLICY_PATH : path := ["run"; "qubes"; "policy.d"].
Definition POLICYPATH : path := ["etc"; "qubes"; "policy.d"].
Definition POLICYPATH_OLD : path := ["etc"; "qubes-rpc"; "policy"].

(** ** ValidateParser: parser.py 2129-2180 *)

Fixpoint oget (o : list (path * option string)) (p : path) : option (option string) :=
  match o with
  | [] => None
  | (q, c) :: o' => if path_eqb p q then Some c else oget o' p
  end.
(** the overriding contents are read through io.StringIO *)
Definition override_files (o : list (path * option string)) (d : path)
  : list (string * res (list string)) :=
  flat_map (fun x : path * option string =>
    match split_last (fst x), snd x with
    | Some (d', _), Some c => if path_eqb d d' then [(path_str (fst x), Ok (lines_lf c))] else []
    | _, _ => []
    end) o.
Definition validate_dir (f : fs) (o : list (path * option string)) (d : path)
  : res (list (string * res (list string))) :=
  do names <- iterdir f d;
  do l <- filter_filepaths f d names;
  Ok (map (fun n => (path_str (d ++ [n]), read_lines f (d ++ [n])))
          (filter (fun n => match oget o (d ++ [n]) with Some _ => false | None => true end) l)
      ++ override_files o d).
Definition validate_loader (f : fs) (o : list (path * option string)) (legacy policy_path : path)
  : loader := {|
  ld_open := fun p =>
    let q := resolve policy_path p in
    match oget o q with
    | Some None => Err ESyntax
    | Some (Some c) => Ok (path_str q, lines_lf c)
    | None => open_file f q
    end;
  ld_dir := fun p =>
    let d := resolve policy_path p in
    if is_dir f d then validate_dir f o d else Err ESyntax;
  ld_compat := compat_execute f legacy
|}.
(** ValidateParser(overrides=o, policy_path=d): the rules are thrown away
    (handle_rule 2179-2180) *)
Definition validate (f : fs) (o : list (path * option string)) (legacy : path) (fuel : nat) (d : path)
  : res unit :=
  os_to_denied
    (do files <- validate_dir f o d;
     do _ <- concatM (fun fl : string * res (list string) =>
               do ls <- snd fl; load_file fuel (validate_loader f o legacy d) (fst fl) ls) files;
     Ok tt).
