(** Policy administration: qrexec/policy/admin.py, the service script
    qrexec/tools/qubes_policy_admin.py and the client library
    qrexec/policy/admin_client.py.

    [sha256] is hashlib.sha256(data).hexdigest(): a parameter, any function.
    Requests are serialised by the lock on the policy directory (admin.py
    162-173), so a request is a function of the file system. *)
From Coq Require Import String Ascii List Bool Arith.
From Verif Require Import Base SysInfo Token Rule Policy FileSys Loader.
Import ListNotations.
Open Scope string_scope.
Open Scope list_scope.

(** the exceptions, admin.py 35-77; [AE_Raw] is any other exception *)
Inductive aerr := AE_Token | AE_NotFound | AE_Protocol | AE_Syntax | AE_Name | AE_Path | AE_Raw (e : exn).
Inductive aresult := AOk (out : option string) | AErr (e : aerr).
Definition outcome := (aresult * fs)%type.

(** compute_token 359-360 *)
Definition compute_token (sha256 : string -> string) (data : string) : string := "sha256:" +++ sha256 data.

(** ** File operations *)
(** Path.exists() *)
Definition exists_path (f : fs) (p : path) : bool := match fget f p with Some _ => true | None => false end.
(** Path.read_bytes() *)
Definition read_bytes (f : fs) (p : path) : res string :=
  match fget f p with Some (NFile (Some c)) => Ok c | _ => Err EOs end.
(** Path.write_bytes(data): the directory must exist and the object not be a
    directory or special file *)
Definition write_bytes (f : fs) (p : path) (data : string) : res fs :=
  match split_last p with
  | Some (d, _) =>
      if is_dir f d && (negb (exists_path f p) || is_file f p)
      then Ok (fset f p (NFile (Some data))) else Err EOs
  | None => Err EOs
  end.
(** Path.rename(target): a directory is not replaced *)
Definition frename (f : fs) (src dst : path) : res fs :=
  match fget f src with
  | Some n => if is_dir f dst then Err EOs else Ok (fset (fdel f src) dst n)
  | None => Err EOs
  end.

(** ** Helpers *)
(** the pattern of _get_path 310, for an argument that passed the check of
    handle_request 123 (so \w is ASCII and there is no line break) *)
Definition word_char (c : ascii) : bool :=
  is_digit c || is_lower c || is_upper c || is_char "_" c || is_char "-" c.
(** _get_path 309-323 *)
Definition get_path (arg : string) (dir : path) (suff : string) : path + aerr :=
  if String.eqb arg "" || negb (sforall word_char arg) then inr AE_Name
  else
    let p := resolve dir (arg +++ suff) in
    match split_last p with
    | Some (d, _) => if path_eqb d dir then inl p else inr AE_Path
    | None => inr AE_Path
    end.

(** _check_token 335-356 *)
Definition check_token (sha256 : string -> string) (f : fs) (token : string) (p : path) : option aerr :=
  if String.eqb token "any" then None
  else if String.eqb token "new" then
    if exists_path f p then Some AE_Token else None
  else if negb (starts "sha256:" token) then Some AE_Protocol
  else if negb (exists_path f p) then Some AE_Token
  else match read_bytes f p with
       | Err e => Some (AE_Raw e)
       | Ok c => if String.eqb (compute_token sha256 c) token then None else Some AE_Token
       end.

(** _validate 325-333 *)
Definition validate_change (f : fs) (legacy : path) (fuel : nat) (policy_path : path)
  (p : path) (content : option string) : option aerr :=
  match validate f [(p, content)] legacy fuel policy_path with
  | Ok _ => None
  | Err ESyntax => Some AE_Syntax
  | Err e => Some (AE_Raw e)
  end.

(** path.with_name(RENAME_PREFIX + path.name), 243 *)
Definition temp_path (p : path) : path :=
  match split_last p with Some (d, n) => d ++ ["!" +++ n] | None => p end.

(** ** Methods *)
(** _common_list 185-197 *)
Definition ends_with (suff s : string) : bool :=
  let n := String.length s - String.length suff in
  (String.length suff <=? String.length s)%nat && String.eqb (sdrop n s) suff.
Definition list_name (suff name : string) : list string :=
  if String.eqb suff "" then [name]
  else if ends_with suff name then [stake (String.length name - String.length suff) name] else [].
Definition is_ascii (s : string) : bool := sforall (fun c => (nat_of_ascii c <=? 127)%nat) s.
Definition list_names (f : fs) (d : path) (suff : string) : res (list string) :=
  do names <- iterdir f d;
  Ok (sort_by str_leb (flat_map (list_name suff) (filter (fun n => is_file f (d ++ [n])) names))).
Definition lines_out (l : list string) : string := fold_right (fun n s => n +++ nl +++ s) "" l.
Definition common_list (f : fs) (d : path) (suff : string) : outcome :=
  match list_names f d suff with
  | Err e => (AErr (AE_Raw e), f)
  | Ok l => if is_ascii (lines_out l) then (AOk (Some (lines_out l)), f) else (AErr (AE_Raw EValue), f)
  end.

(** _common_get 211-217 *)
Definition common_get (sha256 : string -> string) (f : fs) (p : path) : outcome :=
  if negb (is_file f p) then (AErr AE_NotFound, f)
  else match read_bytes f p with
       | Err e => (AErr (AE_Raw e), f)
       | Ok c => (AOk (Some (compute_token sha256 c +++ nl +++ c)), f)
       end.

(** _common_replace 231-252. chmod and chown do not change contents; their
    failures other than the ones caught are not modelled. *)
Definition common_replace (sha256 : string -> string) (f : fs) (legacy : path) (fuel : nat)
  (policy_path p : path) (payload : string) : outcome :=
  match split1 NL payload with
  | None => (AErr AE_Protocol, f)
  | Some (token, data) =>
      match check_token sha256 f token p with
      | Some e => (AErr e, f)
      | None =>
          if negb (utf8_valid data) then (AErr (AE_Raw EValue), f)
          else match validate_change f legacy fuel policy_path p (Some data) with
               | Some e => (AErr e, f)
               | None =>
                   match write_bytes f (temp_path p) data with
                   | Err e => (AErr (AE_Raw e), f)
                   | Ok f1 =>
                       match frename f1 (temp_path p) p with
                       | Err e => (AErr (AE_Raw e), f1)
                       | Ok f2 => (AOk None, f2)
                       end
                   end
               end
      end
  end.

(** _common_remove 265-273 *)
Definition common_remove (sha256 : string -> string) (f : fs) (legacy : path) (fuel : nat)
  (policy_path p : path) (payload : string) : outcome :=
  match check_token sha256 f payload p with
  | Some e => (AErr e, f)
  | None =>
      if negb (is_file f p) then (AErr AE_NotFound, f)
      else match validate_change f legacy fuel policy_path p None with
           | Some e => (AErr e, f)
           | None => (AOk None, fdel f p)
           end
  end.

(** Path.stem *)
Definition stem (name : string) : string :=
  stake (String.length name - String.length (suffix name)) name.
(** the text of a file path: the name part *)
Fixpoint last_of (l : list string) : string :=
  match l with [] => "" | [x] => x | _ :: l' => last_of l' end.
(** 294-301: rule.filepath relative to the policy directory (not the root) *)
Definition shown_file (policy_path : path) (file : string) : string :=
  if starts (path_str policy_path +++ "/") file then stem (last_of (split_all "/" file)) else file.
Fixpoint dedup (seen l : list string) : list string :=
  match l with
  | [] => []
  | x :: l' => if smem x seen then dedup seen l' else x :: dedup (seen ++ [x]) l'
  end.
(** policy_get_files 278-305 *)
Definition get_files (f : fs) (legacy : path) (fuel : nat) (policy_path : path) (arg : string) : outcome :=
  if String.eqb arg "" then (AErr AE_Protocol, f)
  else if negb (valid_chars_no_plus arg) then (AErr AE_Protocol, f)
  else match load_policy f legacy fuel [policy_path] with
       | Err e => (AErr (AE_Raw e), f)
       | Ok rules =>
           (AOk (Some (lines_out (dedup []
              (map (fun r => shown_file policy_path (r_file r)) (find_rules_for_service rules arg))))), f)
       end.

(** ** handle_request 114-151: the methods with their flags, 79-86 *)
Inductive method := MList (inc : bool) | MGet (inc : bool) | MReplace (inc : bool) | MRemove (inc : bool) | MGetFiles.
Definition methods : list (string * method) := [
  ("policy.List", MList false); ("policy.include.List", MList true);
  ("policy.Get", MGet false); ("policy.include.Get", MGet true);
  ("policy.Replace", MReplace false); ("policy.include.Replace", MReplace true);
  ("policy.Remove", MRemove false); ("policy.include.Remove", MRemove true);
  ("policy.GetFiles", MGetFiles)].
Definition no_arg (m : method) : bool := match m with MList _ => true | _ => false end.
Definition no_payload (m : method) : bool :=
  match m with MReplace _ | MRemove _ => false | _ => true end.
(** the directory and suffix of each method *)
Definition target_dir (policy_path : path) (inc : bool) : path :=
  if inc then policy_path ++ ["include"] else policy_path.
Definition target_suffix (inc : bool) : string := if inc then "" else ".policy".
Definition with_path (f : fs) (policy_path : path) (inc : bool) (arg : string) (k : path -> outcome) : outcome :=
  match get_path arg (target_dir policy_path inc) (target_suffix inc) with
  | inr e => (AErr e, f)
  | inl p => k p
  end.
Definition run_method (sha256 : string -> string) (f : fs) (legacy : path) (fuel : nat) (policy_path : path)
  (m : method) (arg payload : string) : outcome :=
  match m with
  | MList inc => common_list f (target_dir policy_path inc) (target_suffix inc)
  | MGet inc => with_path f policy_path inc arg (fun p => common_get sha256 f p)
  | MReplace inc => with_path f policy_path inc arg
      (fun p => common_replace sha256 f legacy fuel policy_path p payload)
  | MRemove inc => with_path f policy_path inc arg
      (fun p => common_remove sha256 f legacy fuel policy_path p payload)
  | MGetFiles => get_files f legacy fuel policy_path arg
  end.
Definition handle_admin (sha256 : string -> string) (f : fs) (legacy : path) (fuel : nat) (policy_path : path)
  (service arg payload : string) : outcome :=
  if negb (sforall rpcname_char arg) then (AErr AE_Protocol, f)
  else match dget methods service with
       | None => (AErr AE_Protocol, f)
       | Some m =>
           if no_arg m && negb (String.eqb arg "") then (AErr AE_Protocol, f)
           else if no_payload m && negb (String.eqb payload "") then (AErr AE_Protocol, f)
           else if negb (is_dir f policy_path) then (AErr (AE_Raw EOs), f)   (* _lock 162-173 *)
           else run_method sha256 f legacy fuel policy_path m arg payload
       end.

(** ** The service script, qubes_policy_admin.py 36-82: full service name split
    at the first plus; standard output on success, exit status *)
Definition admin_script (sha256 : string -> string) (f : fs) (legacy : path) (fuel : nat) (policy_path : path)
  (service_full_name payload : string) : (nat * string) * fs :=
  let '(service, arg) := match split1 "+" service_full_name with
                         | Some sa => sa | None => (service_full_name, "") end in
  match handle_admin sha256 f legacy fuel policy_path service arg payload with
  | (AOk out, f') => ((0, match out with Some s => s | None => "" end), f')
  | (AErr (AE_Raw _), f') => ((2, ""), f')
  | (AErr _, f') => ((1, ""), f')
  end.

(** ** The client library. The qrexec call itself is taken to deliver the
    service name and payload to the script and its output back (policy and
    transport are not part of this model); [None] is an exception raised in
    the client. client.py make_command 77-100, call 34-51. *)
Definition client_call (sha256 : string -> string) (f : fs) (legacy : path) (fuel : nat) (policy_path : path)
  (rpc : string) (inc : bool) (arg : option string) (payload : string) : option string * fs :=
  let service := "policy." +++ (if inc then "include." else "") +++ rpc in
  if has_char "+" service || has_char " " service then (None, f)
  else if match arg with Some a => has_char " " a | None => false end then (None, f)
  else
    let full := match arg with Some a => service +++ "+" +++ a | None => service end in
    match admin_script sha256 f legacy fuel policy_path full payload with
    | ((0, out), f') => (if utf8_valid out then Some out else None, f')
    | (_, f') => (None, f')
    end.
(** the methods, admin_client.py 56-130 *)
Definition client_list sha256 f legacy fuel pp (inc : bool) : option (list string) * fs :=
  match client_call sha256 f legacy fuel pp "List" inc None "" with
  | (Some out, f') => (Some (split_all NL (rstrip_char NL out)), f')
  | (None, f') => (None, f')
  end.
Definition client_get sha256 f legacy fuel pp (name : string) (inc : bool) : option (string * string) * fs :=
  match client_call sha256 f legacy fuel pp "Get" inc (Some name) "" with
  | (Some out, f') => (match split1 NL out with Some (t, c) => Some (c, t) | None => None end, f')
  | (None, f') => (None, f')
  end.
Definition client_replace sha256 f legacy fuel pp (name content token : string) (inc : bool) : option unit * fs :=
  match client_call sha256 f legacy fuel pp "Replace" inc (Some name) (token +++ nl +++ content) with
  | (Some _, f') => (Some tt, f')
  | (None, f') => (None, f')
  end.
Definition client_remove sha256 f legacy fuel pp (name token : string) (inc : bool) : option unit * fs :=
  match client_call sha256 f legacy fuel pp "Remove" inc (Some name) token with
  | (Some _, f') => (Some tt, f')
  | (None, f') => (None, f')
  end.
Definition client_get_files sha256 f legacy fuel pp (name : string) : option (list string) * fs :=
  match client_call sha256 f legacy fuel pp "GetFiles" false (Some name) "" with
  | (Some out, f') => (Some (if String.eqb out "" then [] else split_all NL (rstrip_char NL out)), f')
  | (None, f') => (None, f')
  end.

(** ** Crash points of _common_replace: the temporary file is created empty and
    filled front to back (write_bytes), then renamed. [stages] are the
    successive states of the file system. *)
Fixpoint prefixes (s : string) : list string :=
  match s with EmptyString => [""] | String c s' => "" :: map (String c) (prefixes s') end.
Definition stages (f : fs) (p : path) (data : string) : list fs :=
  let tmp := temp_path p in
  f :: map (fun d => fset f tmp (NFile (Some d))) (prefixes data) ++
  match frename (fset f tmp (NFile (Some data))) tmp p with Ok f2 => [f2] | Err _ => [] end.
