(** The tools for administrators: qubes-policy (qrexec/tools/qubes_policy.py) and
    qubes-policy-editor (qrexec/tools/qubes_policy_editor.py).

    Not modelled: the messages printed, and failures to read the standard input or to write the
    standard output. The locale is UTF-8. *)
From Coq Require Import String Ascii List Bool Arith.
From Verif Require Import Base SysInfo Token Rule Policy FileSys Loader Admin Lint.
Import ListNotations.
Open Scope string_scope.
Open Scope list_scope.

(** ** Exceptions in the client library, admin_client.py 131-152: the first word that the script
    writes is the class of the exception. [CE_Admin e]: this exception; [CE_Other]: any other one
    (CalledProcessError, AssertionError, UnicodeDecodeError). *)
Inductive cerr := CE_Admin (e : aerr) | CE_Other.
Definition client_error (sha256 : string -> string) (f : fs) (legacy : path) (fuel : nat) (pp : path)
  (rpc : string) (inc : bool) (arg payload : string) : cerr :=
  if has_char " " arg then CE_Other
  else match fst (handle_admin sha256 f legacy fuel pp ("policy." +++ (if inc then "include." else "") +++ rpc) arg payload) with
       | AErr (AE_Raw _) => CE_Other
       | AErr e => CE_Admin e
       | AOk _ => CE_Other
       end.

(** ** qubes-policy *)
Inductive cli_method := CList | CGet | CReplace | CRemove.
(** run_method 83-98. [stdin]: what can be read from the standard input. The result is what is
    printed, or None for an exception. *)
Definition cli_run (sha256 : string -> string) (f : fs) (legacy : path) (fuel : nat) (pp : path)
  (m : cli_method) (name : string) (inc : bool) (stdin : string) : option string * fs :=
  match m with
  | CList =>
      match client_list sha256 f legacy fuel pp inc with
      | (Some l, f') => (Some (join nl l +++ nl), f')
      | (None, f') => (None, f')
      end
  | CGet =>
      match client_get sha256 f legacy fuel pp name inc with
      | (Some (content, _), f') => (Some (rstrip content +++ nl), f')
      | (None, f') => (None, f')
      end
  | CReplace =>
      if negb (utf8_valid stdin) then (None, f)
      else match client_replace sha256 f legacy fuel pp name (univ_nl stdin) "any" inc with
           | (Some _, f') => (Some "", f')
           | (None, f') => (None, f')
           end
  | CRemove =>
      match client_remove sha256 f legacy fuel pp name "any" inc with
      | (Some _, f') => (Some "", f')
      | (None, f') => (None, f')
      end
  end.
(** main 101-139. [arg]: the argument, "" if there is none. Exit status, output, file system. *)
Definition cli_main (sha256 : string -> string) (f : fs) (legacy : path) (fuel : nat) (pp : path)
  (m : cli_method) (arg stdin : string) : (nat * string) * fs :=
  let inc := String.eqb arg "include" || starts "include/" arg in
  let name := if inc then sdrop 8 arg else arg in
  if negb (sforall rpcname_char name) then ((2, ""), f)
  else if match m with CList => negb (String.eqb name "") | _ => String.eqb name "" end then ((2, ""), f)
  else match cli_run sha256 f legacy fuel pp m name inc stdin with
       | (Some out, f') => ((0, out), f')
       | (None, f') => ((1, ""), f')
       end.

(** ** qubes-policy-editor *)
(** validate_name 44-63 *)
Definition validate_name (name : string) : option string :=
  if negb (sforall rpcname_char name) then None
  else if ends_with ".policy" name then Some (stake (String.length name - 7) name) else Some name.
(** A run of the editor 143-149: from what is in the temporary file to the exit status (true: 0)
    and what is in the file then; None: the file is gone. *)
Definition editor := option string -> bool * option string.
(** lint_policy 139-165 without the question: *)
Inductive lint_result := LClean | LFaulty | LDied.
Definition edit_once (inc : bool) (ed : editor) (tmp : option string) : lint_result * option string :=
  match ed tmp with
  | (false, t) => (LDied, t)
  | (true, None) => (LDied, None)
  | (true, Some t) =>
      (match lint_text inc t with Ok [] => LClean | Ok _ => LFaulty | Err _ => LDied end, Some t)
  end.
(** get_reply 124-137 with the runs of lint_policy that it asks for; [n]: the next run of the
    editor; at the end of the replies input() raises EOFError *)
Inductive ed_result := EDone | EQuit | EDied.
Fixpoint get_reply (inc : bool) (edits : nat -> editor) (replies : list string) (n : nat) (tmp : option string)
  : ed_result * option string :=
  match replies with
  | [] => (EDied, tmp)
  | r :: rs =>
      if String.eqb r "e" then
        match edit_once inc (edits n) tmp with
        | (LClean, t) => (EDone, t)
        | (LFaulty, t) => get_reply inc edits rs (S n) t
        | (LDied, t) => (EDied, t)
        end
      else if String.eqb r "q" then (EQuit, tmp)
      else get_reply inc edits rs n tmp
  end.
Definition lint_policy (inc : bool) (edits : nat -> editor) (replies : list string) (tmp : option string) : ed_result * option string :=
  match edit_once inc (edits 0) tmp with
  | (LClean, t) => (EDone, t)
  | (LFaulty, t) => get_reply inc edits replies 1 t
  | (LDied, t) => (EDied, t)
  end.
(** the text to start with and the token, 82-101; None: it cannot be read *)
Definition start_text (sha256 : string -> string) (f0 : fs) (legacy : path) (fuel : nat) (pp : path)
  (name : string) (inc : bool) : option (string * string) :=
  match client_get sha256 f0 legacy fuel pp name inc with
  | (Some (content, token), _) => Some (content, token)
  | (None, _) =>
      match client_error sha256 f0 legacy fuel pp "Get" inc name "" with
      | CE_Admin AE_NotFound => Some ("", "new")
      | _ => None
      end
  end.
(** manage_policy 73-122. [f0]: the file system when the policy is read, [f1]: when it is
    replaced; others may have changed it in between. Exit status, what is left in the temporary
    file (None: there is none), file system. *)
Definition manage_policy (sha256 : string -> string) (f0 f1 : fs) (legacy : path) (fuel : nat) (pp : path)
  (name : string) (inc : bool) (edits : nat -> editor) (replies : list string) : (nat * option string) * fs :=
  match start_text sha256 f0 legacy fuel pp name inc with
  | None => ((1, None), f1)
  | Some (content, token) =>
      match lint_policy inc edits replies (Some content) with
      | (EDied, t) => ((1, t), f1)
      | (EQuit, t) => ((0, t), f1)
      | (EDone, None) => ((1, None), f1)
      | (EDone, Some t) =>
          match client_replace sha256 f1 legacy fuel pp name (univ_nl t) token inc with
          | (Some _, f') => ((0, None), f')
          | (None, f') => ((1, Some t), f')
          end
      end
  end.
(** main 168-202; without an argument 30-user *)
Definition editor_main (sha256 : string -> string) (f0 f1 : fs) (legacy : path) (fuel : nat) (pp : path)
  (arg : option string) (edits : nat -> editor) (replies : list string) : (nat * option string) * fs :=
  let file := match arg with Some a => a | None => "30-user" end in
  let inc := starts "include/" file in
  match validate_name (if inc then sdrop 8 file else file) with
  | None => ((1, None), f1)
  | Some name => manage_policy sha256 f0 f1 legacy fuel pp name inc edits replies
  end.
