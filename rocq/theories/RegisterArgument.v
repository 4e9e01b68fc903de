(** policy.RegisterArgument: qubes-rpc-dom0/policy.RegisterArgument 53-143.

    Simplifications: log messages are not modelled; the exclusive lock on the
    policy directory makes the calls of this program, of the policy
    administration services and of itself one after the other, so a call is one
    step; a write of the whole line either happens or not; text is kept as its
    bytes. *)
From Coq Require Import String Ascii List Bool Arith.
From Verif Require Import Base Rule FileSys Loader.
Import ListNotations.
Open Scope string_scope.
Open Scope list_scope.

(** POLICY_FILE 63 *)
Definition POLICY_FILE : path := POLICYPATH ++ ["60-registered-arguments.policy"].
(** POLICY_RULE 64, formatted 131-135 *)
Definition policy_rule_line (service argument frontend backend : string) : string :=
  service +++ " +" +++ argument +++ " " +++ frontend +++ " " +++ backend +++ " allow" +++ nl.
(** MAX_ARGUMENT_LEN 67 *)
Definition MAX_ARGUMENT_LEN : nat := 64.
(** VALID_CHARS 70 *)
Definition argument_char (c : ascii) : bool :=
  is_lower c || is_upper c || is_digit c || is_char "-" c || is_char "." c || is_char "_" c.

Inductive reg_result :=
| RegDone                 (* exit status 0 *)
| RegDied                 (* die(): message, exit status 1 *)
| RegRaised (e : exn).    (* an exception ends the program: exit status 1 *)

(** open(POLICY_FILE, a) and write 128-140: the file is created if missing *)
Definition append_file (f : fs) (p : path) (text : string) : res fs :=
  match split_last p with
  | None => Err EOs
  | Some (d, _) =>
      match fget f p with
      | Some (NFile (Some c)) => Ok (fset f p (NFile (Some (c +++ text))))
      | Some _ => Err EOs
      | None => if is_dir f d then Ok (fset f p (NFile (Some text))) else Err EOs
      end
  end.

(** main 88-140. [env]: the environment of the process, [stdin]: what the caller
    sends; [fuel] bounds nested includes while the policy is loaded. The lock
    needs the policy directory (os.open with O_DIRECTORY 79). *)
Definition register (f : fs) (legacy : path) (fuel : nat) (env : list (string * string)) (stdin : string)
  : reg_result * fs :=
  match dget env "QREXEC_REMOTE_DOMAIN", dget env "QREXEC_REQUESTED_TARGET", dget env "QREXEC_SERVICE_ARGUMENT" with
  | Some backend, Some frontend, Some rpcname =>
      let argument := stake MAX_ARGUMENT_LEN stdin in
      let overflow := stake 1 (sdrop MAX_ARGUMENT_LEN stdin) in
      if negb (String.eqb overflow "") then (RegDied, f)
      else if String.eqb argument "" then (RegDied, f)
      else if negb (sforall argument_char argument) then (RegDied, f)
      else if negb (is_dir f POLICYPATH) then (RegRaised EOs, f)
      else
        match load_policy f legacy fuel [RUNTIME_POLICY_PATH; POLICYPATH] with
        | Err e => (RegRaised e, f)
        | Ok rules =>
            if existsb (fun r => match r_service r, r_arg r with
                                 | Some s, Some a => String.eqb s rpcname && String.eqb a ("+" +++ argument)
                                 | _, _ => false
                                 end) rules
            then (RegDied, f)
            else
              match append_file f POLICY_FILE (policy_rule_line rpcname argument frontend backend) with
              | Err e => (RegRaised e, f)
              | Ok f' => (RegDone, f')
              end
        end
  | _, _, _ => (RegRaised EKey, f)     (* KeyError *)
  end.
