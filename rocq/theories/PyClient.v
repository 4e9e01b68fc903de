(** qrexec/client.py 37-80 (call, call_async) and qrexec/utils.py 179-203
    (prepare_subprocess_kwds). A Python string is its text in UTF-8. *)
From Coq Require Import String Ascii List Bool Arith.
From Verif Require Import Base FileSys ClientTools.
Import ListNotations.
Open Scope string_scope.
Open Scope list_scope.

(** the parameter input *)
Inductive input :=
| NoInput                (* None *)
| Bytes (s : string)
| Text (s : string)      (* str *)
| File (fd : nat).       (* anything else: a file with a descriptor *)
(** the values of the keyword stdin *)
Inductive stdin_kwd := Devnull | Pipe | Fd (fd : nat).
Record kwds := mkKwds { k_stdin : option stdin_kwd; k_input : option string; k_stdout : bool; k_stderr : bool }.
(** prepare_subprocess_kwds, utils.py 179-203; k_stdout, k_stderr: whether it is there, with the
    value PIPE *)
Definition prepare_subprocess_kwds (i : input) (for_popen for_check : bool) : kwds :=
  let pipe := if for_popen then Some Pipe else None in
  match i with
  | NoInput => mkKwds (Some Devnull) None (negb for_check) true
  | Bytes s => mkKwds pipe (Some s) (negb for_check) true
  | Text s => mkKwds pipe (Some s) (negb for_check) true
  | File fd => mkKwds (Some (Fd fd)) None (negb for_check) true
  end.

(** what a program that is run has as its standard input: nothing, these bytes and then the end of
    the file, a file, or that of the caller *)
Inductive source := Empty | Data (s : string) | FromFile (fd : nat) | Inherited.
(** a program that is run *)
Record ran := mkRan { r_argv : list string; r_stdin : source;
  r_stderr : bool   (* its error messages are read, not shown to the user *) }.
(** what the caller gets *)
Inductive result :=
| Returned (text : string)
| CalledProcessError (status : nat)
| Raised.                                   (* another exception *)
(** [run r]: how the program ends (a nonzero status, also if by a signal), and what it writes to
    standard output; for programs that can be started *)
Definition runs := ran -> nat * string.
Definition source_of (k : option stdin_kwd) (data : string) : source :=
  match k with Some Devnull => Empty | Some Pipe => Data data | Some (Fd fd) => FromFile fd | None => Inherited end.
Definition finish (o : nat * string) : result :=
  let '(status, out) := o in
  if Nat.eqb status 0 then if utf8_valid out then Returned out else Raised else CalledProcessError status.

(** subprocess.check_output( *command, **kwds).decode(): ValueError if stdout is given, or both
    stdin and input *)
Definition check_output (run : runs) (command : list string) (k : kwds) : option ran * result :=
  if k_stdout k then (None, Raised)
  else match k_stdin k, k_input k with
       | Some _, Some _ => (None, Raised)
       | None, Some data => let r := mkRan command (Data data) (k_stderr k) in (Some r, finish (run r))
       | si, None => let r := mkRan command (source_of si "") (k_stderr k) in (Some r, finish (run r))
       end.
(** client.py 37-55 *)
Definition call (run : runs) (in_dom0 : option bool) (dest rpcname : string) (arg : option string) (i : input) : option ran * result :=
  match make_command in_dom0 dest rpcname arg with
  | None => (None, Raised)
  | Some command => check_output run command (prepare_subprocess_kwds i false true)
  end.
(** client.py 58-80: kwds.pop("input") raises KeyError if there is none; without a pipe for
    the output (which there always is) None has no decode() *)
Definition call_async (run : runs) (in_dom0 : option bool) (dest rpcname : string) (arg : option string) (i : input) : option ran * result :=
  match make_command in_dom0 dest rpcname arg with
  | None => (None, Raised)
  | Some command =>
      let k := prepare_subprocess_kwds i true false in
      match k_input k with
      | None => (None, Raised)
      | Some to_communicate =>
          let r := mkRan command (source_of (k_stdin k) to_communicate) (k_stderr k) in
          (Some r, if k_stdout k then finish (run r) else Raised)
      end
  end.
