(** Model: where qrexec-policy-graph reads and writes (qrexec/tools/qrexec_policy_graph.py, main) *)
From Coq Require Import String Ascii List Bool Arith ZArith.
From Verif Require Import Base SysInfo Token Rule Policy Graph.
Import ListNotations.
Open Scope string_scope.
Open Scope list_scope.

(** The texts of files, by path; there are no links. [None]: there is no such file, or it cannot be read. *)
Definition files := string -> option string.
Definition put (f : files) (p t : string) : files := fun x => if String.eqb x p then Some t else f x.

(** The loops of main, 218-268, with the lines that are written before an exception: a combination writes
    all its lines or none. *)
Fixpoint each_log {A B} (g : A -> list B * option exn) (l : list A) : list B * option exn :=
  match l with
  | [] => ([], None)
  | x :: l' => match g x with
               | (a, Some e) => (a, Some e)
               | (a, None) => let '(b, e) := each_log g l' in (a ++ b, e)
               end
  end.
Definition logged {B} (r : res (list B)) : list B * option exn :=
  match r with Ok l => (l, None) | Err e => ([], Some e) end.
Definition graph_log (i : info) (color : string -> string) (a : gargs) (rules : list rule) : list string * option exn :=
  each_log (fun p =>
      match skip_service a p with
      | Err e => ([], Some e)
      | Ok true => ([], None)
      | Ok false => each_log (fun s => each_log (fun t => logged (combination i color a rules p s t)) (graph_targets i)) (graph_sources i a)
      end)
    (sort_by pair_leb (graph_services a rules)).

Record run := mkRun { r_files : files; r_stdout : string; r_status : Z }.

(** an option whose text is empty is as if it were not given: if args.output, if args.system_info *)
Definition given (o : option string) : option string := match o with Some s => if String.eqb s "" then None else Some s | None => None end.

(** main, 158-275. [texts_ok]: the texts of --source and --target are accepted (otherwise argparse ends the
    program with status 2). [writable p]: the file p can be opened for writing. [json] reads a description
    of the system ([None]: an exception), [qubesd] is the one that qubesd gives; [load] reads the policy
    directory, as it is then. An exception ends the program with status 1; what was written to the file
    before is in it then (the file object is closed when the interpreter ends). Writing does not fail. *)
Definition graph_run (writable : string -> bool) (json : string -> option info) (qubesd : option info)
  (load : files -> res (list rule)) (color : info -> string -> string) (texts_ok : bool) (a : gargs)
  (output system_info : option string) (f : files) : run :=
  if negb texts_ok then mkRun f "" 2
  else
    let opened := match given output with
                  | Some o => if writable o then Some (put f o "") else None
                  | None => Some f
                  end in
    match opened with
    | None => mkRun f "" 1
    | Some f1 =>
        match match given system_info with
              | Some p => match f1 p with Some t => json t | None => None end
              | None => qubesd
              end with
        | None => mkRun f1 "" 1
        | Some i =>
            match load f1 with
            | Err _ => mkRun f1 "" 1
            | Ok rules =>
                let '(lines, e) := graph_log i (color i) a rules in
                let text := String.concat "" (("digraph g {" +++ nl) :: once [] lines ++ match e with None => ["}" +++ nl] | Some _ => [] end) in
                let status := match e with None => 0%Z | Some _ => 1%Z end in
                match given output with
                | Some o => mkRun (put f1 o text) "" status
                | None => mkRun f1 text status
                end
            end
        end
    end.
