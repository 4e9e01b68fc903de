(** daemon/qrexec-daemon.c 146-209 (create_qrexec_socket, unlink_qrexec_socket), 1598-1672
    (handle_agent_restart), 437-439 (atexit), and libqrexec/unix-server.c 31-63: the names under which
    the daemons of all qubes can be reached, in the directory that they share. Only the system calls
    on this directory are steps; any number of daemons take them in any order, and may be killed
    between any two. *)
From Coq Require Import String Ascii List Bool Arith.
From Verif Require Import Base.
Import ListNotations.
Open Scope string_scope.
Open Scope list_scope.

(** A directory: sockets (of a process) and symbolic links *)
Inductive entry := Sock (owner : nat) | Link (target : string).
Definition dir := string -> option entry.
Definition put (d : dir) (n : string) (e : option entry) : dir := fun m => if String.eqb m n then e else d m.

(** The qube a daemon is for: the id in decimal, the name and the uuid (arguments of the program) *)
Record ident := mkIdent { i_xid : string; i_name : string; i_uuid : string }.
Definition sock_name (i : ident) : string := "qrexec." +++ i_xid i.
Definition name_link (i : ident) : string := "qrexec." +++ i_name i.
Definition uuid_link (i : ident) : string := "qrexec.uuid:" +++ i_uuid i.

(** System calls *)
Inductive op :=
| Unlink (n : string)            (* unlink_or_exit 146-151, and unlink in get_server_socket *)
| Symlink (target n : string)    (* a failure is only logged, 200-202 *)
| Bind (n : string).             (* and listen; a failure ends the program *)
(** create_qrexec_socket 188-209 with get_server_socket, unix-server.c 31-63 *)
Definition create (i : ident) : list op :=
  [Unlink (uuid_link i); Symlink (sock_name i) (uuid_link i); Unlink (name_link i); Symlink (sock_name i) (name_link i);
   Unlink (sock_name i); Bind (sock_name i)].
(** unlink_qrexec_socket 165-180 *)
Definition remove (i : ident) : list op := [Unlink (name_link i); Unlink (uuid_link i); Unlink (sock_name i)].
(** the effect of a call by process [p]; the boolean: whether the program goes on. Errors other
    than those of the names themselves (disk full, permissions) are not modelled. *)
Definition exec_op (d : dir) (p : nat) (o : op) : dir * bool :=
  match o with
  | Unlink n => (put d n None, true)
  | Symlink t n => match d n with Some _ => (d, true) | None => (put d n (Some (Link t)), true) end
  | Bind n => match d n with Some _ => (d, false) | None => (put d n (Some (Sock p)), true) end
  end.

(** What a daemon is doing: creating its names, serving, removing them because the agent is gone,
    waiting for it, removing them because the program ends; gone *)
Inductive phase := Creating | Serving | Leaving | Waiting | Ending | Gone.
Record proc := mkProc { p_id : ident; p_phase : phase; p_todo : list op }.
Record state := mkState { s_dir : dir; s_procs : list proc }.

(** what comes after the last call of a phase *)
Definition next_phase (f : phase) : phase :=
  match f with Creating => Serving | Leaving => Waiting | Ending => Gone | f => f end.
(** Events: a daemon is through with its preparations (init 436); a daemon makes its next system
    call; the agent of a qube disconnects (1783-1786), or is back (1649-1671), or the program ends
    normally (exit, return from main) which runs unlink_qrexec_socket; it is killed *)
Inductive event := EStart (i : ident) | EOp (p : nat) | ELost (p : nat) | EBack (p : nat) | EExit (p : nat) | EKill (p : nat).

Fixpoint set_nth {A} (l : list A) (n : nat) (x : A) : list A :=
  match l, n with
  | [], _ => []
  | _ :: l', O => x :: l'
  | y :: l', S n' => y :: set_nth l' n' x
  end.
Definition update (s : state) (d : dir) (p : nat) (x : proc) : state := mkState d (set_nth (s_procs s) p x).
(** [None]: it cannot happen. After a failed bind the program ends with exit(1), which removes the
    names. *)
Definition step (s : state) (e : event) : option state :=
  match e with
  | EStart i => Some (mkState (s_dir s) (s_procs s ++ [mkProc i Creating (create i)]))
  | EOp p =>
      match nth_error (s_procs s) p with
      | Some (mkProc i f (o :: todo)) =>
          let '(d, ok) := exec_op (s_dir s) p o in
          if ok then Some (update s d p (mkProc i (match todo with [] => next_phase f | _ => f end) todo))
          else Some (update s d p (mkProc i Ending (remove i)))
      | _ => None
      end
  | ELost p => match nth_error (s_procs s) p with
               | Some (mkProc i Serving _) => Some (update s (s_dir s) p (mkProc i Leaving (remove i)))
               | _ => None
               end
  | EBack p => match nth_error (s_procs s) p with
               | Some (mkProc i Waiting _) => Some (update s (s_dir s) p (mkProc i Creating (create i)))
               | _ => None
               end
  | EExit p => match nth_error (s_procs s) p with
               | Some (mkProc i (Serving | Waiting) _) => Some (update s (s_dir s) p (mkProc i Ending (remove i)))
               | _ => None
               end
  | EKill p => match nth_error (s_procs s) p with
               | Some (mkProc i Gone _) => None
               | Some (mkProc i _ _) => Some (update s (s_dir s) p (mkProc i Gone []))
               | None => None
               end
  end.
Fixpoint run (s : state) (h : list event) : option state :=
  match h with
  | [] => Some s
  | e :: h' => match step s e with Some s' => run s' h' | None => None end
  end.
(** the directory at the beginning may hold anything *)
Definition initial (d : dir) : state := mkState d [].
