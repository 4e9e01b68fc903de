(** File descriptors of the programs that are started: libqrexec/exec.c 222-300 (fix_fds,
    do_fork_exec), libqrexec/open_logger.c 7-38, agent/qrexec-agent-data.c 139-189
    (handle_just_exec), agent/qrexec-agent.c 268-311 (log-in) and 536-576 (wait_for_session_maybe),
    agent/qrexec-client-vm.c 297-336, daemon/qrexec-daemon.c 1104-1144 and 1189-1198, libqrexec/log.c 83-89. Reading,
    writing and what else the programs do is left out. *)
From Coq Require Import List Bool Arith.
Import ListNotations.

(** ** Descriptor tables *)
(** what can be open: something that was opened before, /dev/null, or one of the two ends of a
    connection (a socket pair, or a pipe: its end for reading is [End k false]) *)
Inductive file := Old (n : nat) | Null | End (k : nat) (side : bool).
Record entry := mkEntry { e_file : file; e_cloexec : bool }.
Definition table := nat -> option entry.
Definition put (t : table) (n : nat) (e : option entry) : table := fun m => if Nat.eqb m n then e else t m.
Definition close (t : table) (n : nat) : table := put t n None.
(** the lowest descriptor not in use, below the limit of the process *)
Fixpoint search (t : table) (n fuel : nat) : option nat :=
  match fuel with
  | O => None
  | S fuel' => match t n with None => Some n | Some _ => search t (S n) fuel' end
  end.
Definition open (limit : nat) (t : table) (f : file) (cloexec : bool) : option (nat * table) :=
  match search t 0 limit with
  | Some n => Some (n, put t n (Some (mkEntry f cloexec)))
  | None => None
  end.
(** dup2(a, b) with a <> b, or a = b *)
Definition dup2 (t : table) (a b : nat) : option table :=
  match t a with
  | Some e => Some (if Nat.eqb a b then t else put t b (Some (mkEntry (e_file e) false)))
  | None => None
  end.
Definition dup (limit : nat) (t : table) (a : nat) : option (nat * table) :=
  match t a with Some e => open limit t (e_file e) false | None => None end.
(** socketpair, pipe2: both ends of connection [k] *)
Definition connection (limit : nat) (t : table) (k : nat) (cloexec : bool) : option (nat * nat * table) :=
  match open limit t (End k false) cloexec with
  | Some (a, t1) => match open limit t1 (End k true) cloexec with Some (b, t2) => Some (a, b, t2) | None => None end
  | None => None
  end.
(** execve *)
Definition exec (t : table) : table := fun n => match t n with Some e => if e_cloexec e then None else Some e | None => None end.
(** close_range(3, ~0U, 0); without that system call, a loop up to 255 *)
Definition close_rest (range : bool) (t : table) : table :=
  fun n => if Nat.leb 3 n then (if range then None else if Nat.ltb n 256 then None else t n) else t n.

(** ** log.c 83-89: the first thing that all five programs do: with one of the standard
    descriptors closed they end, with status 125 (None). The table is one that the kernel gives
    to a new program. *)
Definition setup_logging (t : table) : option table :=
  match t 0, t 1, t 2 with Some _, Some _, Some _ => Some t | _, _, _ => None end.

(** ** exec.c *)
(** 222-247. None: the program ends *)
Definition fix_fds (range : bool) (t : table) (fdin fdout fderr : nat) : option table :=
  if (Nat.ltb fdout 1 || Nat.ltb fderr 2)%bool then None
  else
    match (if Nat.eqb fdin 0 then Some t else dup2 t fdin 0) with
    | None => None
    | Some t1 =>
        match (if Nat.eqb fdout 1 then Some t1 else dup2 t1 fdout 1) with
        | None => None
        | Some t2 =>
            match (if Nat.eqb fderr 2 then Some t2 else dup2 t2 fderr 2) with
            | None => None
            | Some t3 => Some (close_rest range t3)
            end
        end
    end.
(** 249-300, with [k], [k+1] and [k+2] new; [fork]: it works. None: -2. Otherwise the table of
    the new program, the table of this one, and the descriptors returned. *)
Record spawned := mkSpawned { s_child : option table; s_parent : table; s_in : nat; s_out : nat; s_err : option nat }.
Definition do_fork_exec (limit : nat) (range fork : bool) (t : table) (k : nat) (err : bool) : option spawned :=
  match connection limit t k true with
  | None => None
  | Some (in0, in1, t1) =>
      match connection limit t1 (S k) true with
      | None => None
      | Some (out0, out1, t2) =>
          match (if err then connection limit t2 (S (S k)) true else Some (0, 2, t2)) with
          | None => None
          | Some (err0, err1, t3) =>
              if fork then
                let child := match fix_fds range t3 in0 out1 err1 with Some c => Some (exec c) | None => None end in
                let p := close (close t3 in0) out1 in
                Some (mkSpawned child (if err then close p err1 else p) in1 out0 (if err then Some err0 else None))
              else None
          end
      end
  end.
(** agent/qrexec-agent.c 268-311: the user is logged in. [t] is the table before the second
    fork: the program, and the process that waits for it *)
Definition login (t : table) : table * table := (exec t, close (close (close t 0) 1) 2).

(** ** open_logger.c: the table of the logger, of this process, and the descriptor *)
Definition open_logger (limit : nat) (range fork : bool) (t : table) (k : nat) : option (option table * table * nat) :=
  match connection limit t k true with
  | None => None
  | Some (p0, p1, t1) =>
      if fork then Some (match fix_fds range t1 p0 1 2 with Some c => Some (exec c) | None => None end, close t1 p0, p1) else None
  end.
(** ** agent-data.c 166-180: the new process, after its fork: the tables of the program and of
    the logger. None: it ends without starting a program *)
Definition just_exec (limit : nat) (range fork : bool) (t : table) (k : nat) (service : bool) : option (table * option table) :=
  match open limit t Null false with
  | None => None
  | Some (fdn, t1) =>
      if service then
        match open_logger limit range fork t1 k with
        | None => None
        | Some (logger, t2, log_fd) => match fix_fds range t2 fdn fdn log_fd with Some c => Some (exec c, logger) | None => None end
        end
      else match fix_fds range t1 fdn fdn fdn with Some c => Some (exec c, None) | None => None end
  end.

(** ** qrexec-client-vm.c 297-336: a local program. [trigger] is the connection to the agent.
    Result: the tables of the program and of this process, the descriptors used, and the saved ones *)
Record local := mkLocal { l_child : option (table * list (nat * nat)); l_parent : table; l_in : nat; l_out : nat }.
Fixpoint save (limit : nat) (t : table) (is : list nat) : option (table * list (nat * nat)) :=
  match is with
  | [] => Some (t, [])
  | i :: is' =>
      match dup limit t i with
      | None => None
      | Some (n, t1) => match save limit t1 is' with Some (t2, l) => Some (t2, (i, n) :: l) | None => None end
      end
  end.
Definition local_program (limit : nat) (t : table) (k : nat) (trigger : nat) (pass_stderr : bool) : option local :=
  match connection limit t k false with
  | None => None
  | Some (in0, in1, t1) =>
      match connection limit t1 (S k) false with
      | None => None
      | Some (out0, out1, t2) =>
          let c1 := close (close (close t2 in1) out0) trigger in
          let child :=
            match save limit c1 (if pass_stderr then [0; 1; 2] else [0; 1]) with
            | None => None
            | Some (c2, saved) =>
                match dup2 c2 in0 0 with
                | None => None
                | Some c3 => match dup2 c3 out1 1 with
                             | None => None
                             | Some c4 => Some (exec (close (close c4 in0) out1), saved)
                             end
                end
            end in
          Some (mkLocal child (close (close t2 in0) out1) in1 out0)
      end
  end.

(** ** qrexec-daemon.c 1189-1198 and 1104-1144: the process that answers a call starts the policy
    program. The connection to the policy daemon has failed and is closed. *)
Definition policy_program (limit : nat) (range : bool) (t : table) (k : nat) : option (option table * table * nat) :=
  match connection limit (close_rest range t) k true with
  | None => None
  | Some (a, b, t1) =>
      let c1 := close t1 a in
      let child := match dup2 c1 b 0 with
                   | None => None
                   | Some c2 => match dup2 c2 b 1 with None => None | Some c3 => Some (exec (close c3 b)) end
                   end in
      Some (child, close t1 b, a)
  end.

(** ** qrexec-agent.c 545-572: qubes.WaitForSession *)
Definition wait_for_session (limit : nat) (t : table) (k : nat) : option (option table * table) :=
  match connection limit t k false with
  | None => None
  | Some (p0, p1, t1) =>
      Some (match dup2 (close t1 p1) p0 0 with Some c => Some (exec c) | None => None end, close (close t1 p0) p1)
  end.
