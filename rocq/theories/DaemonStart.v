(** daemon/qrexec-daemon.c 289-457 (init) and 1674-1751 (main, before the loop): the start of
    qrexec-daemon. Opening of /dev/null in main succeeds; messages are not modelled. *)
From Coq Require Import String Ascii List Bool Arith ZArith.
From Verif Require Import Base ClientTools.
From Verif Require VchanTimeout.
Import ListNotations.
Open Scope string_scope.
Open Scope list_scope.
Open Scope Z_scope.

(** ** atoi of the GNU C library: (int) strtol(s, NULL, 10) *)
Definition c_space (c : ascii) : bool := let n := nat_of_ascii c in ((Nat.eqb n 32) || ((Nat.leb 9 n) && (Nat.leb n 13)))%bool.
Fixpoint skip_space (s : string) : string :=
  match s with String c s' => if c_space c then skip_space s' else s | EmptyString => "" end.
Fixpoint leading (acc : Z) (s : string) : Z :=
  match s with
  | String c s' => if Exec.digit c then leading (10 * acc + (Z.of_nat (nat_of_ascii c) - 48)) s' else acc
  | EmptyString => acc
  end.
Definition LONG_MAX : Z := 9223372036854775807.
Definition to_long (n : Z) : Z := Z.max (- LONG_MAX - 1) (Z.min LONG_MAX n).
Definition to_int (n : Z) : Z := let m := n mod 4294967296 in if m <? 2147483648 then m else m - 4294967296.
Definition atoi (s : string) : Z :=
  to_int (to_long (match skip_space s with
                   | String c s' => if Ascii.eqb c "-" then - leading 0 s' else if Ascii.eqb c "+" then leading 0 s' else leading 0 (String c s')
                   | EmptyString => 0
                   end)).

(** ** main, 1674-1751 *)
Definition d_shorts : shorts := [("h"%char, false); ("q"%char, false); ("p"%char, true); ("D"%char, false); ("u"%char, true)].
Definition d_longs : longs := [("help", (false, "h")); ("quiet", (false, "q")); ("socket-dir", (true, "dir")); ("policy-program", (true, "p"));
  ("direct", (false, "D")); ("uuid", (true, "u"))].
Record d_opts := mkOpts { o_quiet : bool; o_dir : string; o_policy : string; o_direct : bool; o_uuid : option string }.
Definition d_start : d_opts := mkOpts false "/var/run/qubes" "/usr/bin/qrexec-policy-exec" false None.
(** 1717-1740; usage() ends the program with status 1 *)
Definition d_option (o : found) (c : d_opts) : d_opts + Z :=
  match o with
  | ("q", _) => inl (mkOpts true (o_dir c) (o_policy c) (o_direct c) (o_uuid c))
  | ("dir", Some x) => inl (mkOpts (o_quiet c) x (o_policy c) (o_direct c) (o_uuid c))
  | ("p", Some x) => inl (mkOpts (o_quiet c) (o_dir c) x (o_direct c) (o_uuid c))
  | ("D", _) => inl (mkOpts (o_quiet c) (o_dir c) (o_policy c) true (o_uuid c))
  | ("u", Some x) => inl (mkOpts (o_quiet c) (o_dir c) (o_policy c) (o_direct c) (Some x))
  | _ => inr 1
  end.
Record config := mkConfig { g_quiet : bool; g_dir : string; g_policy : string; g_direct : bool; g_uuid : string; g_id : Z; g_name : string; g_user : string }.
(** the start of the program: it ends with a status, or goes on to init. The check of the id is
    the first step of init, 299-302. *)
Definition d_main (argv : list string) : config + Z :=
  let (fs, ps) := getopt false d_shorts d_longs argv in
  match options d_option fs d_start with
  | inr n => inr n
  | inl o =>
      match ps, o_uuid o with
      | [id; name], Some u => if atoi id <=? 0 then inr 1 else inl (mkConfig (o_quiet o) (o_dir o) (o_policy o) (o_direct o) u (atoi id) name "user")
      | [id; name; user], Some u => if atoi id <=? 0 then inr 1 else inl (mkConfig (o_quiet o) (o_dir o) (o_policy o) (o_direct o) u (atoi id) name user)
      | _, _ => inr 1
      end
  end.

(** ** init, 289-457 *)
(** 303-309: the time limit for the connection to the agent, from QREXEC_STARTUP_TIMEOUT *)
Definition startup_timeout (var : option string) : Z :=
  match var with
  | Some s => if atoi s <=? 0 then 60 else atoi s
  | None => 60
  end.
(** the steps of the daemon, after the fork, in this order *)
Inductive stage := Chdir | LogFile | Redirect | Session | Connect | Hello | Group | User | Sockets | Signals | Report.
(** [nowait]: QREXEC_STARTUP_NOWAIT is set *)
Definition stages (c : config) (nowait : bool) : list stage :=
  [Chdir] ++ (if g_direct c then [] else [LogFile; Redirect; Session]) ++ [Connect; Hello; Group; User; Sockets; Signals] ++
  (if negb nowait && negb (g_direct c) then [Report] else []).
(** how a step ends; that time is over is possible for Connect, with a time limit, only *)
Inductive how := Fine | Fails | TimesOut.
(** 364-367: the name of the log file must fit 256 bytes *)
Definition log_fits (name : string) : bool := Nat.ltb (String.length ("/var/log/qubes/qrexec." +++ name +++ ".log")) 256.
Definition actual (c : config) (nowait : bool) (s : stage) (h : how) : how :=
  match s, h with
  | LogFile, Fine => if log_fits (g_name c) then Fine else Fails
  | Connect, TimesOut => if nowait then Fails else TimesOut
  | _, TimesOut => Fails
  | _, h => h
  end.
(** what becomes of the daemon: it enters the main loop, ends with a status, or is killed; with
    the byte written to the pipe to the program that started it, and the steps that were done *)
Inductive fate := Serves | Ended (status : Z) | Killed.
Fixpoint perform (c : config) (nowait : bool) (ss : list stage) (hs : list how) : fate * option Z * list stage :=
  match ss, hs with
  | [], _ => (Serves, None, [])
  | _ :: _, [] => (Killed, None, [])
  | s :: ss', h :: hs' =>
      match actual c nowait s h with
      | Fine => let '(f, b, done) := perform c nowait ss' hs' in (f, match s with Report => Some 0 | _ => b end, s :: done)
      | TimesOut => (Ended 3, if g_direct c then None else Some 1, [])
      | Fails => (Ended (match s with Connect => 3 | _ => 1 end), None, [])
      end
  end.
(** the program that was started, 325-356: it waits for the byte *)
Definition starter (nowait : bool) (byte : option Z) : Z :=
  if nowait then 0
  else match byte with
       | None => 1
       | Some b => if b =? 0 then 0 else 3
       end.
(** [ok]: the system calls of the program that was started (pipe2, fork, poll, read) do not fail.
    With --direct there is no other program. *)
Definition init (c : config) (nowait ok : bool) (hs : list how) : option Z * fate * list stage :=
  let '(f, b, done) := perform c nowait (stages c nowait) hs in
  if g_direct c then (None, f, done)
  else if ok then (Some (starter nowait b), f, done) else (Some 1, Killed, []).
(** the step Connect, with a time limit: libvchan_client_init_async ([created]) and
    qubes_wait_for_vchan_connection_with_timeout *)
Definition connect (created : bool) (var : option string) (now : option VchanTimeout.timespec) (ts : list VchanTimeout.turn) : how :=
  if created then
    match fst (VchanTimeout.wait_for_connection false (startup_timeout var) now ts) with
    | Some (VchanTimeout.Returned z) => if z <? 0 then TimesOut else Fine
    | _ => Fails
    end
  else Fails.
