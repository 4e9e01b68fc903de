(** qrexec-agent: its command line (agent/qrexec-agent.c 883-924), start (393-416) and end
    (940, 1006-1010), and the sockets of fork servers (455-482). The main loop is in AgentLoop. *)
From Coq Require Import String Ascii List Bool Arith ZArith.
From Verif Require Import Base ClientTools Agent AgentLoop.
From Verif Require UnixSocket.
Import ListNotations.
Open Scope string_scope.
Open Scope list_scope.
Open Scope Z_scope.

(** ** The command line, 883-924 *)
Definition a_shorts : shorts := [("h"%char, false); ("a"%char, true); ("s"%char, true); ("S"%char, false)].
Definition a_longs : longs := [("help", (false, "h")); ("agent-socket", (true, "a")); ("fork-server-socket", (true, "s")); ("no-fork-server", (false, "S"))].
(** 80-81: agent_trigger_path, and fork_server_path, None: NULL *)
Record a_opts := mkA { o_trigger : string; o_template : option string }.
(** libqrexec/qrexec.h 183, agent/qrexec-agent.h 28 *)
Definition a_default : a_opts := mkA "/var/run/qubes/qrexec-agent" (Some "/var/run/qubes/qrexec-server.%s.sock").
(** 905-923; usage() ends the program with status 2 *)
Definition a_option (o : found) (c : a_opts) : a_opts + Z :=
  match o with
  | ("a", Some x) => inl (mkA x (o_template c))
  | ("s", Some x) => inl (mkA (o_trigger c) (Some x))
  | ("S", _) => inl (mkA (o_trigger c) None)
  | _ => inr 2
  end.
(** other arguments are ignored *)
Definition a_main (argv : list string) : a_opts + Z := options a_option (fst (getopt false a_shorts a_longs argv)) a_default.

(** ** Fork servers *)
(** 464: asprintf(fork_server_path, username), for texts with %s, once, and %%. None: anything else,
    what it does is not defined *)
Fixpoint format (t : string) (arg : option string) : option string :=
  match t with
  | EmptyString => Some ""
  | String c t' =>
      if Ascii.eqb c "%" then
        match t' with
        | String d t'' =>
            if Ascii.eqb d "s" then match arg with Some u => option_map (append u) (format t'' None) | None => None end
            else if Ascii.eqb d "%" then option_map (String "%") (format t'' arg)
            else None
        | EmptyString => None
        end
      else option_map (String c) (format t' arg)
  end.
(** 455-456 and 464-482: the server that is connected; the length of the address is that of the name,
    and the empty name is refused (EINVAL) *)
Definition fork_server (template : option string) (fs : UnixSocket.names) (user : string) : option nat :=
  match template with
  | None => None
  | Some t =>
      match format t (Some user) with
      | None => None
      | Some p => if String.eqb p "" then None else UnixSocket.reaches UnixSocket.MAX_LINKS fs (stake (UnixSocket.SUN_PATH - 1) p)
      end
  end.
(** 455: fork_server_path is not NULL *)
Definition enabled (o : a_opts) : bool := match o_template o with Some _ => true | None => false end.

(** ** Start and end *)
(** init, 393-416: whether the vchan can be created, whether the handshake works, whether the system
    calls for the socket do, whether the daemon connects at some time, NOTIFY_SOCKET *)
Record environ := mkEnviron { e_vchan : bool; e_hello : bool; e_socket : bool; e_daemon : bool; e_notify : bool }.
Inductive ending := Running | Ended (status : Z) | Aborted.
(** 940-1006: the turns of the loop, and for each whether SIGTERM has come at its end; [term]: SIGTERM
    has come *)
Fixpoint loop (en : bool) (s : agent) (term : bool) (ts : list (turn * bool)) : list (list output) * ending :=
  if term then ([], Ended 0)
  else match ts with
       | [] => ([], Running)
       | (t, term') :: ts' =>
           match one_turn en s t with
           | (done, Goes s') => let (done', r) := loop en s' term' ts' in (done ++ done', r)
           | (done, Exits) => (done, Ended 1)
           | (done, Aborts) => (done, Aborted)
           end
       end.
(** what is seen of an agent: how it ended, the names then, whether it has said that it is ready, what
    the handlers did *)
Record life := mkLife { l_end : ending; l_names : UnixSocket.names; l_ready : bool; l_done : list (list output) }.
(** main, 902-1011: the agent number [n], with names [fs]. Other programs do not change the names. *)
Definition run (argv : list string) (e : environ) (fs : UnixSocket.names) (n : nat) (term : bool) (ts : list (turn * bool)) : life :=
  match a_main argv with
  | inr k => mkLife (Ended k) fs false []
  | inl o =>
      if negb (e_vchan e && e_hello e) then mkLife (Ended 1) fs false []
      else match UnixSocket.get_server_socket (e_socket e) fs n (o_trigger o) with
           | None => mkLife (Ended 1) (UnixSocket.unlink fs (o_trigger o)) false []
           | Some fs1 =>
               if negb (e_daemon e) then mkLife Running fs1 false []
               else let (done, r) := loop (enabled o) Agent.start term ts in
                    mkLife r (match r with Ended 0 => UnixSocket.unlink fs1 (o_trigger o) | _ => fs1 end) (e_notify e) done
           end
  end.
