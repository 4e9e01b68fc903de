(** qubes-rpc-base/qubes.WaitForSession: the program that waits for the session of a user. It is
    started by qrexec-agent (agent/qrexec-agent.c 536-577, libqrexec/exec.c 931-949) for the
    calls of services with wait-for-session, and by dom0 as a service. *)
From Coq Require Import String Ascii List Bool Arith.
From Verif Require Import Base UnixSocket.
Import ListNotations.
Open Scope string_scope.
Open Scope list_scope.
Open Scope nat_scope.

(** What the script finds: $QREXEC_SERVICE_ARGUMENT (empty if not set), whether there is a program
    qrexec-client, what qubesdb-read prints for /qubes-gui-enabled and for /default-user (None: it
    fails), its standard input, and the statuses of systemctl is-system-running and of systemctl
    --failed. Simplified: writing to the standard error works, and so does id -u. *)
Record machine := mkMachine {
  m_argument : string; m_dom0 : bool; m_gui : string; m_user : option string; m_input : string;
  m_running : nat; m_listing : nat }.
(** test -e: links are followed *)
Fixpoint there (fuel : nat) (fs : names) (p : string) : bool :=
  match fs p with
  | None => false
  | Some (Link to) =>
      match fuel with
      | O => false
      | S fuel' => there fuel' fs (if starts "/" to then to else dir_of p +++ to)
      end
  | Some _ => true
  end.
(** 10-12: the loop. The elements of [times] are what happens to the sockets before it looks for
    the first time, between this and the second time, and so on. Some: what is left when the loop
    ends. None: it does not end in these times. *)
Fixpoint wait_loop (path : string) (fs : names) (times : list (list happens)) : option (list (list happens)) :=
  match times with
  | [] => None
  | t :: times' =>
      let fs' := after fs t in
      if there MAX_LINKS fs' path then Some times' else wait_loop path fs' times'
  end.
(** 9, 10: the file *)
Definition session_file (m : machine) : string :=
  "/var/run/qubes/qrexec-server." +++ (match m_user m with Some u => u | None => "user" end) +++ ".sock".
(** 15-24, under set -e *)
Definition session_status (m : machine) : nat :=
  if m_running m =? 0 then 0 else if m_listing m =? 0 then m_running m else m_listing m.
(** the whole, 5-41: its status, and what happens after it has looked for the last time *)
Definition wait_for_session (m : machine) (fs : names) (times : list (list happens)) : option (nat * list (list happens)) :=
  if String.eqb (m_argument m) "" then
    if negb (m_dom0 m) && String.eqb (m_gui m) "True" then
      option_map (fun rest => (session_status m, rest)) (wait_loop (session_file m) fs times)
    else Some (session_status m, times)
  else Some (0, times).
