(** Specification vocabulary: what an agent does over time *)
From Coq Require Import String Ascii List Bool Arith ZArith Permutation.
From Verif Require Import Base Sanitize DaemonAgent Exec Toml Agent.
Import ListNotations.
Open Scope string_scope.
Open Scope list_scope.
Open Scope Z_scope.

(** ** Requests: the commands received from the daemon, and those carried out *)
Definition message_request (type len : Z) (body : string) : request :=
  mkReq type (u32 body) (u32 (sdrop 4 body)) (cstr (stake (Z.to_nat (len - 9)) (sdrop 8 body))).
(** each with the command and the settings as read when it was received *)
Definition received (ev : event) : list (request * option prepared) :=
  match ev with
  | Message e type len body =>
      let q := message_request type len body in
      if ((type =? 512) || (type =? 513)) && (8 <? len) && (len <? 2147483648)
      then [(q, prepare (m_files e) (q_cmdline q))] else []
  | _ => []
  end.
Fixpoint carried_out (out : list output) : list (request * option prepared) :=
  match out with
  | [] => []
  | Started _ q p :: out' => (q, p) :: carried_out out'
  | HandedOver _ q p _ :: out' => (q, Some p) :: carried_out out'
  | _ :: out' => carried_out out'
  end.
(** the requests that may be postponed: service calls whose settings ask to wait for
    the session of the user, except those marked as needing none *)
Definition may_wait (p : option prepared) : Prop :=
  exists c, p = Some c /\ pc_descriptor (pr_cmd c) <> None /\ pc_nogui (pr_cmd c) = false /\
    cf_wait_for_session (pr_config c) = true.
(** the process that waits for the session of a user *)
Fixpoint wait_started (out : list output) (w : option Z) : option Z :=
  match out with
  | [] => w
  | WaitStarted pid _ _ :: out' => wait_started out' (Some pid)
  | _ :: out' => wait_started out' w
  end.
Definition wait_after (ev : event) (out : list output) (w : option Z) : option Z :=
  wait_started out
    match ev, w with
    | Reaped pid _, Some p => if pid =? p then None else w
    | _, _ => w
    end.

(** ** Connections: each is served by a process or known by a socket *)
Inductive handle := HProc (pid : Z) | HSock (fd : Z).
Record conn := mkLive { l_handle : handle; l_domain : Z; l_port : Z }.
Fixpoint opened (out : list output) : list conn :=
  match out with
  | [] => []
  | Started pid q _ :: out' => mkLive (HProc pid) (q_domain q) (q_port q) :: opened out'
  | HandedOver fd q _ _ :: out' => mkLive (HSock fd) (q_domain q) (q_port q) :: opened out'
  | ParamsTo fd domain port :: out' => mkLive (HSock fd) domain port :: opened out'
  | _ :: out' => opened out'
  end.
(** the end of a connection: its process was reaped, its socket was closed *)
Definition ends (ev : event) (c : conn) : bool :=
  match ev, l_handle c with
  | Reaped pid _, HProc p => pid =? p
  | Polled ready, HSock fd => ready fd
  | _, _ => false
  end.
Definition ended (ev : event) (live : list conn) : list conn := filter (ends ev) live.
Definition live_after (ev : event) (out : list output) (live : list conn) : list conn :=
  filter (fun c => negb (ends ev c)) live ++ opened out.
Definition address (c : conn) : Z * Z := (l_domain c, l_port c).
(** the ends reported to the daemon *)
Fixpoint reported (out : list output) : list (Z * Z) :=
  match out with
  | [] => []
  | Terminated domain port :: out' => (domain, port) :: reported out'
  | _ :: out' => reported out'
  end.

(** ** Histories of an agent: each step with what was done in it *)
Inductive history (enabled : bool) : list (event * list output) -> agent -> Prop :=
| h_start : history enabled [] start
| h_step h s ev s' out : history enabled h s -> step enabled ev s = (s', out) -> dies out = false ->
    history enabled (h ++ [(ev, out)]) s'.

Definition all_received (h : list (event * list output)) : list (request * option prepared) := flat_map (fun x => received (fst x)) h.
Definition all_carried_out (h : list (event * list output)) : list (request * option prepared) := flat_map (fun x => carried_out (snd x)) h.
Definition waiting_process (h : list (event * list output)) : option Z :=
  fold_left (fun w x => wait_after (fst x) (snd x) w) h None.
Definition live_connections (h : list (event * list output)) : list conn :=
  fold_left (fun l x => live_after (fst x) (snd x) l) h [].

Definition all_opened (h : list (event * list output)) : list conn := flat_map (fun x => opened (snd x)) h.
Definition all_reported (h : list (event * list output)) : list (Z * Z) := flat_map (fun x => reported (snd x)) h.
(** a connection that was opened, and is forgotten at once *)
Definition is_noslot (o : output) : bool := match o with NoSlot _ _ => true | _ => false end.

(** What the system guarantees: processes have positive numbers, different from
    those of the processes not reaped yet; descriptors of sockets in use are
    different and not negative. [fork] never fails. *)
Definition handle_ok (c : handle) : Prop := match c with HProc pid => pid > 0 | HSock fd => fd >= 0 end.
Definition system_ok (h : list (event * list output)) : Prop :=
  forall h1 ev out h2, h = h1 ++ (ev, out) :: h2 ->
    let live := live_after ev out (live_connections h1) in
    NoDup (map l_handle live) /\ (forall c, In c live -> handle_ok (l_handle c)) /\
    (forall w, waiting_process (h1 ++ [(ev, out)]) = Some w -> w > 0 /\ ~ In (HProc w) (map l_handle live)) /\
    (forall pid envs, ev = Reaped pid envs -> pid > 0).
(** never more connections than the table holds *)
Definition few_connections (h : list (event * list output)) : Prop :=
  forall h1 h2, h = h1 ++ h2 -> (List.length (live_connections h1) <= 256)%nat.
