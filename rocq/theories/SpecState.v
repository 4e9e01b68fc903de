(** Specification vocabulary: histories of a qrexec daemon. A history is the list
    of what happened, newest first: an event and what the daemon sent in reaction.
    Nothing here looks at the state of the daemon. *)
From Coq Require Import String Ascii List Bool Arith ZArith.
From Verif Require Import Base Sanitize DaemonState.
Import ListNotations.
Open Scope string_scope.
Open Scope list_scope.
Open Scope Z_scope.

Definition history := list (devent * list output).

(** The histories of a daemon that serves the qube [remote], whose agent first
    spoke version [version], and the state they lead to *)
Inductive runs (default_user : string) (remote version : Z) : history -> daemon -> Prop :=
| runs_start : runs default_user remote version [] (init remote version)
| runs_step h s ev outs s' :
    runs default_user remote version h s -> dstep default_user s ev = Some (s', outs) ->
    runs default_user remote version ((ev, outs) :: h) s'.

(** ** Ports *)

(** An unsigned 32 bit number in a message, least significant byte first, and the
    same as a signed number *)
Definition number (b0 b1 b2 b3 : ascii) : Z :=
  Z.of_nat (nat_of_ascii b0) + 256 * Z.of_nat (nat_of_ascii b1)
  + 65536 * Z.of_nat (nat_of_ascii b2) + 16777216 * Z.of_nat (nat_of_ascii b3).
Definition signed (n d : Z) : Prop := -2147483648 <= d < 2147483648 /\ (n = d \/ n = d + 4294967296).

(** The daemon gives a client the port [p] for a connection to domain [d] *)
Definition hands_out (outs : list output) (d p : Z) : Prop := exists fd, In (PortToClient fd d p) outs.

(** The agent tells that the connection with domain [d] on port [p] is over *)
Definition reports_end (ev : devent) (d p : Z) : Prop :=
  exists a0 a1 a2 a3 b0 b1 b2 b3 pid,
    ev = FromAgent 529 8 (string_of_list_ascii [a0; a1; a2; a3; b0; b1; b2; b3]) pid /\
    signed (number a0 a1 a2 a3) d /\ number b0 b1 b2 b3 = p.

(** Port [p] was handed out for domain [d], and the end of that connection has not
    been reported since *)
Inductive in_use : history -> Z -> Z -> Prop :=
| iu_now ev outs h d p : hands_out outs d p -> in_use ((ev, outs) :: h) d p
| iu_still ev outs h d p : in_use h d p -> ~ reports_end ev d p -> in_use ((ev, outs) :: h) d p.

(** The ports a daemon may give for connections between its qube [remote] and
    [d]: all for dom0, otherwise every other one *)
Definition eligible (remote d p : Z) : Prop :=
  513 <= p < 769 /\ (d = 0 \/ (d > remote /\ Z.Even p) \/ (d <= remote /\ Z.Odd p)).

(** No client asks for a connection to domain 0xFFFFFFFF *)
Definition names_domain (ev : devent) (d : Z) : Prop :=
  exists fd type len a0 a1 a2 a3 rest ok,
    ev = FromClient fd (ClientMessage type len (String a0 (String a1 (String a2 (String a3 rest))))) ok /\
    signed (number a0 a1 a2 a3) d.
Definition sane_domains (h : history) : Prop :=
  forall ev outs, In (ev, outs) h -> ~ names_domain ev (-1).

(** ** Service calls *)

(** The identifier in a message that calls a service (it may be refused at once) *)
Definition asks (ev : devent) : option string :=
  match ev with
  | FromAgent type _ body _ =>
      if type =? 528 then Some (cstr (stake 32 (sdrop 96 body)))
      else if type =? 530 then Some (cstr (stake 32 (sdrop 64 body)))
      else if type =? 531 then Some (cstr (stake 32 (sdrop 128 body)))
      else None
  | _ => None
  end.

(** The answers the agent gets for a call: refusal, or connection *)
Definition refusal_of (x : string) (o : output) : bool :=
  match o with Refused y => String.eqb y x | _ => false end.
Definition connection_of (x : string) (o : output) : bool :=
  match o with ToAgent type _ _ _ text => (type =? 514) && String.eqb (cstr text) x | _ => false end.
Definition answer_of (x : string) (o : output) : bool := refusal_of x o || connection_of x o.
Definition number_of {A} (f : A -> bool) (l : list A) : nat := length (filter f l).

(** The part of a history since the agent last (re)connected *)
Fixpoint since_restart (h : history) : history :=
  match h with
  | [] => []
  | (AgentRestarted _, _) :: _ => []
  | e :: h' => e :: since_restart h'
  end.
Definition calls (h : history) (x : string) : nat :=
  number_of (fun e => match asks (fst e) with Some y => String.eqb y x | None => false end) (since_restart h).
Definition answers (h : history) (x : string) : nat :=
  number_of (answer_of x) (flat_map snd (since_restart h)).

(** A call [x] was not refused at once: process [q] was started for it *)
Definition starts_process (e : devent * list output) (x : string) (q : Z) : Prop :=
  asks (fst e) = Some x /\ snd e = [] /\ match fst e with FromAgent _ _ _ pid => pid = q | _ => False end.

(** The policy processes that are running *)
Fixpoint running (h : history) : list Z :=
  match h with
  | [] => []
  | (ev, outs) :: h' =>
      match ev, asks ev, outs with
      | FromAgent _ _ _ pid, Some _, [] => pid :: running h'
      | ChildEnded pid _, _, _ => remove Z.eq_dec pid (running h')
      | _, _, _ => running h'
      end
  end.

(** What the kernel guarantees: a new process has a positive number that no
    running process has; and, as an assumption, that no policy process is killed by
    a signal *)
Inductive no_kill : history -> Prop :=
| nk_nil : no_kill []
| nk_cons ev outs h : no_kill h ->
    (forall x q, starts_process (ev, outs) x q -> 0 < q /\ ~ In q (running h)) ->
    (forall q, ev <> ChildEnded q Signaled) ->
    no_kill ((ev, outs) :: h).

(** A client asks to connect the call [x] *)
Definition connect_request (ev : devent) (x : string) : Prop :=
  exists fd len b0 b1 b2 b3 b4 b5 b6 b7 text rest ok,
    ev = FromClient fd (ClientMessage 514 len
           (String b0 (String b1 (String b2 (String b3 (String b4 (String b5 (String b6 (String b7
             (text +++ rest)))))))))) ok /\ cstr text = x /\ text <> "" /\
    len = 8 + Z.of_nat (String.length text).

(** ... and that goes through *)
Definition connects (outs : list output) (x : string) : Prop :=
  exists o, In o outs /\ connection_of x o = true.

(** A call [x], treated by process [q], is in progress at the end of history [h]:
    it was the start of [q], and [since] is what happened after that, neither the
    end of the process nor a restart of the agent *)
Definition in_progress (h since : history) (x : string) (q : Z) : Prop :=
  exists e before, h = since ++ e :: before /\ starts_process e x q /\
    forall ev outs, In (ev, outs) since -> (forall k, ev <> ChildEnded q k) /\ (forall v, ev <> AgentRestarted v).

(** A client's command: its type, the domain and the port it names, and the text
    (with the NUL byte at its end); [rest] is what else may be in the pipe *)
Inductive command : client_data -> Z -> Z -> Z -> string -> Prop :=
| command_intro type a0 a1 a2 a3 b0 b1 b2 b3 text rest :
    8 + Z.of_nat (String.length (text +++ str1 NUL)) <= 65535 ->
    command (ClientMessage type (8 + Z.of_nat (String.length (text +++ str1 NUL)))
              (String a0 (String a1 (String a2 (String a3 (String b0 (String b1 (String b2 (String b3
                 ((text +++ str1 NUL) +++ rest))))))))))
            type (number a0 a1 a2 a3) (number b0 b1 b2 b3) (text +++ str1 NUL).
