(** What the two ends of a call exchange over the data vchan, and what is assumed of
    their surroundings *)
From Coq Require Import String Ascii List Bool Arith ZArith.
From Verif Require Import Io Stream SpecStream ProcessIo.
Import ListNotations.
Open Scope list_scope.

(** One end of a call: how the connection is set up, and what the local process will
    write: [en_prefix] (the data given on the command line), then [en_src] on stdout
    ([en_sock] is what can be read from its stdin when that is a socket), [en_err] on
    stderr. [en_buf] is what is in the stdin buffer at the beginning, [en_base] the
    memory used by other buffers. *)
Record endpoint := {
  en_cfg : pcfg; en_single : bool; en_haserr : bool; en_base : Z; en_buf : bytes; en_prefix : bytes; en_src : bytes; en_sock : bytes; en_err : bytes }.
(** That end after the iterations [es], when the peer sends [input] *)
Definition en_run (p : endpoint) (ok : bool) (input : bytes) (es : list penv) : poutcome :=
  pio_run (en_cfg p) es
    (pio_start (en_cfg p) (en_haserr p) (en_single p) ok (en_base p) (en_buf p) (en_prefix p) (en_src p) (en_sock p) (en_err p) input).
Definition state_of (o : poutcome) : option pio :=
  match o with PGo s | PDone s | PDie s => Some s | PAbort => None end.

(** The ends as the programs set them up: qrexec-agent and qrexec-client[-vm] with or
    without a service. Only clients have prefix data (the one exception, qrexec-client
    with both -c and -p, is left out); clients have no stderr to forward and no
    exit-on-eof options; these options of socket services go with a single socket. *)
Definition sensible (p : endpoint) : Prop :=
  let c := en_cfg p in
  0 < c_max (pc_rx c) /\ (Z.of_nat (c_max (pc_rx c)) < 4294967296)%Z /\
  (service c = true -> en_prefix p = []) /\
  (service c = false -> en_haserr p = false /\ pc_exit_stdin c = false /\ pc_exit_stdout c = false) /\
  (en_haserr p = false -> en_err p = []) /\
  (pc_exit_stdin c = true -> en_single p = true) /\ (pc_exit_stdout c = true -> en_single p = true).

(** Nobody sends SIGUSR1 *)
Definition no_usr1 (es : list penv) : Prop := Forall (fun e => e_usr1 e = false) es.
(** Reading from the local process is never reset *)
Definition no_resets (es : list penv) : Prop :=
  Forall (fun e => Forall (fun st => i_read st <> IReset) (e_osteps e) /\ Forall (fun st => i_read st <> IReset) (e_esteps e)) es.
(** The local process keeps reading its stdin: no hang-up, no failing write *)
Definition keeps_reading (p : endpoint) (es : list penv) : Prop :=
  pc_local (en_cfg p) = false /\ pc_exit_stdin (en_cfg p) = false /\ pc_exit_stdout (en_cfg p) = false /\
  Forall (fun e => e_hup e = false /\ no_werr (e_flush e) /\ Forall (fun st => no_werr (r_writes st)) (e_remote e)) es.
(** ppoll does not fail other than by a signal *)
Definition no_poll_error (es : list penv) : Prop := Forall (fun e => e_poll e <> PollErr) es.
(** The exit statuses reaped in these iterations *)
Definition reaped (es : list penv) (z : Z) : Prop := exists e, In e es /\ e_child e = Some z.
(** No write(2) of a non-empty buffer returns 0 *)
Definition no_zero_writes (es : list penv) : Prop :=
  Forall (fun e => Forall (fun st => ~ In (Wrote 0) (r_writes st)) (e_remote e)) es.
