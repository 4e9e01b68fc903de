(** The loop that connects a process to a vchan: libqrexec/process_io.c *)
From Coq Require Import String Ascii List Bool Arith ZArith.
From Verif Require Import Io Stream SpecStream.
Import ListNotations.
Open Scope list_scope.

(** What qrexec_process_io gets (process_io_request and qrexec_parsed_command):
    [pc_local] is local_pid > 0; [pc_closes] says that close_stdio (51-71) of stdin_fd
    really closes it when it is not also stdout (it is not a socket, or below 3), it is
    only shut down otherwise. *)
Record pcfg := {
  pc_rx : rxcfg; pc_exit_stdin : bool; pc_exit_stdout : bool; pc_local : bool; pc_closes : bool; pc_dup : bool }.
Definition service (c : pcfg) : bool := c_service (pc_rx c).
(** stdout_msg_type, 118 *)
Definition out_type (c : pcfg) : Z := if service c then MSG_DATA_STDOUT else MSG_DATA_STDIN.

(** The local variables. stdin_fd, stdout_fd, stderr_fd and saved_stdin_fd only count as
    open or -1. [rx_status] of [p_rx] is remote_status. [p_src] is what stdout_fd will
    still give until its end, [p_sock] what saved_stdin_fd gives when it is read
    (after SIGUSR1), [p_errsrc] what stderr_fd gives. [p_vout] is what was put into the
    vchan, [p_dead] as [tx_dead]. *)
Record pio := {
  p_stdin : bool; p_stdout : bool; p_stderr : bool; p_saved : bool; p_single : bool; p_local : Z;
  p_rx : rx; p_prefix : bytes; p_src : bytes; p_sock : bytes; p_errsrc : bytes; p_vout : bytes; p_dup : bytes; p_dead : bool }.

Definition p_fds (s : pio) (i o saved : bool) : pio :=
  {| p_stdin := i; p_stdout := o; p_stderr := p_stderr s; p_saved := saved; p_single := p_single s; p_local := p_local s;
     p_rx := p_rx s; p_prefix := p_prefix s; p_src := p_src s; p_sock := p_sock s; p_errsrc := p_errsrc s; p_vout := p_vout s;
     p_dup := p_dup s; p_dead := p_dead s |}.
Definition p_set_local (s : pio) (z : Z) : pio :=
  {| p_stdin := p_stdin s; p_stdout := p_stdout s; p_stderr := p_stderr s; p_saved := p_saved s; p_single := p_single s; p_local := z;
     p_rx := p_rx s; p_prefix := p_prefix s; p_src := p_src s; p_sock := p_sock s; p_errsrc := p_errsrc s; p_vout := p_vout s;
     p_dup := p_dup s; p_dead := p_dead s |}.
Definition p_set_rx (s : pio) (r : rx) : pio :=
  {| p_stdin := p_stdin s; p_stdout := p_stdout s; p_stderr := p_stderr s; p_saved := p_saved s; p_single := p_single s; p_local := p_local s;
     p_rx := r; p_prefix := p_prefix s; p_src := p_src s; p_sock := p_sock s; p_errsrc := p_errsrc s; p_vout := p_vout s;
     p_dup := p_dup s; p_dead := p_dead s |}.
Definition p_close_err (s : pio) : pio :=
  {| p_stdin := p_stdin s; p_stdout := p_stdout s; p_stderr := false; p_saved := p_saved s; p_single := p_single s; p_local := p_local s;
     p_rx := p_rx s; p_prefix := p_prefix s; p_src := p_src s; p_sock := p_sock s; p_errsrc := p_errsrc s; p_vout := p_vout s;
     p_dup := p_dup s; p_dead := p_dead s |}.
(** libvchan_send with the given bytes *)
Definition p_send (s : pio) (ok : bool) (b : bytes) : pio :=
  {| p_stdin := p_stdin s; p_stdout := p_stdout s; p_stderr := p_stderr s; p_saved := p_saved s; p_single := p_single s; p_local := p_local s;
     p_rx := p_rx s; p_prefix := p_prefix s; p_src := p_src s; p_sock := p_sock s; p_errsrc := p_errsrc s;
     p_vout := if negb (p_dead s) && ok then p_vout s ++ b else p_vout s;
     p_dup := p_dup s; p_dead := p_dead s || negb ok |}.

(** close_stdin, 174-195 *)
Definition close_stdin (c : pcfg) (send_ok : bool) (s : pio) : pio :=
  if pc_exit_stdin c then
    let s := if p_stdout s then p_send s send_ok (enc32 (out_type c) ++ enc32 0) else s in
    p_fds s false false (p_saved s)
  else p_fds s false (p_stdout s) (p_saved s && negb (p_stdin s && negb (p_single s) && pc_closes c)).
(** close_stdout, 196-206 *)
Definition close_stdout (c : pcfg) (s : pio) : pio :=
  if pc_exit_stdout c then p_fds s false false (p_saved s) else p_fds s (p_stdin s) false (p_saved s).

Inductive poll := PollOk | PollIntr | PollErr.
(** send_exit_code (remote.c 207-223): how far it gets *)
Inductive code_send := CodeSent | CodeNoHeader | CodeNoStatus.

(** What the environment does in one iteration: a child reaped with this status (already
    as in 215-218), whether the fire-and-forget sends succeed, send_exit_code,
    libvchan_is_open, SIGUSR1 arrived, ppoll, libvchan_wait, POLLHUP or POLLERR on
    stdin, events on stdout and stderr, and the schedules of the three transfers.
    When libvchan_is_open says no, all that the peer will ever send has arrived. *)
Record penv := {
  e_child : option Z; e_send : bool; e_code : code_send; e_open : bool; e_usr1 : bool; e_poll : poll; e_wait : bool; e_hup : bool;
  e_flush : list wres; e_remote : list rstep; e_outrev : bool; e_osteps : list istep; e_errrev : bool; e_esteps : list istep }.

(** [PGo]: next iteration; [PDone]: left the loop; [PDie]: handle_vchan_error, i.e.
    exit(1) (37-41); [PAbort]: abort() *)
Inductive poutcome := PGo (s : pio) | PDone (s : pio) | PDie (s : pio) | PAbort.

Definition all_closed (s : pio) : bool := negb (p_stdin s) && negb (p_stdout s) && negb (p_stderr s).

(** 210-221: SIGCHLD *)
Definition pio_child (c : pcfg) (e : penv) (s : pio) : pio :=
  match e_child e with
  | Some z => if pc_local c && (p_local s <? 0)%Z then close_stdin c (e_send e) (p_set_local s z) else s
  | None => s
  end.
(** 223-237: all done? *)
Definition pio_all_done (c : pcfg) (e : penv) (s : pio) : option poutcome :=
  if all_closed s then
    if service c then
      if negb (pc_local c) || (0 <=? p_local s)%Z then
        let code := if pc_local c then p_local s else 0%Z in
        match e_code e with
        | CodeSent => if p_dead s then Some (PDie s) else Some (PDone (p_send s true (exit_code_msg code)))
        | CodeNoHeader => Some (PDie (p_send s false []))
        | CodeNoStatus => Some (PDie (p_send (p_send s true (enc32 MSG_DATA_EXIT_CODE ++ enc32 4)) false []))
        end
      else None
    else if (negb (pc_local c) || (0 <=? p_local s)%Z) && (0 <=? rx_status (p_rx s))%Z then Some (PDone s) else None
  else None.
(** 260-266: SIGUSR1 *)
Definition pio_usr1 (c : pcfg) (e : penv) (s : pio) : pio :=
  if e_usr1 e && negb (p_single s) then
    let s := close_stdout c s in
    {| p_stdin := p_stdin s; p_stdout := p_saved s; p_stderr := p_stderr s; p_saved := p_saved s; p_single := true; p_local := p_local s;
       p_rx := p_rx s; p_prefix := p_prefix s; p_src := p_sock s; p_sock := p_sock s; p_errsrc := p_errsrc s; p_vout := p_vout s;
       p_dup := p_dup s; p_dead := p_dead s |}
  else s.
(** 318-348: data from the vchan *)
Definition pio_remote (c : pcfg) (e : penv) (s : pio) : poutcome :=
  match handle_remote_data_v2 (pc_rx c) (p_stdin s) (e_flush e) (e_remote e) (p_rx s) with
  | None => PAbort
  | Some (REMOTE_ERROR, r) => PDie (p_set_rx s r)
  | Some (REMOTE_EOF, r) => PGo (close_stdin c (e_send e) (p_set_rx s r))
  | Some (REMOTE_EXITED, r) =>
      let s := p_set_rx s r in
      PGo (close_stdout c (if p_stdout s then p_send s (e_send e) (enc32 (out_type c) ++ enc32 0) else s))
  | Some (REMOTE_OK, r) => PGo (p_set_rx s r)
  end.
(** 349-371: data from stdout *)
Definition pio_stdout (c : pcfg) (e : penv) (s : pio) : poutcome :=
  if negb (length (p_prefix s) =? 0) || (p_stdout s && e_outrev e) then
    let '(rc, t) := handle_input_v2 (out_type c) (p_stdout s) (c_max (pc_rx c)) false (e_osteps e)
        {| tx_src := p_src s; tx_prefix := p_prefix s; tx_out := p_vout s; tx_dup := []; tx_dead := p_dead s |} in
    let s := {| p_stdin := p_stdin s; p_stdout := p_stdout s; p_stderr := p_stderr s; p_saved := p_saved s; p_single := p_single s; p_local := p_local s;
                p_rx := p_rx s; p_prefix := tx_prefix t; p_src := tx_src t; p_sock := p_sock s; p_errsrc := p_errsrc s; p_vout := tx_out t;
                p_dup := p_dup s; p_dead := tx_dead t |} in
    match rc with
    | REMOTE_ERROR => if negb (service c) && (rx_status (p_rx s) =? -1)%Z then PGo (close_stdout c s) else PDie s
    | REMOTE_EOF => PGo (close_stdout c s)
    | _ => PGo s
    end
  else PGo s.
(** 372-384: data from stderr *)
Definition pio_stderr (c : pcfg) (e : penv) (s : pio) : poutcome :=
  if p_stderr s && e_errrev e then
    let '(rc, t) := handle_input_v2 MSG_DATA_STDERR true (c_max (pc_rx c)) (pc_dup c) (e_esteps e)
        {| tx_src := p_errsrc s; tx_prefix := []; tx_out := p_vout s; tx_dup := p_dup s; tx_dead := p_dead s |} in
    let s := {| p_stdin := p_stdin s; p_stdout := p_stdout s; p_stderr := p_stderr s; p_saved := p_saved s; p_single := p_single s; p_local := p_local s;
                p_rx := p_rx s; p_prefix := p_prefix s; p_src := p_src s; p_sock := p_sock s; p_errsrc := tx_src t; p_vout := tx_out t;
                p_dup := tx_dup t; p_dead := tx_dead t |} in
    match rc with
    | REMOTE_ERROR => PDie s
    | REMOTE_EOF => PGo (p_close_err s)
    | _ => PGo s
    end
  else PGo s.

Definition pbind (o : poutcome) (f : pio -> poutcome) : poutcome := match o with PGo s => f s | o => o end.

(** One iteration, 208-385 *)
Definition pio_step (c : pcfg) (e : penv) (s : pio) : poutcome :=
  let s := pio_child c e s in
  match pio_all_done c e s with
  | Some o => o
  | None =>
      if negb (e_open e) && (length (rx_in (p_rx s)) =? 0) && (length (rx_buf (p_rx s)) =? 0) then PDone s
      else
        let s := pio_usr1 c e s in
        match e_poll e with
        | PollIntr => PGo s
        | PollErr => PDone s
        | PollOk =>
            if negb (e_wait e) then PDie s
            else
              let s := if p_stdin s && e_hup e then close_stdin c (e_send e) s else s in
              pbind (pio_remote c e s) (fun s => pbind (pio_stdout c e s) (fun s => pio_stderr c e s))
        end
  end.

(** The loop: [PGo] when the iterations listed are used up *)
Fixpoint pio_run (c : pcfg) (es : list penv) (s : pio) : poutcome :=
  match es with
  | [] => PGo s
  | e :: es => pbind (pio_step c e s) (pio_run c es)
  end.

(** The state before the loop (102-172): [buf] is what is in stdin_buf, [base] the
    memory of other buffers, [input] what the peer will send *)
Definition pio_start (c : pcfg) (has_stderr single send_ok : bool) (base : Z) (buf prefix src sock errsrc input : bytes) : pio :=
  let s := {| p_stdin := true; p_stdout := true; p_stderr := has_stderr; p_saved := true; p_single := single; p_local := -1;
     p_rx := {| rx_in := input; rx_tm := base + zlen buf; rx_buf := buf; rx_out := []; rx_err := []; rx_status := -1 |};
     p_prefix := prefix; p_src := src; p_sock := sock; p_errsrc := errsrc; p_vout := []; p_dup := []; p_dead := false |} in
  if service c && negb has_stderr then p_send s send_ok (enc32 MSG_DATA_STDERR ++ enc32 0) else s.

(** After the loop, 386-402 (when the loop was left because the vchan closed or ppoll failed,
    close_stdin may try one more end message with the exit_on_stdin_eof option: not modelled): [wait] is what waitpid gives for a process not reaped yet *)
Definition pio_return (c : pcfg) (wait : Z) (s : pio) : Z :=
  let local := if pc_local c && (p_local s <? 0)%Z then wait else p_local s in
  if negb (service c) && negb (rx_status (p_rx s) =? 0)%Z then rx_status (p_rx s)
  else if pc_local c then local else 0%Z.
