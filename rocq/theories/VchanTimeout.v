(** libqrexec/vchan_timeout.c: waiting until the other side of a vchan connects *)
From Coq Require Import List Bool ZArith.
Import ListNotations.
Open Scope Z_scope.

Definition BILLION : Z := 1000000000.
Record timespec := mkTime { tv_sec : Z; tv_nsec : Z }.
(** the assertions in 17 and 30: [None] is abort(); [Some None]: clock_gettime fails *)
Definition reading (r : option timespec) : option (option timespec) :=
  match r with
  | None => Some None
  | Some t => if (0 <=? tv_nsec t) && (tv_nsec t <? BILLION) then Some (Some t) else None
  end.

(** what ppoll does: fails (because of a signal, or otherwise), the time is over, or the
    descriptor is ready, with POLLIN or only with POLLHUP or POLLERR *)
Inductive polled := PollSignal | PollError | PollTime | PollReady (input : bool).
(** how the function ends *)
Inductive ended := Returned (status : Z) | Aborted.

(** the time left, 24-37: [None] is did_timeout *)
Definition time_left (end_tp now_tp : timespec) : option timespec :=
  if tv_sec now_tp <=? tv_sec end_tp then
    let sec := tv_sec end_tp - tv_sec now_tp in
    let nsec := tv_nsec end_tp - tv_nsec now_tp in
    let '(sec, nsec) := if nsec <? 0 then (sec - 1, nsec + BILLION) else (sec, nsec) in
    if sec <? 0 then None else Some (mkTime sec nsec)
  else None.

(** One turn of the loop, 19-67. Before ppoll: the end of the function, or the time limit that
    ppoll gets *)
Definition before_poll (timeout : Z) (end_tp : timespec) (now : option timespec) : ended + option timespec :=
  if 0 <? timeout then
    match reading now with
    | None => inl Aborted
    | Some None => inl (Returned (-1))
    | Some (Some t) => match time_left end_tp t with
                       | None => inl (Returned (-1))
                       | Some l => inr (Some l)
                       end
    end
  else inr None.
(** after it: [finish] is what libvchan_client_init_async_finish returns. [None]: another turn *)
Definition after_poll (is_server : bool) (r : polled) (finish : Z) : option ended :=
  match r with
  | PollSignal => None
  | PollError => Some (Returned (-1))
  | PollTime => Some (Returned (-1))
  | PollReady input =>
      if input then
        if is_server then Some (Returned 0)
        else if finish <? 0 then Some (Returned (-1))
        else if finish =? 0 then Some (Returned 0) else None
      else None
  end.

(** The loop. Each turn reads the clock and, if it gets as far, polls. The result is how the
    function ends ([None]: it has not yet), and the turns in which it has polled, with the time
    read and the limit. *)
Definition turn := (option timespec * polled * Z)%type.
Fixpoint turns (timeout : Z) (is_server : bool) (end_tp : timespec) (ts : list turn)
  : option ended * list (option timespec * option timespec) :=
  match ts with
  | [] => (None, [])
  | (now, r, finish) :: ts' =>
      match before_poll timeout end_tp now with
      | inl e => (Some e, [])
      | inr limit =>
          match after_poll is_server r finish with
          | Some e => (Some e, [(now, limit)])
          | None => let '(e, l) := turns timeout is_server end_tp ts' in (e, (now, limit) :: l)
          end
      end
  end.
(** qubes_wait_for_vchan_connection_with_timeout, 8-68. The addition in 18 does not overflow. *)
Definition wait_for_connection (is_server : bool) (timeout : Z) (start : option timespec) (ts : list turn)
  : option ended * list (option timespec * option timespec) :=
  match reading start with
  | None => (Some Aborted, [])
  | Some None => (Some (Returned (-1)), [])
  | Some (Some t) => turns timeout is_server (mkTime (tv_sec t + timeout) (tv_nsec t)) ts
  end.
