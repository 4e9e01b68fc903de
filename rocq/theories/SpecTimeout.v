(** Times in nanoseconds, and what a wait is *)
From Coq Require Import List ZArith.
From Verif Require Import VchanTimeout.
Import ListNotations.
Open Scope Z_scope.

Definition valid (t : timespec) : Prop := 0 <= tv_nsec t < 1000000000.
Definition instant (t : timespec) : Z := tv_sec t * 1000000000 + tv_nsec t.
Definition deadline (start : timespec) (timeout : Z) : Z := instant start + timeout * 1000000000.

(** the turn after which nothing has happened yet *)
Definition idle (is_server : bool) (t : turn) : Prop :=
  let '(_, r, finish) := t in
  r = PollSignal \/ r = PollReady false \/ (r = PollReady true /\ is_server = false /\ finish > 0).
Definition connected (is_server : bool) (t : turn) : Prop :=
  let '(_, r, finish) := t in r = PollReady true /\ (is_server = true \/ finish = 0).
Definition failed (is_server : bool) (t : turn) : Prop :=
  let '(_, r, finish) := t in r = PollError \/ r = PollTime \/ (r = PollReady true /\ is_server = false /\ finish < 0).
(** the clock can be read, and works *)
Definition clock_works (t : turn) : Prop := exists now, fst (fst t) = Some now /\ valid now.
Definition late (start : timespec) (timeout : Z) (t : turn) : Prop :=
  exists now, fst (fst t) = Some now /\ deadline start timeout < instant now.
(** the time is not over (if it is limited) *)
Definition in_time (start : timespec) (timeout : Z) (t : turn) : Prop := timeout <= 0 \/ (clock_works t /\ ~ late start timeout t).
(** what ends the wait, and how: with 0 exactly if the other side connects before the deadline,
    with -1 if there is a failure or it is too late *)
Inductive ends_with (is_server : bool) (timeout : Z) (start : timespec) : turn -> Z -> Prop :=
| ew_connected t : in_time start timeout t -> connected is_server t -> ends_with is_server timeout start t 0
| ew_failed t : in_time start timeout t -> failed is_server t -> ends_with is_server timeout start t (-1)
| ew_late t : 0 < timeout -> late start timeout t -> ends_with is_server timeout start t (-1)
| ew_clock r finish : 0 < timeout -> ends_with is_server timeout start (None, r, finish) (-1).
