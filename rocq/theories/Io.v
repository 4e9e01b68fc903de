(** System calls and the helpers built on them: libqrexec/ioall.c,
    libqrexec/txrx-vchan.c *)
From Coq Require Import String Ascii List Bool Arith ZArith.
Import ListNotations.
Open Scope list_scope.

(** Bytes in memory or in a pipe *)
Definition bytes := list ascii.

(** The outcomes of write(2) on a non-empty buffer and of read(2), as a schedule
    chosen by the environment: [Wrote k] and [Read k] transfer at most [k] bytes
    (never more than asked for, nor more than there is; a read of what is not yet
    at its end transfers at least one). A schedule that is used up means that the
    call has not returned yet. *)
Inductive wres := Wrote (k : nat) | WIntr | WAgain | WErr.
Inductive rres := Read (k : nat) | RIntr | RAgain | RErr.

(** read(2) of at most [want] bytes when [src] is what is left until the end *)
Definition read_count (k want : nat) (src : bytes) : nat :=
  match src with [] => 0 | _ => Nat.min (Nat.max 1 k) (Nat.min want (length src)) end.

(** write_all, ioall.c 56-71: the return value ([None]: still running) and what was
    written *)
Fixpoint write_all (script : list wres) (data : bytes) : option bool * bytes :=
  match data with
  | [] => (Some true, [])
  | _ =>
      match script with
      | [] => (None, [])
      | WIntr :: script => write_all script data
      | WAgain :: _ | WErr :: _ => (Some false, [])
      | Wrote k :: script =>
          match Nat.min k (length data) with
          | O => (Some false, [])
          | n => let '(r, w) := write_all script (skipn n data) in (r, firstn n data ++ w)
          end
      end
  end.

(** read_all, 73-100: the return value, the buffer, and what is left to read.
    set_block only makes EAGAIN impossible later, the model allows it any time. *)
Fixpoint read_all (script : list rres) (src : bytes) (size : nat) : option bool * bytes * bytes :=
  match size with
  | O => (Some true, [], src)
  | _ =>
      match script with
      | [] => (None, [], src)
      | RIntr :: script => read_all script src size
      | RAgain :: _ | RErr :: _ => (Some false, [], src)
      | Read k :: script =>
          match read_count k size src with
          | O => (Some false, [], src)
          | n => let '(r, b, rest) := read_all script (skipn n src) (size - n) in (r, firstn n src ++ b, rest)
          end
      end
  end.

(** qubes_read_all_to_malloc, 103-197, after the argument checks (119-133:
    2 <= initial_buffer_size <= max_bytes, otherwise abort). [Some None] is NULL.
    malloc and realloc do not fail. *)
Fixpoint read_to_malloc (script : list rres) (src : bytes) (buf_size max_bytes : nat) (acc : bytes)
  : option (option bytes) :=
  match script with
  | [] => None
  | RIntr :: script | RAgain :: script => read_to_malloc script src buf_size max_bytes acc
  | RErr :: _ => Some None
  | Read k :: script =>
      let to_read := buf_size - length acc in
      let n := read_count k to_read src in
      if n =? 0 then Some (Some acc)
      else if n =? to_read then
        if max_bytes <=? buf_size then Some None
        else
          let buf_size' := if buf_size / 2 <? max_bytes - buf_size then buf_size + buf_size / 2 else max_bytes in
          read_to_malloc script (skipn n src) buf_size' max_bytes (acc ++ firstn n src)
      else read_to_malloc script (skipn n src) buf_size max_bytes (acc ++ firstn n src)
  end.
Definition qubes_read_all_to_malloc (script : list rres) (src : bytes) (initial max_bytes : nat)
  : option (option bytes) := read_to_malloc script src initial max_bytes [].

(** copy_fd_all, 199-219: each read comes with the schedule of the write_all after
    it; the chunk size is that of buf (4096 there) *)
Fixpoint copy_fd_all (chunk : nat) (script : list (rres * list wres)) (src : bytes) : option bool * bytes :=
  match script with
  | [] => (None, [])
  | (RIntr, _) :: script => copy_fd_all chunk script src
  | (RAgain, _) :: _ | (RErr, _) :: _ => (Some false, [])
  | (Read k, ws) :: script =>
      match read_count k chunk src with
      | O => (Some true, [])
      | n => match write_all ws (firstn n src) with
             | (Some true, w) => let '(r, w') := copy_fd_all chunk script (skipn n src) in (r, w ++ w')
             | (r, w) => (r, w)
             end
      end
  end.

(** qubes_sendmsg_all, 221-250: the loop over the iovecs after a partial send;
    sendmsg sends at most all of them *)
Fixpoint advance (iovs : list bytes) (n : nat) : list bytes :=
  match iovs with
  | [] => []
  | v :: rest => if n <? length v then skipn n v :: rest else advance rest (n - length v)
  end.
Fixpoint sendmsg_all (script : list wres) (iovs : list bytes) : option bool * bytes :=
  match iovs with
  | [] => (Some true, [])
  | _ =>
      match script with
      | [] => (None, [])
      | WIntr :: script | WAgain :: script => sendmsg_all script iovs
      | WErr :: _ => (Some false, [])
      | Wrote k :: script =>
          let n := Nat.min k (length (concat iovs)) in
          let '(r, w) := sendmsg_all script (advance iovs n) in (r, firstn n (concat iovs) ++ w)
      end
  end.

(** write_vchan_all and read_vchan_all, txrx-vchan.c 55-83: libvchan_write and
    libvchan_read transfer some bytes (a read waits for at least one) or fail; the
    end of a vchan is an error *)
Fixpoint write_vchan_all (script : list wres) (data : bytes) : option bool * bytes :=
  match data with
  | [] => (Some true, [])
  | _ =>
      match script with
      | [] => (None, [])
      | Wrote k :: script =>
          let n := Nat.min k (length data) in
          let '(r, w) := write_vchan_all script (skipn n data) in (r, firstn n data ++ w)
      | _ :: _ => (Some false, [])
      end
  end.
Fixpoint read_vchan_all (script : list rres) (src : bytes) (size : nat) : option bool * bytes * bytes :=
  match size with
  | O => (Some true, [], src)
  | _ =>
      match script with
      | [] => (None, [], src)
      | Read k :: script =>
          match src with
          | [] => (Some false, [], src)
          | _ => let n := read_count k size src in
                 let '(r, b, rest) := read_vchan_all script (skipn n src) (size - n) in (r, firstn n src ++ b, rest)
          end
      | _ :: _ => (Some false, [], src)
      end
  end.
