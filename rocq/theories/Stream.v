(** Data streams between a local process and a vchan: libqrexec/buffer.c,
    libqrexec/write-stdin.c, libqrexec/replace.c, libqrexec/remote.c *)
From Coq Require Import String Ascii List Bool Arith ZArith.
From Verif Require Import Io.
Import ListNotations.
Open Scope list_scope.

Definition zlen (b : bytes) : Z := Z.of_nat (length b).

(** * buffer.c *)

(** BUFFER_LIMIT, buffer.c 29 *)
Definition BUFFER_LIMIT : Z := 50000000.

(** limited_malloc, buffer.c 31-46, on total_mem (30). [None] is abort(). len and
    total_mem are at most 2 * BUFFER_LIMIT and BUFFER_LIMIT in all calls, so that
    their sum does not overflow an int; malloc does not fail. *)
Definition limited_malloc (tm len : Z) : option Z :=
  if (BUFFER_LIMIT <? tm + len)%Z || (len <=? 0)%Z then None else Some (tm + len)%Z.

(** limited_free, 48-54 *)
Definition limited_free (tm len : Z) : option Z :=
  if (len <? 0)%Z || (tm <? len)%Z then None else Some (tm - len)%Z.

(** buffer_free, 62-67: the buffer becomes empty *)
Definition buffer_free (tm : Z) (b : bytes) : option Z :=
  if (zlen b =? 0)%Z then Some tm else limited_free tm (zlen b).

(** buffer_append, 79-102 *)
Definition buffer_append (tm : Z) (b data : bytes) : option (Z * bytes) :=
  if (BUFFER_LIMIT <? zlen b)%Z then None
  else if (BUFFER_LIMIT <? zlen data)%Z then None
  else if (zlen data =? 0)%Z then Some (tm, b)
  else match limited_malloc tm (zlen data + zlen b)%Z with
       | None => None
       | Some tm1 => match buffer_free tm1 b with
                     | None => None
                     | Some tm2 => Some (tm2, b ++ data)
                     end
       end.

(** buffer_remove, 104-121 *)
Definition buffer_remove (tm : Z) (b : bytes) (len : nat) : option (Z * bytes) :=
  if length b <? len then None
  else
    let newsize := (zlen b - Z.of_nat len)%Z in
    match (if (0 <? newsize)%Z then limited_malloc tm newsize else Some tm) with
    | None => None
    | Some tm1 => match buffer_free tm1 b with
                  | None => None
                  | Some tm2 => Some (tm2, skipn len b)
                  end
    end.

(** * write-stdin.c *)

(** WRITE_STDIN_OK, WRITE_STDIN_BUFFERED, WRITE_STDIN_ERROR, libqrexec-utils.h 249-251 *)
Inductive wstatus := WOk | WBuffered | WError.

(** flush_client_data, write-stdin.c 35-59. [fd_open] is fd <> -1. The schedule gives
    the results of write(2) on the non-blocking descriptor; when it is used up the
    pipe is full (EAGAIN). Result: status, what was written, total_mem and the
    buffer; [None] is abort(). *)
Fixpoint flush_loop (script : list wres) (tm : Z) (b : bytes) : option (wstatus * bytes * Z * bytes) :=
  match b with
  | [] => Some (WOk, [], tm, b)
  | _ =>
      match script with
      | [] | WAgain :: _ => Some (WBuffered, [], tm, b)
      | WIntr :: _ | WErr :: _ => Some (WError, [], tm, b)
      | Wrote k :: script =>
          let n := Nat.min k (length b) in
          match buffer_remove tm b n with
          | None => None
          | Some (tm', b') =>
              match flush_loop script tm' b' with
              | None => None
              | Some (s, w, tm'', b'') => Some (s, firstn n b ++ w, tm'', b'')
              end
          end
      end
  end.
Definition flush_client_data (fd_open : bool) (script : list wres) (tm : Z) (b : bytes)
  : option (wstatus * bytes * Z * bytes) :=
  if fd_open then flush_loop script tm b else Some (WOk, [], tm, b).

(** write_stdin, 65-92 (only called with an open descriptor); 71-74 is in
    [write_stdin], the loop in [write_loop] *)
Fixpoint write_loop (script : list wres) (tm : Z) (data : bytes) : option (wstatus * bytes * Z * bytes) :=
  match data with
  | [] => Some (WOk, [], tm, [])
  | _ =>
      match script with
      | [] | WAgain :: _ =>
          match buffer_append tm [] data with
          | None => None
          | Some (tm', b') => Some (WBuffered, [], tm', b')
          end
      | WIntr :: _ | WErr :: _ => Some (WError, [], tm, [])
      | Wrote k :: script =>
          match Nat.min k (length data) with
          | O => None
          | n => match write_loop script tm (skipn n data) with
                 | None => None
                 | Some (s, w, tm', b') => Some (s, firstn n data ++ w, tm', b')
                 end
          end
      end
  end.
Definition write_stdin (script : list wres) (tm : Z) (data b : bytes) : option (wstatus * bytes * Z * bytes) :=
  match b with
  | [] => write_loop script tm data
  | _ => match buffer_append tm b data with
         | None => None
         | Some (tm', b') => Some (WBuffered, [], tm', b')
         end
  end.

(** * replace.c *)

(** do_replace_chars, replace.c 24-38 *)
Definition replace_char (c : ascii) : ascii :=
  let n := nat_of_ascii c in
  if ((n <? 32) || (126 <? n)) && negb (n =? 9) && negb (n =? 10) && negb (n =? 13) && negb (n =? 8) && negb (n =? 7)
  then "_"%char else c.
Definition do_replace_chars (b : bytes) : bytes := map replace_char b.

(** * Message headers: struct msg_header, qrexec.h 90-93 (two little-endian uint32_t;
    the code copies the structure of the host, the supported hosts being
    little-endian) *)
Definition byte_of (z : Z) : ascii := ascii_of_N (Z.to_N (z mod 256)).
Definition enc32 (z : Z) : bytes :=
  [byte_of z; byte_of (z / 256); byte_of (z / 65536); byte_of (z / 16777216)].
Definition zbyte (c : ascii) : Z := Z.of_N (N_of_ascii c).
Definition dec32 (b : bytes) : Z :=
  match b with
  | c0 :: c1 :: c2 :: c3 :: _ => (zbyte c0 + 256 * zbyte c1 + 65536 * zbyte c2 + 16777216 * zbyte c3)%Z
  | _ => 0%Z
  end.
(** A 32-bit word as an int *)
Definition to_int (z : Z) : Z := if (z <? 2147483648)%Z then z else (z - 4294967296)%Z.

(** enum, qrexec.h 170-179 *)
Definition MSG_DATA_STDIN : Z := 400.
Definition MSG_DATA_STDOUT : Z := 401.
Definition MSG_DATA_STDERR : Z := 402.
Definition MSG_DATA_EXIT_CODE : Z := 403.

(** max_data_chunk_size, libqrexec-utils.h 274-279 *)
Definition max_data_chunk_size (protocol_version : Z) : nat :=
  if (protocol_version <? 3)%Z then Nat.pow 2 12 else Nat.pow 2 16.

(** return codes, libqrexec-utils.h 286-289 *)
Inductive rrc := REMOTE_EXITED | REMOTE_ERROR | REMOTE_EOF | REMOTE_OK.

(** * handle_remote_data_v2, remote.c 36-144 *)

(** One iteration of its loop as the environment decides it: whether
    libvchan_data_ready says that there is something (only if there is), the
    results of the libvchan_read calls for the payload, of the write calls to the
    local process and to stderr. *)
Record rstep := { r_ready : bool; r_reads : list rres; r_writes : list wres; r_errs : list wres }.

(** [rx_in] is what the peer has sent and will send and was not received yet,
    [rx_out] what was written to the local process, [rx_err] to stderr *)
Record rx := { rx_in : bytes; rx_tm : Z; rx_buf : bytes; rx_out : bytes; rx_err : bytes; rx_status : Z }.
Definition rx_set_in (s : rx) (i : bytes) : rx :=
  {| rx_in := i; rx_tm := rx_tm s; rx_buf := rx_buf s; rx_out := rx_out s; rx_err := rx_err s; rx_status := rx_status s |}.
Definition rx_wrote (s : rx) (w : bytes) (tm : Z) (b : bytes) : rx :=
  {| rx_in := rx_in s; rx_tm := tm; rx_buf := b; rx_out := rx_out s ++ w; rx_err := rx_err s; rx_status := rx_status s |}.
Definition rx_add_err (s : rx) (w : bytes) : rx :=
  {| rx_in := rx_in s; rx_tm := rx_tm s; rx_buf := rx_buf s; rx_out := rx_out s; rx_err := rx_err s ++ w; rx_status := rx_status s |}.
Definition rx_set_status (s : rx) (z : Z) : rx :=
  {| rx_in := rx_in s; rx_tm := rx_tm s; rx_buf := rx_buf s; rx_out := rx_out s; rx_err := rx_err s; rx_status := z |}.

(** The parameters: is_service, replace_chars_stdout, replace_chars_stderr and
    buffer->buflen *)
Record rxcfg := { c_service : bool; c_replace_out : bool; c_replace_err : bool; c_max : nat }.

(** 63-140. libvchan_recv of the header (64) fails unless the peer sends it whole.
    The warnings are not modelled. *)
Fixpoint remote_loop (c : rxcfg) (fd_open : bool) (steps : list rstep) (s : rx) : option (rrc * rx) :=
  match steps with
  | [] => Some (REMOTE_OK, s)
  | st :: steps =>
      if negb (r_ready st) || (length (rx_in s) =? 0) then Some (REMOTE_OK, s)
      else if length (rx_in s) <? 8 then Some (REMOTE_ERROR, s)
      else
        let ty := dec32 (rx_in s) in
        let len := dec32 (skipn 4 (rx_in s)) in
        let s := rx_set_in s (skipn 8 (rx_in s)) in
        if (Z.of_nat (c_max c) <? len)%Z then Some (REMOTE_ERROR, s)
        else
          match read_vchan_all (r_reads st) (rx_in s) (Z.to_nat len) with
          | (Some true, buf, rest) =>
              let s := rx_set_in s rest in
              if (ty =? MSG_DATA_STDIN)%Z || (ty =? MSG_DATA_STDOUT)%Z then
                if negb fd_open then remote_loop c fd_open steps s
                else if (len =? 0)%Z then Some (REMOTE_EOF, s)
                else
                  let buf := if c_replace_out c then do_replace_chars buf else buf in
                  match write_stdin (r_writes st) (rx_tm s) buf (rx_buf s) with
                  | None => None
                  | Some (WOk, w, tm, b) => remote_loop c fd_open steps (rx_wrote s w tm b)
                  | Some (WBuffered, w, tm, b) => Some (REMOTE_OK, rx_wrote s w tm b)
                  | Some (WError, w, tm, b) => Some (REMOTE_EOF, rx_wrote s w tm b)
                  end
              else if (ty =? MSG_DATA_STDERR)%Z then
                if c_service c then remote_loop c fd_open steps s
                else
                  let buf := if c_replace_err c then do_replace_chars buf else buf in
                  remote_loop c fd_open steps (rx_add_err s (snd (write_all (r_errs st) buf)))
              else if (ty =? MSG_DATA_EXIT_CODE)%Z then
                if c_service c then remote_loop c fd_open steps s
                else Some (REMOTE_EXITED, rx_set_status s (if (len <? 4)%Z then 255%Z else to_int (dec32 buf)))
              else Some (REMOTE_ERROR, s)
          | (_, _, rest) => Some (REMOTE_ERROR, rx_set_in s rest)
          end
  end.

(** 36-62: what is buffered goes first *)
Definition handle_remote_data_v2 (c : rxcfg) (fd_open : bool) (flush : list wres) (steps : list rstep) (s : rx)
  : option (rrc * rx) :=
  match flush_client_data fd_open flush (rx_tm s) (rx_buf s) with
  | None => None
  | Some (WOk, w, tm, b) => remote_loop c fd_open steps (rx_wrote s w tm b)
  | Some (WBuffered, w, tm, b) => Some (REMOTE_OK, rx_wrote s w tm b)
  | Some (WError, w, tm, b) => Some (REMOTE_EOF, rx_wrote s w tm b)
  end.

(** * handle_input_v2, remote.c 146-205 *)

(** read(2) of the local descriptor: IReset is ECONNRESET *)
Inductive iread := IRead (k : nat) | IReset | IAgain | IErr.
(** One iteration: the buffer space of the vchan, the result of the read, whether
    libvchan_send of the header succeeds, and the results of libvchan_write *)
Record istep := { i_space : Z; i_read : iread; i_hdr : bool; i_writes : list wres }.

(** [tx_src] is what the local process has written and will write until it closes its
    end, [tx_prefix] the prefix data, [tx_out] what was put into the vchan, [tx_dup]
    what was copied to dup_fd. [tx_dead]: a call of libvchan_send or libvchan_write
    failed; that happens when the vchan is gone, and then all later ones fail too. *)
Record tx := { tx_src : bytes; tx_prefix : bytes; tx_out : bytes; tx_dup : bytes; tx_dead : bool }.

(** 176-199: one message of [chunk]. A libvchan_write that never completes counts as
    one that fails: nothing more is sent either way. *)
Definition send_chunk (st : istep) (ty : Z) (chunk : bytes) (s : tx) : option rrc * tx :=
  let put o dead := {| tx_src := tx_src s; tx_prefix := tx_prefix s; tx_out := tx_out s ++ o; tx_dup := tx_dup s; tx_dead := dead |} in
  let hdr := enc32 ty ++ enc32 (zlen chunk) in
  if tx_dead s || negb (i_hdr st) then
    (Some match chunk with [] => REMOTE_EOF | _ => REMOTE_ERROR end, put [] true)
  else
    match chunk with
    | [] => (Some REMOTE_EOF, put hdr false)
    | _ => match write_vchan_all (i_writes st) chunk with
           | (Some true, w) => (None, put (hdr ++ w) false)
           | (_, w) => (Some REMOTE_ERROR, put (hdr ++ w) true)
           end
    end.

(** The loop. [dup] is dup_fd <> -1: write_all to it is not modelled in detail, all
    that is passed to it counts as copied. When the steps are used up there is no
    more space. A read of a closed descriptor (fd = -1) fails. *)
Fixpoint handle_input_v2 (ty : Z) (fd_open : bool) (max : nat) (dup : bool) (steps : list istep) (s : tx) : rrc * tx :=
  match steps with
  | [] => (REMOTE_OK, s)
  | st :: steps =>
      if (i_space st <=? 8)%Z then (REMOTE_OK, s)
      else
        let len := Nat.min (Z.to_nat (i_space st - 8)) max in
        match tx_prefix s with
        | _ :: _ =>
            let n := Nat.min len (length (tx_prefix s)) in
            let s' := {| tx_src := tx_src s; tx_prefix := skipn n (tx_prefix s); tx_out := tx_out s; tx_dup := tx_dup s; tx_dead := tx_dead s |} in
            match send_chunk st ty (firstn n (tx_prefix s)) s' with
            | (Some rc, s'') => (rc, s'')
            | (None, s'') => handle_input_v2 ty fd_open max dup steps s''
            end
        | [] =>
            if negb fd_open then (REMOTE_ERROR, s)
            else
              match i_read st with
              | IAgain => (REMOTE_OK, s)
              | IErr => (REMOTE_ERROR, s)
              | IReset =>
                  match send_chunk st ty [] s with
                  | (Some rc, s'') => (rc, s'')
                  | (None, s'') => handle_input_v2 ty fd_open max dup steps s''
                  end
              | IRead k =>
                  let n := read_count k len (tx_src s) in
                  let chunk := firstn n (tx_src s) in
                  let s' := {| tx_src := skipn n (tx_src s); tx_prefix := []; tx_out := tx_out s;
                               tx_dup := tx_dup s ++ (if dup then chunk else []); tx_dead := tx_dead s |} in
                  match send_chunk st ty chunk s' with
                  | (Some rc, s'') => (rc, s'')
                  | (None, s'') => handle_input_v2 ty fd_open max dup steps s''
                  end
              end
        end
  end.

(** send_exit_code, remote.c 207-223, when both libvchan_send succeed *)
Definition exit_code_msg (status : Z) : bytes := enc32 MSG_DATA_EXIT_CODE ++ enc32 4 ++ enc32 status.
