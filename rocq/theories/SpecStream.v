(** What a data stream over a vchan looks like, independently of how it is handled *)
From Coq Require Import String Ascii List Bool Arith ZArith.
From Verif Require Import Io Stream.
Import ListNotations.
Open Scope list_scope.

(** A message: type and payload; how it looks on the wire *)
Definition message := (Z * bytes)%type.
Definition frame (m : message) : bytes := enc32 (fst m) ++ enc32 (zlen (snd m)) ++ snd m.
Definition wire (ms : list message) : bytes := concat (map frame ms).

(** Messages whose type and length fit their fields *)
Definition sendable (max : nat) (m : message) : Prop :=
  (0 <= fst m < 4294967296)%Z /\ length (snd m) <= max.

(** The stream carried by the data messages: up to the first empty one *)
Definition is_data (ty : Z) : bool := (ty =? MSG_DATA_STDIN)%Z || (ty =? MSG_DATA_STDOUT)%Z.
Fixpoint stream_of (ms : list message) : bytes :=
  match ms with
  | [] => []
  | (ty, p) :: ms =>
      if is_data ty then match p with [] => [] | _ => p ++ stream_of ms end else stream_of ms
  end.
(** Whether there is such an empty message *)
Definition ended (ms : list message) : Prop := exists ty, is_data ty = true /\ In (ty, []) ms.
(** All payloads of one type *)
Definition payload (ty : Z) (ms : list message) : bytes :=
  concat (map snd (filter (fun m => (fst m =? ty)%Z) ms)).
(** How many empty messages of a type there are *)
Definition eofs (ty : Z) (ms : list message) : nat :=
  length (filter (fun m => (fst m =? ty)%Z && (length (snd m) =? 0)) ms).

Definition is_prefix (a b : bytes) : Prop := exists rest, b = a ++ rest.

(** ASCII text as a terminal may show it, and the bells and whistles kept *)
Definition kept_char (c : ascii) : Prop :=
  32 <= nat_of_ascii c <= 126 \/ In (nat_of_ascii c) [7; 8; 9; 10; 13].

(** Histories of buffers: append or remove on the buffer with a given index *)
Inductive bop := BAppend (i : nat) (data : bytes) | BRemove (i : nat) (n : nat).
Fixpoint appended (i : nat) (ops : list bop) : bytes :=
  match ops with
  | [] => []
  | BAppend j d :: ops => if i =? j then d ++ appended i ops else appended i ops
  | BRemove _ _ :: ops => appended i ops
  end.
Fixpoint removed (i : nat) (ops : list bop) : nat :=
  match ops with
  | [] => 0
  | BAppend _ _ :: ops => removed i ops
  | BRemove j n :: ops => if i =? j then n + removed i ops else removed i ops
  end.
(** running such a history on total_mem and the buffers *)
Fixpoint set_nth (i : nat) (x : bytes) (bs : list bytes) : list bytes :=
  match bs, i with
  | [], _ => []
  | _ :: bs, O => x :: bs
  | b :: bs, S i => b :: set_nth i x bs
  end.
Fixpoint run_bops (ops : list bop) (tm : Z) (bs : list bytes) : option (Z * list bytes) :=
  match ops with
  | [] => Some (tm, bs)
  | op :: ops =>
      let '(i, r) := match op with
                     | BAppend i d => (i, buffer_append tm (nth i bs []) d)
                     | BRemove i n => (i, buffer_remove tm (nth i bs []) n)
                     end in
      match r with
      | None => None
      | Some (tm', b') => run_bops ops tm' (set_nth i b' bs)
      end
  end.
Definition total_len (bs : list bytes) : Z := fold_right (fun b z => zlen b + z)%Z 0%Z bs.

(** Histories of write_stdin and flush_client_data on one open descriptor, stopping at
    the first error: whether there was one, what was written, total_mem, the buffer *)
Inductive wop := OpData (data : bytes) (script : list wres) | OpFlush (script : list wres).
Fixpoint received (ops : list wop) : bytes :=
  match ops with
  | [] => []
  | OpData d _ :: ops => d ++ received ops
  | OpFlush _ :: ops => received ops
  end.
Fixpoint run_wops (ops : list wop) (tm : Z) (b : bytes) : option (bool * bytes * Z * bytes) :=
  match ops with
  | [] => Some (true, [], tm, b)
  | op :: ops =>
      match (match op with
             | OpData d script => write_stdin script tm d b
             | OpFlush script => flush_client_data true script tm b
             end) with
      | None => None
      | Some (WError, w, tm, b) => Some (false, w, tm, b)
      | Some (_, w, tm, b) =>
          match run_wops ops tm b with
          | None => None
          | Some (ok, w', tm, b) => Some (ok, w ++ w', tm, b)
          end
      end
  end.

(** The exit code carried by a message, and the last one among some messages *)
Definition code_of (p : bytes) : Z := if (zlen p <? 4)%Z then 255%Z else to_int (dec32 p).
Definition last_exit (z : Z) (ms : list message) : Z :=
  fold_left (fun z m => if (fst m =? MSG_DATA_EXIT_CODE)%Z then code_of (snd m) else z) ms z.
(** The payloads of one type, one by one *)
Definition payloads (ty : Z) (ms : list message) : list bytes :=
  map snd (filter (fun m => (fst m =? ty)%Z) ms).

(** What the receiving end has done after it took the messages [ms]; [init] is what was in the
    buffer at first. [MOpen]: everything is written or buffered. [MDone]: the end of the
    stream was seen and everything written. [MBroken]: the local process closed its end
    or failed, what it got is a prefix. *)
Inductive mode := MOpen | MDone | MBroken.
Definition shown (replace : bool) (b : bytes) : bytes := if replace then do_replace_chars b else b.
Definition Rx (c : rxcfg) (init : bytes) (st0 base : Z) (err0 : bytes) (ms : list message) (m : mode) (s : rx) : Prop :=
  rx_tm s = (base + zlen (rx_buf s))%Z /\
  rx_status s = (if c_service c then st0 else last_exit st0 ms) /\
  (exists ws, rx_err s = err0 ++ concat ws /\
     Forall2 is_prefix ws (if c_service c then [] else map (shown (c_replace_err c)) (payloads MSG_DATA_STDERR ms))) /\
  match m with
  | MOpen => ~ ended ms /\ rx_out s ++ rx_buf s = init ++ shown (c_replace_out c) (stream_of ms) /\
             length (rx_buf s) <= Nat.max (length init) (c_max c)
  | MDone => ended ms /\ rx_out s = init ++ shown (c_replace_out c) (stream_of ms) /\ rx_buf s = []
  | MBroken => is_prefix (rx_out s) (init ++ shown (c_replace_out c) (stream_of ms)) /\
               length (rx_buf s) <= Nat.max (length init) (c_max c)
  end.
Definition is_open (m : mode) : bool := match m with MOpen => true | _ => false end.
Definition no_werr (ws : list wres) : Prop := Forall (fun o => o <> WErr /\ o <> WIntr) ws.

(** Successive calls of handle_input_v2 and of handle_remote_data_v2, up to the first that
    does not just report that there is nothing more to do now *)
Fixpoint run_inputs (ty : Z) (max : nat) (dup : bool) (calls : list (list istep)) (s : tx) : rrc * tx :=
  match calls with
  | [] => (REMOTE_OK, s)
  | call :: calls =>
      match handle_input_v2 ty true max dup call s with
      | (REMOTE_OK, s') => run_inputs ty max dup calls s'
      | r => r
      end
  end.
Fixpoint run_remotes (c : rxcfg) (calls : list (list wres * list rstep)) (s : rx) : option (rrc * rx) :=
  match calls with
  | [] => Some (REMOTE_OK, s)
  | (flush, steps) :: calls =>
      match handle_remote_data_v2 c true flush steps s with
      | Some (REMOTE_OK, s') => run_remotes c calls s'
      | r => r
      end
  end.
Definition tx_start (src : bytes) : tx := {| tx_src := src; tx_prefix := []; tx_out := []; tx_dup := []; tx_dead := false |}.
Definition rx_start (input : bytes) : rx := {| rx_in := input; rx_tm := 0; rx_buf := []; rx_out := []; rx_err := []; rx_status := -1 |}.
