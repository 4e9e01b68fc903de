(** C45-C48, C61-C63: the data streams of a call *)
From Coq Require Import String Ascii List Bool Arith ZArith Lia.
From Verif Require Import Io IoProofs Stream SpecStream StreamProofs RemoteProofs ProcessIo SpecPio ProcessIoProofs PioProofs.
Import ListNotations.
Open Scope list_scope.

(** * C45 *)

(** Any number of buffers, any history of appends and removes that does not abort:
    each buffer holds what was appended to it without what was removed, in order; the
    total is exact and within the limit *)
Theorem C45_fifo ops n tm bs :
  Forall (fun op => bop_index op < n) ops -> run_bops ops 0 (repeat [] n) = Some (tm, bs) ->
  length bs = n /\ tm = total_len bs /\ (tm <= BUFFER_LIMIT)%Z /\
  forall i, i < n -> exists taken, length taken = removed i ops /\ appended i ops = taken ++ nth i bs [].
Proof.
  intros Hi H. assert (E0 : total_len (repeat [] n) = 0%Z) by (clear; induction n; cbn; [reflexivity|exact IHn]).
  destruct (run_bops_spec ops 0 (repeat [] n) tm bs) as (A & B & C & D); auto.
  - rewrite repeat_length. exact Hi.
  - discriminate.
  - rewrite repeat_length in *. split; [exact A|]. split; [exact B|]. split; [exact C|]. intros i Hlt. destruct (D i Hlt) as (t & T1 & T2). exists t. split; [exact T1|].
    assert (N : nth i (repeat (@nil ascii) n) [] = []) by (clear; revert i; induction n as [|n IH]; intros [|i]; try reflexivity; apply IH).
    unfold bytes in *. rewrite N in T2. exact T2.
Qed.
(** and it does not abort as long as there is room for a copy *)
Theorem C45_no_abort tm b data n :
  (zlen b <= tm)%Z ->
  ((tm + zlen data + zlen b <= BUFFER_LIMIT)%Z -> buffer_append tm b data = Some ((tm + zlen data)%Z, b ++ data)) /\
  (n <= length b -> (tm + (zlen b - Z.of_nat n) <= BUFFER_LIMIT)%Z -> buffer_remove tm b n = Some ((tm - Z.of_nat n)%Z, skipn n b)).
Proof. intros H. split; intros; [apply buffer_append_ok|apply buffer_remove_ok]; auto. Qed.

(** Removing a byte can abort although the contents are far below the limit: the
    accounting counts the old and the new copy *)
Theorem C45_early_abort : exists b, buffer_append 0 [] b = Some (zlen b, b) /\ (zlen b = 30000000)%Z /\ buffer_remove (zlen b) b 1 = None.
Proof.
  destruct (Z_of_nat_complete 30000000) as [n Hn]; [discriminate|]. exists (repeat "a"%char n).
  assert (L : zlen (repeat "a"%char n) = 30000000%Z) by (unfold zlen; rewrite repeat_length; symmetry; exact Hn).
  split; [|split; [exact L|]].
  - unfold buffer_append. rewrite L. reflexivity.
  - unfold buffer_remove. rewrite L. destruct (_ <? _); reflexivity.
Qed.

Example C45_run : run_bops [BAppend 0 (list_ascii_of_string "hello"); BAppend 1 (list_ascii_of_string "x"); BRemove 0 2; BAppend 0 (list_ascii_of_string "!")] 0 [[]; []]
  = Some (5%Z, [list_ascii_of_string "llo!"; list_ascii_of_string "x"]).
Proof. vm_compute. reflexivity. Qed.

(** * C46 *)

Theorem C46_prefix ops tm ok w tm' b :
  run_wops ops tm [] = Some (ok, w, tm', b) ->
  is_prefix w (received ops) /\ (ok = true -> received ops = w ++ b) /\ (ok = true -> b = [] -> w = received ops).
Proof.
  intros H. destruct (run_wops_spec _ _ _ _ _ _ _ H) as [A B]. cbn [app] in *. split; [exact A|]. split; [exact B|].
  intros Hok ->. rewrite (B Hok), app_nil_r. reflexivity.
Qed.
(** What is buffered is written out by a flush as soon as the process reads again *)
Theorem C46_drains script tm b : (0 <= tm)%Z -> (zlen b <= tm)%Z -> (tm + zlen b <= BUFFER_LIMIT)%Z ->
  flush_client_data true (Wrote (length b) :: script) tm b = Some (WOk, b, (tm - zlen b)%Z, []).
Proof.
  intros H0 H1 H2. cbn [flush_client_data]. destruct b as [|x b]; [cbn [flush_loop]; f_equal; f_equal; f_equal; unfold zlen; cbn; lia|].
  cbn [flush_loop]. rewrite Nat.min_id. rewrite buffer_remove_ok; auto.
  rewrite skipn_all2 by lia. assert (E : forall z, flush_loop script z [] = Some (WOk, [], z, [])) by (destruct script; reflexivity).
  rewrite E, firstn_all, app_nil_r. reflexivity.
Qed.
Example C46_run :
  run_wops [OpData (list_ascii_of_string "hello ") [Wrote 3; WAgain]; OpData (list_ascii_of_string "world") [Wrote 9]; OpFlush [Wrote 4; WAgain]; OpFlush [Wrote 100]] 0 []
  = Some (true, list_ascii_of_string "hello world", 0%Z, []).
Proof. vm_compute. reflexivity. Qed.

(** * C47 *)

Theorem C47_write_all script data r w : write_all script data = (r, w) ->
  is_prefix w data /\ (r = Some true -> w = data) /\ (r = Some false -> w <> data).
Proof.
  intros H. destruct (write_all_spec _ _ _ _ H) as (A & B & C). split; [exact A|]. split; [exact B|]. intros X. apply C, X.
Qed.
Theorem C47_read_all script src size r b rest : read_all script src size = (r, b, rest) ->
  src = b ++ rest /\ length b <= size /\ (r = Some true <-> length b = size).
Proof. intros H. destruct (read_all_spec _ _ _ _ _ _ H) as (A & B & C & _). auto. Qed.
(** copying, scatter output and the vchan helpers *)
Theorem C47_copy_fd_all chunk script src r w : 0 < chunk -> copy_fd_all chunk script src = (r, w) ->
  is_prefix w src /\ (r = Some true -> w = src).
Proof. intros Hc H. exact (copy_fd_all_spec _ _ Hc _ _ _ H). Qed.
Theorem C47_sendmsg_all script iovs r w : sendmsg_all script iovs = (r, w) ->
  is_prefix w (concat iovs) /\ (r = Some true -> w = concat iovs).
Proof. intros H. exact (sendmsg_all_spec _ _ _ _ H). Qed.
Theorem C47_vchan script rscript data r w src size r' b rest :
  (write_vchan_all script data = (r, w) -> is_prefix w data /\ (r = Some true -> w = data)) /\
  (read_vchan_all rscript src size = (r', b, rest) -> src = b ++ rest /\ length b <= size /\ (r' = Some true <-> length b = size)).
Proof. split; intros H; [exact (write_vchan_all_spec _ _ _ _ H)|exact (read_vchan_all_spec _ _ _ _ _ _ H)]. Qed.
(** reading to the end: everything, or nothing if it is too long *)
Theorem C47_read_to_malloc script src initial max r : 2 <= initial <= max -> qubes_read_all_to_malloc script src initial max = Some r ->
  match r with Some b => b = src /\ length b < max | None => max <= length src \/ In RErr script end.
Proof. intros Hi H. exact (read_to_malloc_spec script src initial max [] r Hi ltac:(cbn; lia) H). Qed.
Example C47_run : write_all [Wrote 2; WIntr; Wrote 9] (list_ascii_of_string "abcde") = (Some true, list_ascii_of_string "abcde") /\
  read_all [Read 1; RIntr; Read 1; Read 5] (list_ascii_of_string "abcdef") 5 = (Some true, list_ascii_of_string "abcde", ["f"%char]) /\
  read_all [Read 3; Read 3; Read 3] (list_ascii_of_string "abc") 5 = (Some false, list_ascii_of_string "abc", []).
Proof. vm_compute. auto. Qed.

(** * C48 *)

Lemma run_inputs_Tx ty max dup calls : 0 < max -> forall s rc s', run_inputs ty max dup calls s = (rc, s') -> Tx ty max rc s s'.
Proof.
  intros Hm. induction calls as [|call calls IH]; intros s rc s' H; cbn [run_inputs] in H.
  - injection H as <- <-. apply Tx_nil. auto.
  - destruct (handle_input_v2 ty true max dup call s) as [r s1] eqn:E. pose proof (handle_input_spec _ _ _ _ _ Hm _ _ _ E) as T.
    destruct r; try (injection H as <- <-; exact T). apply IH in H. clear IH E.
    destruct T as (ch & lost & tail & A1 & A2 & A3 & A4 & -> & -> & A5). destruct H as (ch' & lost' & tail' & B1 & B2 & B3 & B4 & B5).
    exists (ch ++ ch'), lost', tail'. split; [apply Forall_app; auto|]. unfold msgs in *. rewrite map_app, wire_app, concat_app.
    split; [rewrite B2, A2, <- !app_assoc, app_nil_l; reflexivity|]. split; [rewrite A3, app_nil_l, B3, <- !app_assoc; reflexivity|]. split; [|rewrite <- A5; exact B5].
    intros X. destruct (A4 X) as (-> & _ & Y). destruct (B4 Y) as (-> & Z1 & Z2). auto.
Qed.
Lemma run_inputs_end ty max dup calls : 0 < max -> forall s s', run_inputs ty max dup calls s = (REMOTE_EOF, s') ->
  Forall (Forall (fun st => i_read st <> IReset)) calls -> tx_src s' = [].
Proof.
  intros Hm. induction calls as [|call calls IH]; intros s s' H Hr; cbn [run_inputs] in H; [discriminate|].
  inversion Hr as [|? ? Hr1 Hr2]; subst. destruct (handle_input_v2 ty true max dup call s) as [r s1] eqn:E. destruct r; try discriminate.
  - injection H as <-. destruct (handle_input_eof _ _ _ _ _ Hm _ _ E) as [Y|Y]; [exact Y|]. exfalso. now apply (no_reset_exists _ Hr1).
  - exact (IH _ _ H Hr2).
Qed.

(** The sender, over any number of calls with any schedule of space and short reads:
    what it puts into the vchan is a sequence of whole messages (followed, if the
    vchan fails, by a part of one), none of them empty or over the limit, whose payloads
    are what was read, in order; an end of input adds exactly one empty message *)
Theorem C48_sender ty max dup calls src rc s' : 0 < max -> run_inputs ty max dup calls (tx_start src) = (rc, s') ->
  exists chunks tail, Forall (fun p => p <> [] /\ length p <= max) chunks /\
    tx_out s' = wire (map (fun p => (ty, p)) chunks) ++ tail /\
    match rc with
    | REMOTE_OK => tail = [] /\ src = concat chunks ++ tx_src s'
    | REMOTE_EOF => (tail = wire [(ty, [])] \/ tail = [] /\ tx_dead s' = true) /\ src = concat chunks ++ tx_src s' /\
        (Forall (Forall (fun st => i_read st <> IReset)) calls -> concat chunks = src)
    | REMOTE_ERROR => exists lost, src = concat chunks ++ lost ++ tx_src s' /\ is_prefix tail (frame (ty, lost))
    | REMOTE_EXITED => False
    end.
Proof.
  intros Hm H. pose proof (run_inputs_Tx _ _ _ _ Hm _ _ _ H) as (ch & lost & tail & A1 & A2 & A3 & A4 & A5). cbn [tx_start tx_out tx_prefix tx_src tx_dead app] in *.
  exists ch, tail. split; [exact A1|]. split; [exact A2|]. destruct rc; [exact A5| | |].
  - destruct A5 as (B1 & B2 & B3). exists (lost ++ tx_prefix s'). assert (E : tx_prefix s' = []).
    { clear - H. revert H. generalize (eq_refl : tx_prefix (tx_start src) = []). generalize (tx_start src) as s. induction calls as [|call calls IH]; intros s Hs H; cbn [run_inputs] in H; [discriminate|].
      destruct (handle_input_v2 ty true max dup call s) as [r s1] eqn:E. pose proof (handle_input_prefix _ _ _ _ _ _ _ _ E Hs) as X. destruct r; try discriminate; [injection H as <-; exact X|]. eapply IH; eauto. }
    rewrite E in *. rewrite app_nil_r. split; [exact A3|]. exact B1.
  - destruct A5 as (-> & E & ->). rewrite E in *. cbn [app] in *. split; [|split; [exact A3|]].
    + destruct (tx_dead s'); [right; auto|left]. unfold wire. cbn [map concat]. rewrite app_nil_r. reflexivity.
    + intros Hr. rewrite (run_inputs_end _ _ _ _ Hm _ _ H Hr), app_nil_r in A3. auto.
  - destruct A5 as (-> & -> & E). split; [reflexivity|]. cbn [app] in *. rewrite A3. f_equal.
    assert (E1 : tx_prefix s' = []).
    { clear - H. revert H. generalize (eq_refl : tx_prefix (tx_start src) = []). generalize (tx_start src) as s. induction calls as [|call calls IH]; intros s Hs H; cbn [run_inputs] in H; [injection H as <-; exact Hs|].
      destruct (handle_input_v2 ty true max dup call s) as [r s1] eqn:E. pose proof (handle_input_prefix _ _ _ _ _ _ _ _ E Hs) as X. destruct r; try discriminate. eapply IH; eauto. }
    rewrite E1. reflexivity.
Qed.

Lemma run_remotes_Rx c calls : (Z.of_nat (c_max c) < 4294967296)%Z -> forall ms s rc s', run_remotes c calls s = Some (rc, s') ->
  Rx c [] (-1) 0 [] ms MOpen s ->
  exists more m' , is_prefix (wire more) (rx_in s) /\ Forall (sendable (c_max c)) more /\ Rx c [] (-1) 0 [] (ms ++ more) m' s' /\
    (rc <> REMOTE_EOF -> m' = MOpen) /\ (rc = REMOTE_EOF -> m' = MDone \/ m' = MBroken /\ ~ Forall (fun c => no_werr (fst c) /\ Forall (fun st => no_werr (r_writes st)) (snd c)) calls).
Proof.
  intros Hm. induction calls as [|[flush steps] calls IH]; intros ms s rc s' H HR; cbn [run_remotes] in H.
  - injection H as <- <-. exists [], MOpen. rewrite app_nil_r. split; [exists (rx_in s); reflexivity|]. split; [constructor|]. split; [exact HR|]. split; [auto|discriminate].
  - change true with (is_open MOpen) in H. destruct (handle_remote_data_v2 c (is_open MOpen) flush steps s) as [[r s1]|] eqn:E; [|discriminate].
    destruct (handle_remote_data_spec c [] (-1) 0 [] flush steps Hm _ _ _ _ _ E HR) as (more & tail & m' & A & B & C & D & F & G & X).
    assert (Stop : r <> REMOTE_OK -> Some (r, s1) = Some (rc, s') -> exists more m', is_prefix (wire more) (rx_in s) /\ Forall (sendable (c_max c)) more /\ Rx c [] (-1) 0 [] (ms ++ more) m' s' /\
    (rc <> REMOTE_EOF -> m' = MOpen) /\ (rc = REMOTE_EOF -> m' = MDone \/ m' = MBroken /\ ~ Forall (fun c => no_werr (fst c) /\ Forall (fun st => no_werr (r_writes st)) (snd c)) ((flush, steps) :: calls))).
    { intros _ Y. injection Y as <- <-. exists more, m'. split; [exists tail; exact A|]. split; [exact B|]. split; [exact D|]. split; [exact F|]. intros Y. destruct (G Y) as [_ [Z|[Z1 Z2]]]; [auto|].
      right. split; [exact Z1|]. intros Z. inversion Z. contradiction. }
    destruct r; try (apply Stop; [discriminate|exact H]).
    assert (Em : m' = MOpen) by (apply F; discriminate). subst m'. destruct (IH _ _ _ _ H D) as (more2 & m2 & A2 & B2 & C2 & D2 & E2).
    exists (more ++ more2), m2. rewrite wire_app. rewrite (C ltac:(discriminate)) in A2. destruct A2 as (x & A2). split; [exists x; rewrite A, A2, app_assoc; reflexivity|].
    split; [apply Forall_app; auto|]. rewrite app_assoc. split; [exact C2|]. split; [exact D2|]. intros Y. destruct (E2 Y) as [Z|[Z1 Z2]]; [auto|]. right. split; [exact Z1|]. intros Z. inversion Z. contradiction.
Qed.

(** The receiver reconstructs the stream: whatever chunks the sender made of [src] and
    whatever the receiver's schedule, what it wrote so far is a prefix of it, and all of
    it once it has seen the end and no write failed *)
Theorem C48_receiver c ty chunks calls rc s' :
  (Z.of_nat (c_max c) < 4294967296)%Z -> is_data ty = true -> Forall (fun p => p <> [] /\ length p <= c_max c) chunks ->
  run_remotes c calls (rx_start (wire (map (fun p => (ty, p)) chunks ++ [(ty, [])]))) = Some (rc, s') ->
  is_prefix (rx_out s' ++ (match rc with REMOTE_EOF => [] | _ => rx_buf s' end)) (shown (c_replace_out c) (concat chunks)) /\
  (rc = REMOTE_EOF -> Forall (fun c => no_werr (fst c) /\ Forall (fun st => no_werr (r_writes st)) (snd c)) calls ->
   rx_out s' = shown (c_replace_out c) (concat chunks)).
Proof.
  intros Hm Hd Hc H. set (ms := map (fun p => (ty, p)) chunks ++ [(ty, [])]) in *.
  assert (R0 : Rx c [] (-1) 0 [] [] MOpen (rx_start (wire ms))).
  { split; [reflexivity|]. split; [destruct (c_service c); reflexivity|]. split.
    - exists []. split; [reflexivity|]. destruct (c_service c); constructor.
    - split; [intros (t & _ & [])|]. split; [cbn; destruct (c_replace_out c); reflexivity|cbn; lia]. }
  destruct (run_remotes_Rx c calls Hm _ _ _ _ H R0) as (more & m' & A & B & C & D & E). cbn [rx_start rx_in app] in *.
  assert (Hty : (0 <= ty < 4294967296)%Z).
  { unfold is_data in Hd. apply orb_true_iff in Hd as [Hd|Hd]; apply Z.eqb_eq in Hd; subst ty; unfold MSG_DATA_STDIN, MSG_DATA_STDOUT; lia. }
  assert (S : Forall (sendable (c_max c)) ms).
  { unfold ms. apply Forall_app. split; [|constructor; [split; [exact Hty|cbn; lia]|constructor]]. rewrite Forall_map. revert Hc. apply Forall_impl. intros p [_ Hp]. split; [exact Hty|exact Hp]. }
  destruct (wire_prefix _ _ _ Hm B S A) as (rest & Er).
  destruct (stream_of_msgs ty (c_max c) chunks Hd Hc) as [S1 S2].
  assert (Es : stream_of ms = concat chunks).
  { unfold ms. change (map (fun p => (ty, p)) chunks) with (msgs ty chunks). rewrite stream_of_open by exact S2. rewrite S1. cbn [stream_of]. rewrite Hd. apply app_nil_r. }
  assert (Pre : is_prefix (shown (c_replace_out c) (stream_of more)) (shown (c_replace_out c) (concat chunks))).
  { rewrite <- Es, Er. pose proof (is_prefix_app [] (c_replace_out c) _ _ (stream_of_prefix more rest)) as X. exact X. }
  destruct C as (_ & _ & _ & C). split.
  - destruct m'; cbn [Rx] in C.
    + destruct C as (_ & C & _). cbn [app] in C. destruct rc; try (rewrite C; exact Pre). destruct (E eq_refl) as [X|[X _]]; discriminate X.
    + destruct C as (_ & C & C2). cbn [app] in C. rewrite C2. destruct rc; rewrite app_nil_r, C; exact Pre.
    + destruct C as (C & _). cbn [app] in C. destruct rc; try (specialize (D ltac:(discriminate)); discriminate D). rewrite app_nil_r. eapply is_prefix_trans; eassumption.
  - intros X Y. destruct (E X) as [->|[_ Z]]; [|contradiction]. destruct C as (C1 & C & _). cbn [app] in C. rewrite C. f_equal. rewrite <- Es, Er.
    rewrite stream_of_ended by exact C1. reflexivity.
Qed.

(** Sender and receiver together *)
Theorem C48_roundtrip ty dup scalls src s c rcalls s' :
  (Z.of_nat (c_max c) < 4294967296)%Z -> 0 < c_max c -> is_data ty = true ->
  run_inputs ty (c_max c) dup scalls (tx_start src) = (REMOTE_EOF, s) -> tx_dead s = false -> Forall (Forall (fun st => i_read st <> IReset)) scalls ->
  run_remotes c rcalls (rx_start (tx_out s)) = Some (REMOTE_EOF, s') ->
  Forall (fun c => no_werr (fst c) /\ Forall (fun st => no_werr (r_writes st)) (snd c)) rcalls ->
  rx_out s' = shown (c_replace_out c) src.
Proof.
  intros Hm H0 Hd HS Ha Hr HR Hw. destruct (C48_sender _ _ _ _ _ _ _ H0 HS) as (chunks & tail & A & B & C & D & E).
  rewrite <- (E Hr). destruct C as [C|[_ C]]; [|congruence]. subst tail. rewrite <- wire_app in B. rewrite B in HR.
  eapply (C48_receiver c ty chunks); eauto.
Qed.
Definition ch (s : string) : bytes := list_ascii_of_string s.
Definition st_in (space : Z) (k : nat) : istep := {| i_space := space; i_read := IRead k; i_hdr := true; i_writes := [Wrote 2; Wrote 100] |}.
Definition st_rd (ws : list wres) : rstep := {| r_ready := true; r_reads := [Read 1; Read 100]; r_writes := ws; r_errs := [] |}.
Definition rx_cfg (svc : bool) : rxcfg := {| c_service := svc; c_replace_out := false; c_replace_err := false; c_max := 6 |}.
Example C48_run :
  let '(rc, s) := run_inputs MSG_DATA_STDOUT 6 false [[st_in 11 9; st_in 100 1]; [st_in 100 90; st_in 100 90; st_in 100 90]] (tx_start (ch "hello, world")) in
  rc = REMOTE_EOF /\ tx_out s = wire [(MSG_DATA_STDOUT, ch "hel"); (MSG_DATA_STDOUT, ch "l"); (MSG_DATA_STDOUT, ch "o, wor"); (MSG_DATA_STDOUT, ch "ld"); (MSG_DATA_STDOUT, [])] /\
  match run_remotes (rx_cfg false) [([], [st_rd [Wrote 2]]); ([Wrote 7], [st_rd [Wrote 1]; st_rd [Wrote 3; WAgain]]); ([Wrote 3], [st_rd [Wrote 9]; st_rd []])] (rx_start (tx_out s)) with
  | Some (REMOTE_EOF, s') => rx_out s' = ch "hello, world"
  | _ => False
  end.
Proof. vm_compute. auto. Qed.
