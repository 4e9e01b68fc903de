(** * How a call ends, and what is copied of its stderr: more about the data connection *)
From Coq Require Import String Ascii List Bool Arith ZArith Lia.
From Verif Require Import Io IoProofs Stream SpecStream StreamProofs RemoteProofs ProcessIo SpecPio ProcessIoProofs PioProofs Props_Stream Props_Pio.
Import ListNotations.
Open Scope list_scope.

(** ** The schedules cover every read: any number of bytes between one and what is
    there and asked for *)
Lemma read_count_any want src n : 1 <= n <= Nat.min want (length src) -> exists k, read_count k want src = n.
Proof. intros H. exists n. unfold read_count. destruct src; cbn [length] in *; lia. Qed.
Lemma read_count_bounds k want src : 0 < want -> src <> [] -> 1 <= read_count k want src <= Nat.min want (length src).
Proof. unfold read_count. destruct src; [congruence|]. cbn [length]. lia. Qed.

(** ** Exit codes: every int travels unchanged *)
Lemma byte_mod z d q : (0 < d -> 4294967296 = q * 256 * d -> (z mod 4294967296 / d) mod 256 = (z / d) mod 256)%Z.
Proof.
  intros Hd E. rewrite (Z.div_mod z 4294967296) at 2 by lia.
  replace (4294967296 * (z / 4294967296) + z mod 4294967296)%Z with (z mod 4294967296 + (q * (z / 4294967296) * 256) * d)%Z by (rewrite E at 3; ring).
  rewrite Z.div_add by lia. symmetry. apply Z.mod_add. lia.
Qed.
Theorem C62_exit_code_travels z rest : (- 2147483648 <= z < 2147483648)%Z -> to_int (dec32 (enc32 z ++ rest)) = z.
Proof.
  intros H. assert (E : enc32 z = enc32 (z mod 4294967296)).
  { unfold enc32, byte_of. rewrite (byte_mod z 256 65536), (byte_mod z 65536 256), (byte_mod z 16777216 1) by lia.
    pose proof (byte_mod z 1 16777216 ltac:(lia) ltac:(lia)) as X. rewrite !Z.div_1_r in X. now rewrite X. }
  rewrite E. assert (B := Z.mod_pos_bound z 4294967296 ltac:(lia)). rewrite dec32_enc32 by lia. unfold to_int.
  destruct (Z.leb_spec 0 z).
  - rewrite Z.mod_small by lia. destruct (Z.ltb_spec z 2147483648); lia.
  - assert (EE : (z mod 4294967296 = z + 4294967296)%Z) by (symmetry; apply (Z.mod_unique_pos z 4294967296 (-1)); lia). rewrite EE.
    destruct (Z.ltb_spec (z + 4294967296) 2147483648); lia.
Qed.

(** ** What the program returns: the exit status of the service if it is not 0, else
    that of the local process: as reaped in the loop, or as waited for after it *)
Theorem C62_return_value c wait s :
  let remote := rx_status (p_rx s) in
  (service c = false -> remote <> 0%Z -> pio_return c wait s = remote) /\
  (service c = true \/ remote = 0%Z ->
    (pc_local c = false -> pio_return c wait s = 0%Z) /\
    (pc_local c = true -> (0 <= p_local s)%Z -> pio_return c wait s = p_local s) /\
    (pc_local c = true -> (p_local s < 0)%Z -> pio_return c wait s = wait)).
Proof.
  cbv zeta. unfold pio_return. split.
  - intros -> H. apply Z.eqb_neq in H. rewrite H. reflexivity.
  - intros H. assert (E : negb (service c) && negb (rx_status (p_rx s) =? 0)%Z = false)
      by (destruct H as [->| ->]; [reflexivity|apply andb_false_r]). rewrite E.
    repeat split; intros ->; cbn [andb]; [reflexivity|..]; intros Hl.
    + destruct (Z.ltb_spec (p_local s) 0); [lia|reflexivity].
    + destruct (Z.ltb_spec (p_local s) 0); [reflexivity|lia].
Qed.

(** ** The copy of stderr *)
Definition copied (c : pcfg) (err : bytes) (s : pio) : Prop :=
  exists done, err = done ++ p_errsrc s /\ p_dup s = if pc_dup c then done else [].
Lemma copied_same c err s s' : p_errsrc s' = p_errsrc s -> p_dup s' = p_dup s -> copied c err s -> copied c err s'.
Proof. intros A B (d & X & Y). exists d. rewrite A, B. auto. Qed.
Lemma send_chunk_dup st ty chunk s r s' : send_chunk st ty chunk s = (r, s') -> tx_dup s' = tx_dup s /\ tx_src s' = tx_src s.
Proof.
  unfold send_chunk. intros H.
  repeat match type of H with
         | context [match ?x with _ => _ end] => destruct x
         end; injection H as <- <-; auto.
Qed.
Lemma handle_input_dup ty fd_open max dup steps : forall s rc s', handle_input_v2 ty fd_open max dup steps s = (rc, s') ->
  exists done, tx_src s = done ++ tx_src s' /\ tx_dup s' = tx_dup s ++ (if dup then done else []).
Proof.
  assert (Nil : forall s : tx, exists done, tx_src s = done ++ tx_src s /\ tx_dup s = tx_dup s ++ (if dup then done else [])).
  { intros s. exists []. split; [reflexivity|]. destruct dup; now rewrite app_nil_r. }
  induction steps as [|st steps IH]; intros s rc s'; cbn [handle_input_v2]; [intros H; injection H as <- <-; apply Nil|].
  destruct (i_space st <=? 8)%Z; [intros H; injection H as <- <-; apply Nil|].
  assert (Go : forall chunk s1, match send_chunk st ty chunk s1 with
            | (Some rc, s'') => (rc, s'')
            | (None, s'') => handle_input_v2 ty fd_open max dup steps s'' end = (rc, s') ->
            exists done, tx_src s1 = done ++ tx_src s' /\ tx_dup s' = tx_dup s1 ++ (if dup then done else [])).
  { intros chunk s1. destruct (send_chunk st ty chunk s1) as [r s2] eqn:E. apply send_chunk_dup in E as [E1 E2]. destruct r.
    - intros H; injection H as <- <-. rewrite E1, E2. apply Nil.
    - intros H. apply IH in H as (d & A & B). exists d. rewrite <- E1, <- E2. auto. }
  destruct (tx_prefix s).
  - destruct (negb fd_open); [intros H; injection H as <- <-; apply Nil|].
    destruct (i_read st).
    + intros H. apply Go in H as (d & A & B). cbn [tx_src tx_dup] in *.
      set (n := read_count _ _ _) in *. exists (firstn n (tx_src s) ++ d). split; [now rewrite <- app_assoc, <- A, firstn_skipn|].
      rewrite B. destruct dup; [now rewrite app_assoc|now rewrite !app_nil_r].
    + intros H. now apply Go in H.
    + intros H; injection H as <- <-; apply Nil.
    + intros H; injection H as <- <-; apply Nil.
  - intros H. now apply Go in H.
Qed.
Lemma copied_close_stdin c ok err s : copied c err s -> copied c err (close_stdin c ok s).
Proof. apply copied_same; unfold close_stdin; destruct (pc_exit_stdin c); try destruct (p_stdout s); reflexivity. Qed.
Lemma copied_close_stdout c err s : copied c err s -> copied c err (close_stdout c s).
Proof. apply copied_same; unfold close_stdout; destruct (pc_exit_stdout c); reflexivity. Qed.
Lemma copied_remote c e err s : copied c err s -> keeps (copied c err) (pio_remote c e s).
Proof.
  intros H. unfold keeps, pio_remote. destruct (handle_remote_data_v2 _ _ _ _ _) as [[[] r]|]; cbn [state_of]; auto;
    try (eapply copied_same; [| |exact H]; reflexivity).
  all: repeat match goal with |- context [if ?b then _ else _] => destruct b end.
  all: try (apply copied_close_stdin); try (apply copied_close_stdout); eapply copied_same; [| |exact H]; reflexivity.
Qed.
Lemma copied_stdout c e err s : copied c err s -> keeps (copied c err) (pio_stdout c e s).
Proof.
  intros H. unfold keeps, pio_stdout. destruct (_ || _); [|exact H]. destruct (handle_input_v2 _ _ _ _ _ _) as [[] t]; cbv zeta;
    repeat match goal with |- context [if ?b then _ else _] => destruct b end; cbn [state_of];
    try apply copied_close_stdout; eapply copied_same; try exact H; reflexivity.
Qed.
Lemma copied_stderr c e err s : copied c err s -> keeps (copied c err) (pio_stderr c e s).
Proof.
  intros (d & A & B). unfold keeps, pio_stderr. destruct (_ && _); [|exists d; auto]. destruct (handle_input_v2 _ _ _ _ _ _) as [rc t] eqn:E; cbv zeta.
  apply handle_input_dup in E as (d' & A' & B'). cbn [tx_src tx_dup] in *.
  assert (G : forall s', p_errsrc s' = tx_src t -> p_dup s' = tx_dup t -> copied c err s').
  { intros s' E1 E2. exists (d ++ d'). rewrite E1, E2, <- app_assoc, <- A'. split; [exact A|]. rewrite B', B. destruct (pc_dup c); reflexivity. }
  destruct rc; cbn [state_of]; apply G; reflexivity.
Qed.
Lemma copied_step c e err s : copied c err s -> keeps (copied c err) (pio_step c e s).
Proof.
  intros H0. unfold pio_step. cbv zeta.
  assert (H : copied c err (pio_child c e s)).
  { unfold pio_child. destruct (e_child e); [|exact H0]. destruct (_ && _); [|exact H0]. apply copied_close_stdin. eapply copied_same; [| |exact H0]; reflexivity. }
  clear H0. set (s1 := pio_child c e s) in *. clearbody s1. destruct (pio_all_done c e s1) as [o|] eqn:Ed.
  - unfold pio_all_done in Ed. unfold keeps. destruct (all_closed s1); [|discriminate].
    destruct (service c); destruct (_ || _); cbn [andb] in Ed; try discriminate.
    + destruct (e_code e); [destruct (p_dead s1)|..]; injection Ed as <-; cbn [state_of]; eapply copied_same; try exact H; reflexivity.
    + destruct (0 <=? _)%Z; [|discriminate]. injection Ed as <-. exact H.
  - destruct (negb (e_open e) && _ && _); [exact H|].
    assert (H' : copied c err (pio_usr1 c e s1)).
    { unfold pio_usr1. destruct (_ && _); [|exact H]. eapply copied_same; [| |exact (copied_close_stdout c err _ H)]; reflexivity. }
    destruct (e_poll e); [|exact H'|exact H']. destruct (negb (e_wait e)); [exact H'|].
    assert (H2 : copied c err (if p_stdin (pio_usr1 c e s1) && e_hup e then close_stdin c (e_send e) (pio_usr1 c e s1) else pio_usr1 c e s1)).
    { destruct (_ && _); [apply copied_close_stdin|]; exact H'. }
    apply keeps_bind; [apply copied_remote, H2|]. intros s2 K. apply keeps_bind; [apply copied_stdout, K|]. intros s3 K3. apply copied_stderr, K3.
Qed.
Lemma copied_run c err es : forall s, copied c err s -> keeps (copied c err) (pio_run c es s).
Proof. induction es as [|e es IH]; intros s H; [exact H|]. cbn [pio_run]. apply keeps_bind; [apply copied_step, H|exact IH]. Qed.
(** When the caller asked for a copy of stderr (replace_chars aside, this is the log of
    the service), the log gets exactly the bytes read so far; else it gets nothing *)
Theorem C75_stderr_copied p ok input es o s : en_run p ok input es = o -> state_of o = Some s ->
  exists done, en_err p = done ++ p_errsrc s /\ p_dup s = if pc_dup (en_cfg p) then done else [].
Proof.
  intros Ho Hs. unfold en_run in Ho.
  set (s0 := pio_start _ _ _ _ _ _ _ _ _ _ _) in Ho.
  assert (H0 : copied (en_cfg p) (en_err p) s0).
  { exists []. unfold s0, pio_start. split; [destruct (_ && _); reflexivity|]. destruct (pc_dup _); destruct (_ && _); reflexivity. }
  pose proof (copied_run _ _ es _ H0) as K. unfold keeps in K. rewrite Ho, Hs in K. exact K.
Qed.

(** ** A call ends when it is over, and not before *)
Definition closed (s : pio) : Prop := p_stdin s = false /\ p_stdout s = false /\ p_stderr s = false.
(** the local process has ended and its status is known, or there is none *)
Definition process_over (c : pcfg) (s : pio) : Prop := pc_local c = true -> (0 <= p_local s)%Z.
Lemma closed_iff s : all_closed s = true <-> closed s.
Proof. unfold all_closed, closed. rewrite !andb_true_iff, !negb_true_iff. tauto. Qed.
Lemma over_iff c s : negb (pc_local c) || (0 <=? p_local s)%Z = true <-> process_over c s.
Proof.
  unfold process_over. rewrite orb_true_iff, negb_true_iff, Z.leb_le. destruct (pc_local c); [|intuition congruence].
  split; [intros [H|H]; [discriminate|auto]|intros H; right; auto].
Qed.
Lemma child_over c e s : process_over c s -> pio_child c e s = s.
Proof.
  unfold process_over, pio_child. intros H. destruct (e_child e); [|reflexivity]. destruct (pc_local c); [|reflexivity].
  specialize (H eq_refl). destruct (Z.ltb_spec (p_local s) 0); [lia|reflexivity].
Qed.
Theorem C76_service_ends c e s : service c = true -> closed s -> process_over c s -> p_dead s = false -> e_code e = CodeSent ->
  exists s', pio_step c e s = PDone s' /\
    p_vout s' = p_vout s ++ frame (MSG_DATA_EXIT_CODE, enc32 (if pc_local c then p_local s else 0%Z)).
Proof.
  intros Hs Hc Ho Hd He. unfold pio_step. cbv zeta. rewrite child_over by exact Ho. unfold pio_all_done.
  apply closed_iff in Hc. rewrite Hc, Hs. apply over_iff in Ho. rewrite Ho, He, Hd. eexists; split; [reflexivity|].
  unfold p_send; cbn [p_vout]. rewrite Hd. reflexivity.
Qed.
Theorem C76_client_ends c e s : service c = false -> closed s -> process_over c s -> (0 <= rx_status (p_rx s))%Z ->
  pio_step c e s = PDone s.
Proof.
  intros Hs Hc Ho Hr. unfold pio_step. cbv zeta. rewrite child_over by exact Ho. unfold pio_all_done.
  apply closed_iff in Hc. rewrite Hc, Hs. apply over_iff in Ho. rewrite Ho. apply Z.leb_le in Hr. rewrite Hr. reflexivity.
Qed.
(** Conversely: an end leaves its loop only when all is closed and the process is over
    (for a client: and the exit code of the service is there), or when the peer closed the
    connection and all it sent has been dealt with, or when waiting fails *)
Theorem C76_not_before c e s s' : pio_step c e s = PDone s' ->
  closed s' /\ process_over c s' /\ (service c = false -> (0 <= rx_status (p_rx s'))%Z) \/
  e_open e = false /\ rx_in (p_rx s') = [] /\ rx_buf (p_rx s') = [] \/
  e_poll e = PollErr.
Proof.
  unfold pio_step. cbv zeta. set (s1 := pio_child c e s). destruct (pio_all_done c e s1) as [o|] eqn:Ed.
  - intros ->. left. unfold pio_all_done in Ed. destruct (all_closed s1) eqn:Ea; [|discriminate]. apply closed_iff in Ea.
    destruct (negb (pc_local c) || (0 <=? p_local s1)%Z) eqn:Eo; [|destruct (service c); discriminate]. apply over_iff in Eo.
    destruct (service c) eqn:Es.
    + destruct (e_code e); [destruct (p_dead s1)|..]; try discriminate. injection Ed as <-. split; [exact Ea|]. split; [exact Eo|discriminate].
    + cbn [andb] in Ed. destruct (Z.leb_spec 0 (rx_status (p_rx s1))); [|discriminate]. injection Ed as <-. auto.
  - destruct (negb (e_open e) && _ && _) eqn:E.
    + intros H; injection H as <-. right. left. apply andb_true_iff in E as [E E3]. apply andb_true_iff in E as [E1 E2].
      apply Nat.eqb_eq, length_zero_iff_nil in E2. apply Nat.eqb_eq, length_zero_iff_nil in E3. apply negb_true_iff in E1. auto.
    + destruct (e_poll e); auto; [|discriminate]. destruct (negb (e_wait e)); [discriminate|]. intros H. now apply transfers_not_done in H.
Qed.
(** A service whose caller went away ends too: once the connection is closed and what it
    sent is delivered, the next iteration leaves the loop *)
Theorem C76_peer_gone c e s : e_open e = false -> rx_in (p_rx s) = [] -> rx_buf (p_rx s) = [] -> e_child e = None ->
  closed s /\ process_over c s \/ exists s', pio_step c e s = PDone s' /\ p_vout s' = p_vout s.
Proof.
  intros Ho Hi Hb Hn. destruct (all_closed s && (negb (pc_local c) || (0 <=? p_local s)%Z)) eqn:E.
  - left. apply andb_true_iff in E as [E1 E2]. split; [now apply closed_iff|now apply over_iff].
  - right. exists s. split; [|reflexivity]. unfold pio_step. cbv zeta. unfold pio_child. rewrite Hn.
    assert (pio_all_done c e s = None) as ->.
    { unfold pio_all_done. destruct (all_closed s); [|reflexivity]. cbn [andb] in E. rewrite E. destruct (service c); reflexivity. }
    rewrite Ho, Hi, Hb. reflexivity.
Qed.
(** the hypotheses are met by the runs of Props_Pio *)
Example a_service_ended : exists s, en_run a_service true [] svc_env = PDone s /\ closed s /\ process_over (en_cfg a_service) s.
Proof. eexists. split; [vm_compute; reflexivity|]. split; [vm_compute; auto|]. intros _. vm_compute. discriminate. Qed.
