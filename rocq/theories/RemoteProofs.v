(** Proofs about the receiving and the sending end of a vchan *)
From Coq Require Import String Ascii List Bool Arith ZArith Lia.
From Verif Require Import Io IoProofs Stream SpecStream StreamProofs.
Import ListNotations.
Open Scope list_scope.

Lemma ended_app a b : ended (a ++ b) <-> ended a \/ ended b.
Proof.
  unfold ended. split.
  - intros (ty & H & I). apply in_app_or in I as [I|I]; [left|right]; eauto.
  - intros [(ty & H & I)|(ty & H & I)]; exists ty; split; auto; apply in_or_app; auto.
Qed.
Lemma stream_of_open a b : ~ ended a -> stream_of (a ++ b) = stream_of a ++ stream_of b.
Proof.
  induction a as [|[ty p] a IH]; intros H; [reflexivity|]. cbn [app stream_of].
  assert (Ha : ~ ended a). { intros (t & X & Y). apply H. exists t. split; [exact X|now right]. }
  rewrite (IH Ha). destruct (is_data ty) eqn:Ed; [|reflexivity]. destruct p as [|x p].
  - exfalso. apply H. exists ty. split; [exact Ed|now left].
  - rewrite <- app_assoc. reflexivity.
Qed.
Lemma stream_of_ended a b : ended a -> stream_of (a ++ b) = stream_of a.
Proof.
  induction a as [|[ty p] a IH]; intros H. { destruct H as (t & _ & []). } cbn [app stream_of].
  destruct (is_data ty) eqn:Ed.
  - destruct p as [|x p]; [reflexivity|]. rewrite IH; [reflexivity|]. destruct H as (t & X & [Y|Y]); [congruence|]. exists t. auto.
  - apply IH. destruct H as (t & X & [Y|Y]); [congruence|]. exists t. auto.
Qed.
Lemma ended_dec a : ended a \/ ~ ended a.
Proof.
  induction a as [|[ty p] a IH]. { right. intros (t & _ & []). }
  destruct IH as [IH|IH]. { left. destruct IH as (t & X & Y). exists t. split; [exact X|now right]. }
  destruct (is_data ty) eqn:Ed.
  - destruct p as [|x p]. { left. exists ty. split; [exact Ed|now left]. }
    right. intros (t & X & [Y|Y]); [congruence|]. apply IH. exists t. auto.
  - right. intros (t & X & [Y|Y]); [congruence|]. apply IH. exists t. auto.
Qed.
Lemma shown_app r a b : shown r (a ++ b) = shown r a ++ shown r b.
Proof. destruct r; [apply do_replace_chars_app|reflexivity]. Qed.
Lemma shown_length r a : length (shown r a) = length a.
Proof. destruct r; [apply do_replace_chars_length|reflexivity]. Qed.
Lemma stream_of_prefix a b : is_prefix (stream_of a) (stream_of (a ++ b)).
Proof.
  destruct (ended_dec a) as [H|H]. { rewrite stream_of_ended by exact H. exists []. now rewrite app_nil_r. }
  rewrite stream_of_open by exact H. eexists; reflexivity.
Qed.
Lemma is_prefix_trans a b c : is_prefix a b -> is_prefix b c -> is_prefix a c.
Proof. intros [x ->] [y ->]. exists (x ++ y). now rewrite app_assoc. Qed.
Lemma is_prefix_app i r a b : is_prefix a b -> is_prefix (i ++ shown r a) (i ++ shown r b).
Proof. intros [x ->]. exists (shown r x). rewrite shown_app, app_assoc. reflexivity. Qed.
Lemma last_exit_app z a b : last_exit z (a ++ b) = last_exit (last_exit z a) b.
Proof. apply fold_left_app. Qed.
Lemma payloads_app ty a b : payloads ty (a ++ b) = payloads ty a ++ payloads ty b.
Proof. unfold payloads. rewrite filter_app, map_app. reflexivity. Qed.

(** a message that leaves the local process alone *)
Lemma Rx_other c init st0 base err0 ms m s ty p :
  Rx c init st0 base err0 ms m s -> (is_data ty = true -> m <> MOpen) -> ty <> MSG_DATA_STDERR \/ c_service c = true ->
  ty <> MSG_DATA_EXIT_CODE \/ c_service c = true ->
  forall i, Rx c init st0 base err0 (ms ++ [(ty, p)]) m (rx_set_in s i).
Proof.
  intros (A & B & C & D) Hd He Hx i. unfold Rx. cbn [rx_set_in rx_tm rx_buf rx_status rx_err rx_out].
  split; [exact A|]. split; [|split].
  - rewrite last_exit_app. destruct (c_service c) eqn:Es; [exact B|]. destruct Hx as [Hx|]; [|discriminate].
    cbn. apply Z.eqb_neq in Hx. rewrite Hx. exact B.
  - destruct (c_service c) eqn:Es; [exact C|]. destruct He as [He|]; [|discriminate]. rewrite payloads_app. unfold payloads at 2.
    cbn. apply Z.eqb_neq in He. rewrite He. cbn. rewrite app_nil_r. exact C.
  - destruct m.
    + destruct D as (D1 & D2 & D3). assert (Hf : is_data ty = false) by (destruct (is_data ty); [exfalso; now apply Hd|reflexivity]).
      split; [|split; [|exact D3]].
      * rewrite ended_app. intros [E|(t & X & [Y|[]])]; [now apply D1|]. congruence.
      * rewrite stream_of_open by exact D1. cbn [stream_of]. rewrite Hf, app_nil_r. exact D2.
    + destruct D as (D1 & D2 & D3). rewrite ended_app. split; [now left|]. rewrite stream_of_ended by exact D1. auto.
    + destruct D as (D1 & D2). split; [|exact D2]. eapply is_prefix_trans; [exact D1|]. apply is_prefix_app, stream_of_prefix.
Qed.
Lemma Rx_in c init st0 base err0 ms m s i : Rx c init st0 base err0 ms m s -> Rx c init st0 base err0 ms m (rx_set_in s i).
Proof. intros H. exact H. Qed.
(** the local process goes away *)
Lemma Rx_break c init st0 base err0 ms m s : Rx c init st0 base err0 ms m s -> Rx c init st0 base err0 ms MBroken s.
Proof.
  intros (A & B & C & D). split; [exact A|]. split; [exact B|]. split; [exact C|]. destruct m.
  - destruct D as (_ & D2 & D3). split; [|exact D3]. eexists. symmetry. exact D2.
  - destruct D as (_ & D2 & D3). rewrite D2, D3. split; [exists []; now rewrite app_nil_r|cbn; lia].
  - exact D.
Qed.

Lemma write_loop_no_werr script tm d s w tm' b' : no_werr script -> write_loop script tm d = Some (s, w, tm', b') -> s <> WError.
Proof.
  intros H. revert tm d s w tm' b'. induction H as [|o l Ho Hl IH]; intros tm d s w tm' b'; cbn [write_loop].
  - destruct d; [intros X; injection X as <- _ _ _; discriminate|]. destruct (buffer_append _ _ _) as [[? ?]|]; [|discriminate].
    intros X; injection X as <- _ _ _; discriminate.
  - destruct d as [|a d]; [intros X; injection X as <- _ _ _; discriminate|]. destruct o as [k| | |]; try (destruct Ho; congruence).
    + destruct (Nat.min k _) as [|n]; [discriminate|]. destruct (write_loop l tm _) as [[[[s1 w1] t1] b1]|] eqn:E1; [|discriminate].
      intros X; injection X as <- _ _ _. eapply IH. exact E1.
    + destruct (buffer_append _ _ _) as [[? ?]|]; [|discriminate]. intros X; injection X as <- _ _ _; discriminate.
Qed.

Theorem remote_loop_spec c init st0 base err0 steps : (Z.of_nat (c_max c) < 4294967296)%Z ->
  forall ms m s rc s', remote_loop c (is_open m) steps s = Some (rc, s') ->
  Rx c init st0 base err0 ms m s -> (m = MOpen -> rx_buf s = []) ->
  exists more tail m', rx_in s = wire more ++ tail /\ Forall (sendable (c_max c)) more /\
    (rc <> REMOTE_ERROR -> rx_in s' = tail) /\
    Rx c init st0 base err0 (ms ++ more) m' s' /\
    (rc <> REMOTE_EOF -> m' = m) /\
    (rc = REMOTE_EOF -> m = MOpen /\ (m' = MDone \/ m' = MBroken /\ ~ Forall (fun st => no_werr (r_writes st)) steps)) /\
    (rc = REMOTE_EXITED -> c_service c = false /\ exists p, In (MSG_DATA_EXIT_CODE, p) more).
Proof.
  intros Hmax. induction steps as [|st steps IH]; intros ms m s rc s' H HR Hb; cbn [remote_loop] in H.
  { injection H as <- <-. exists [], (rx_in s), m. split; [reflexivity|]. split; [constructor|]. split; [auto|]. rewrite app_nil_r.
    split; [exact HR|]. split; [auto|]. split; discriminate. }
  destruct (negb (r_ready st) || (length (rx_in s) =? 0)).
  { injection H as <- <-. exists [], (rx_in s), m. split; [reflexivity|]. split; [constructor|]. split; [auto|]. rewrite app_nil_r.
    split; [exact HR|]. split; [auto|]. split; discriminate. }
  destruct (Nat.ltb_spec (length (rx_in s)) 8) as [L8|L8].
  { injection H as <- <-. exists [], (rx_in s), m. split; [reflexivity|]. split; [constructor|]. split; [congruence|]. rewrite app_nil_r.
    split; [exact HR|]. split; [auto|]. split; discriminate. }
  cbv zeta in H. set (ty := dec32 (rx_in s)) in *. set (len := dec32 (skipn 4 (rx_in s))) in *.
  pose proof (header_split _ L8) as Hs. fold ty len in Hs.
  pose proof (dec32_bound (rx_in s)) as Bty. fold ty in Bty. pose proof (dec32_bound (skipn 4 (rx_in s))) as Blen. fold len in Blen.
  destruct (Z.ltb_spec (Z.of_nat (c_max c)) len) as [Lm|Lm].
  { injection H as <- <-. exists [], (rx_in s), m. split; [reflexivity|]. split; [constructor|]. split; [congruence|]. rewrite app_nil_r.
    split; [exact HR|]. split; [auto|]. split; discriminate. }
  destruct (read_vchan_all (r_reads st) (rx_in (rx_set_in s (skipn 8 (rx_in s)))) (Z.to_nat len)) as [[r p] rest] eqn:Er.
  destruct (read_vchan_all_spec _ _ _ _ _ _ Er) as (R1 & R2 & R3). cbn [rx_set_in rx_in] in R1.
  assert (Fail : r <> Some true -> Some (REMOTE_ERROR, rx_set_in (rx_set_in s (skipn 8 (rx_in s))) rest) = Some (rc, s') ->
    exists more tail m', rx_in s = wire more ++ tail /\ Forall (sendable (c_max c)) more /\
    (rc <> REMOTE_ERROR -> rx_in s' = tail) /\
    Rx c init st0 base err0 (ms ++ more) m' s' /\
    (rc <> REMOTE_EOF -> m' = m) /\
    (rc = REMOTE_EOF -> m = MOpen /\ (m' = MDone \/ m' = MBroken /\ ~ Forall (fun st => no_werr (r_writes st)) (st :: steps))) /\
    (rc = REMOTE_EXITED -> c_service c = false /\ exists p, In (MSG_DATA_EXIT_CODE, p) more)).
  { intros _ X. injection X as <- <-. exists [], (rx_in s), m. split; [reflexivity|]. split; [constructor|]. split; [congruence|]. rewrite app_nil_r.
    split; [exact HR|]. split; [auto|]. split; discriminate. }
  destruct r as [[|]|]; [|apply Fail; [discriminate|exact H]|apply Fail; [discriminate|exact H]]. clear Fail.
  apply proj1 in R3. specialize (R3 eq_refl).
  assert (Hlen : len = zlen p) by (unfold zlen; lia).
  set (s1 := rx_set_in (rx_set_in s (skipn 8 (rx_in s))) rest) in *.
  assert (Hin : rx_in s = frame (ty, p) ++ rest).
  { rewrite Hs at 1. unfold frame. cbn [fst snd]. rewrite R1, <- Hlen, <- !app_assoc. reflexivity. }
  assert (Hsend : sendable (c_max c) (ty, p)) by (split; cbn [fst snd]; lia).
  assert (Hin1 : rx_in s1 = rest) by reflexivity.
  (* recursion *)
  assert (Rec : forall s2, rx_in s2 = rest -> Rx c init st0 base err0 (ms ++ [(ty, p)]) m s2 -> (m = MOpen -> rx_buf s2 = []) ->
    remote_loop c (is_open m) steps s2 = Some (rc, s') ->
    exists more tail m', rx_in s = wire more ++ tail /\ Forall (sendable (c_max c)) more /\
    (rc <> REMOTE_ERROR -> rx_in s' = tail) /\
    Rx c init st0 base err0 (ms ++ more) m' s' /\
    (rc <> REMOTE_EOF -> m' = m) /\
    (rc = REMOTE_EOF -> m = MOpen /\ (m' = MDone \/ m' = MBroken /\ ~ Forall (fun st => no_werr (r_writes st)) (st :: steps))) /\
    (rc = REMOTE_EXITED -> c_service c = false /\ exists p, In (MSG_DATA_EXIT_CODE, p) more)).
  { intros s2 E2 HR2 Hb2 H2. destruct (IH _ _ _ _ _ H2 HR2 Hb2) as (more & tail & m' & A & B & C & D & E & F & G).
    exists ((ty, p) :: more), tail, m'. split; [rewrite Hin, wire_cons, <- app_assoc, <- A, E2; reflexivity|].
    split; [constructor; assumption|]. split; [exact C|]. split; [rewrite <- app_assoc in D; exact D|]. split; [exact E|].
    split.
    - intros X. destruct (F X) as [F1 F2]. split; [exact F1|]. destruct F2 as [F2|[F2 F3]]; [now left|]. right. split; [exact F2|].
      intros Y. inversion Y. now apply F3.
    - intros X. destruct (G X) as [G1 [q G2]]. split; [exact G1|]. exists q. now right. }
  (* stopping here *)
  assert (Stop : forall rc0 s2 m', rx_in s2 = rest -> Rx c init st0 base err0 (ms ++ [(ty, p)]) m' s2 -> Some (rc0, s2) = Some (rc, s') ->
    (rc0 <> REMOTE_EOF -> m' = m) -> (rc0 = REMOTE_EOF -> m = MOpen /\ (m' = MDone \/ m' = MBroken /\ ~ Forall (fun st => no_werr (r_writes st)) (st :: steps))) ->
    (rc0 = REMOTE_EXITED -> c_service c = false /\ ty = MSG_DATA_EXIT_CODE) ->
    exists more tail m', rx_in s = wire more ++ tail /\ Forall (sendable (c_max c)) more /\
    (rc <> REMOTE_ERROR -> rx_in s' = tail) /\
    Rx c init st0 base err0 (ms ++ more) m' s' /\
    (rc <> REMOTE_EOF -> m' = m) /\
    (rc = REMOTE_EOF -> m = MOpen /\ (m' = MDone \/ m' = MBroken /\ ~ Forall (fun st => no_werr (r_writes st)) (st :: steps))) /\
    (rc = REMOTE_EXITED -> c_service c = false /\ exists p, In (MSG_DATA_EXIT_CODE, p) more)).
  { intros rc0 s2 m' E2 HR2 X P Q T. injection X as <- <-. exists [(ty, p)], rest, m'. split; [rewrite Hin; unfold wire; cbn [map concat]; rewrite app_nil_r; reflexivity|].
    split; [constructor; [exact Hsend|constructor]|]. split; [auto|]. split; [exact HR2|]. split; [exact P|]. split; [exact Q|].
    intros Y. destruct (T Y) as [T1 T2]. split; [exact T1|]. exists p. left. congruence. }
  destruct ((ty =? MSG_DATA_STDIN)%Z || (ty =? MSG_DATA_STDOUT)%Z) eqn:Ed.
  - (* data *)
    assert (Hty : ty <> MSG_DATA_STDERR /\ ty <> MSG_DATA_EXIT_CODE).
    { apply orb_true_iff in Ed. rewrite !Z.eqb_eq in Ed. unfold MSG_DATA_STDIN, MSG_DATA_STDOUT, MSG_DATA_STDERR, MSG_DATA_EXIT_CODE in *. lia. }
    assert (Ed' : is_data ty = true) by exact Ed.
    destruct m.
    2,3: cbn [is_open negb] in H; apply (Rec s1 Hin1); [apply Rx_other; [exact HR|discriminate|now left|now left]|discriminate|exact H].
    cbn [is_open negb] in H. destruct (Z.eqb_spec len 0) as [E0|E0].
    + assert (p = []) by (apply zlen_zero; congruence). subst p. specialize (Hb eq_refl).
      apply (Stop REMOTE_EOF s1 MDone Hin1); [|exact H|congruence|intros _; split; [reflexivity|now left]|discriminate].
      destruct HR as (A & B & C & D1 & D2 & D3). split; [exact A|]. split; [|split].
      * rewrite last_exit_app. cbn. destruct (c_service c); [exact B|]. destruct (Z.eqb_spec ty MSG_DATA_EXIT_CODE); [tauto|exact B].
      * destruct (c_service c); [exact C|]. rewrite payloads_app. unfold payloads at 2. cbn. destruct (Z.eqb_spec ty MSG_DATA_STDERR); [tauto|].
        cbn. rewrite app_nil_r. exact C.
      * split; [rewrite ended_app; right; exists ty; split; [exact Ed'|now left]|]. rewrite stream_of_open by exact D1. cbn [stream_of]. rewrite Ed', app_nil_r.
        split; [|exact Hb]. unfold s1. cbn [rx_set_in rx_out]. rewrite <- D2, Hb, app_nil_r. reflexivity.
    + destruct HR as (A & B & C & D1 & D2 & D3). specialize (Hb eq_refl).
      assert (Hp : p <> []) by (intros ->; apply E0; rewrite Hlen; reflexivity).
      fold (shown (c_replace_out c) p) in H.
      destruct (write_stdin (r_writes st) (rx_tm s1) (shown (c_replace_out c) p) (rx_buf s1)) as [[[[ws w] tm] b]|] eqn:Ew; [|discriminate].
      destruct (write_stdin_spec _ _ _ _ _ _ _ _ Ew) as (W1 & W2 & W3 & W4 & W5).
      change (rx_buf s1) with (rx_buf s) in *. change (rx_tm s1) with (rx_tm s) in *. rewrite Hb in *. cbn [app] in W1, W2.
      change (zlen []) with 0%Z in *.
      assert (Common : forall m', match m' with
          | MOpen => ~ ended (ms ++ [(ty, p)]) /\ (rx_out s ++ w) ++ b = init ++ shown (c_replace_out c) (stream_of (ms ++ [(ty, p)])) /\
                     length b <= Nat.max (length init) (c_max c)
          | MDone => False
          | MBroken => is_prefix (rx_out s ++ w) (init ++ shown (c_replace_out c) (stream_of (ms ++ [(ty, p)]))) /\ length b <= Nat.max (length init) (c_max c)
          end -> Rx c init st0 base err0 (ms ++ [(ty, p)]) m' (rx_wrote s1 w tm b)).
      { intros m' X. split; [cbn [rx_wrote rx_tm rx_buf]; lia|]. split; [|split].
        - rewrite last_exit_app. cbn. destruct (c_service c); [exact B|]. destruct (Z.eqb_spec ty MSG_DATA_EXIT_CODE); [tauto|exact B].
        - destruct (c_service c); [exact C|]. rewrite payloads_app. unfold payloads at 2. cbn. destruct (Z.eqb_spec ty MSG_DATA_STDERR); [tauto|].
          cbn. rewrite app_nil_r. exact C.
        - destruct m'; [exact X|contradiction|exact X]. }
      assert (Hstream : stream_of (ms ++ [(ty, p)]) = stream_of ms ++ p).
      { rewrite stream_of_open by exact D1. cbn [stream_of]. rewrite Ed'. destruct p; [congruence|]. rewrite app_nil_r. reflexivity. }
      assert (Hne : ~ ended (ms ++ [(ty, p)])).
      { rewrite ended_app. intros [E|(t & X & [Y|[]])]; [now apply D1|]. congruence. }
      rewrite app_nil_r in D2.
      assert (OpenS : ws <> WError -> Rx c init st0 base err0 (ms ++ [(ty, p)]) MOpen (rx_wrote s1 w tm b)).
      { intros Hws. apply Common. split; [exact Hne|]. rewrite Hstream, shown_app. split.
        - rewrite <- app_assoc, <- (W2 Hws), D2, <- app_assoc. reflexivity.
        - pose proof (f_equal (@length ascii) (W2 Hws)) as L. rewrite app_length, shown_length in L. destruct Hsend as [_ Hl]. cbn [snd] in Hl. lia. }
      destruct ws.
      * apply (Rec (rx_wrote s1 w tm b) eq_refl); [apply OpenS; discriminate|intros _; exact (W3 eq_refl)|exact H].
      * apply (Stop REMOTE_OK (rx_wrote s1 w tm b) MOpen eq_refl); [apply OpenS; discriminate|exact H|auto|discriminate|discriminate].
      * apply (Stop REMOTE_EOF (rx_wrote s1 w tm b) MBroken eq_refl); [|exact H|congruence| |discriminate].
        -- apply Common. rewrite (W4 eq_refl). split; [|cbn; lia]. rewrite Hstream, shown_app. destruct W1 as [rest' W1]. exists rest'.
           rewrite W1, D2, !app_assoc. reflexivity.
        -- intros _. split; [reflexivity|]. right. split; [reflexivity|]. intros Y. inversion Y as [|? ? Y1 Y2].
           unfold write_stdin in Ew. eapply write_loop_no_werr; [exact Y1|exact Ew|reflexivity].
  - apply orb_false_iff in Ed as Ed2. assert (Ed' : is_data ty = false) by exact Ed.
    destruct (Z.eqb_spec ty MSG_DATA_STDERR) as [Ee|Ee].
    + destruct (c_service c) eqn:Es.
      * apply (Rec s1 Hin1); [apply Rx_other; [exact HR|congruence|now right|now right]|exact Hb|exact H].
      * fold (shown (c_replace_err c) p) in H. destruct (write_all (r_errs st) (shown (c_replace_err c) p)) as [wr w] eqn:Ew. cbn [snd] in H.
        apply (Rec (rx_add_err s1 w) eq_refl); [|exact Hb|exact H].
        destruct (write_all_spec _ _ _ _ Ew) as (W1 & _ & _).
        destruct HR as (A & B & (errs & C1 & C2) & D). rewrite Es in *. split; [exact A|]. split; [|split].
        -- rewrite last_exit_app. rewrite Es. cbn. rewrite Ee. exact B.
        -- rewrite Es. exists (errs ++ [w]). split; [unfold s1; cbn [rx_add_err rx_set_in rx_err]; rewrite C1, concat_app; cbn [concat]; rewrite app_nil_r, app_assoc; reflexivity|].
           rewrite payloads_app, map_app. apply Forall2_app; [exact C2|]. unfold payloads. cbn. rewrite Ee. cbn. constructor; [exact W1|constructor].
        -- clear - D Ed'. unfold s1; cbn [rx_add_err rx_set_in rx_out rx_buf].
           destruct m.
           ++ destruct D as (D1 & D2 & D3). split; [rewrite ended_app; intros [E|(t & X & [Y|[]])]; [now apply D1|congruence]|].
              rewrite stream_of_open by exact D1. cbn [stream_of]. rewrite Ed', app_nil_r. auto.
           ++ destruct D as (D1 & D2 & D3). rewrite ended_app. split; [now left|]. rewrite stream_of_ended by exact D1. auto.
           ++ destruct D as (D1 & D2). split; [|exact D2]. eapply is_prefix_trans; [exact D1|]. apply is_prefix_app, stream_of_prefix.
    + destruct (Z.eqb_spec ty MSG_DATA_EXIT_CODE) as [Ex|Ex].
      * destruct (c_service c) eqn:Es.
        -- apply (Rec s1 Hin1); [apply Rx_other; [exact HR|congruence|now right|now right]|exact Hb|exact H].
        -- set (code := if (len <? 4)%Z then 255%Z else to_int (dec32 p)) in *.
           apply (Stop REMOTE_EXITED (rx_set_status s1 code) m eq_refl); [|exact H|auto|discriminate|auto].
           destruct HR as (A & B & C & D). rewrite Es in *. split; [exact A|]. split; [|split].
           ++ rewrite Es, last_exit_app. cbn. rewrite Ex. cbn. unfold code_of. rewrite <- Hlen. reflexivity.
           ++ rewrite Es, payloads_app. unfold payloads at 2. cbn. rewrite Ex. cbn. rewrite app_nil_r. exact C.
           ++ clear - D Ed'. unfold s1; cbn [rx_set_status rx_set_in rx_out rx_buf].
              destruct m.
              ** destruct D as (D1 & D2 & D3). split; [rewrite ended_app; intros [E|(t & X & [Y|[]])]; [now apply D1|congruence]|].
                 rewrite stream_of_open by exact D1. cbn [stream_of]. rewrite Ed', app_nil_r. auto.
              ** destruct D as (D1 & D2 & D3). rewrite ended_app. split; [now left|]. rewrite stream_of_ended by exact D1. auto.
              ** destruct D as (D1 & D2). split; [|exact D2]. eapply is_prefix_trans; [exact D1|]. apply is_prefix_app, stream_of_prefix.
      * apply (Stop REMOTE_ERROR s1 m Hin1); [apply Rx_other; [exact HR|congruence|now left|now left]|exact H|auto|discriminate|discriminate].
Qed.

Lemma flush_no_werr script tm b s w tm' b' : no_werr script -> flush_loop script tm b = Some (s, w, tm', b') -> s <> WError.
Proof.
  intros H. revert tm b s w tm' b'. induction H as [|o l Ho Hl IH]; intros tm b s w tm' b'; cbn [flush_loop].
  - destruct b; intros X; injection X as <- _ _ _; discriminate.
  - destruct b as [|a b]; [intros X; injection X as <- _ _ _; discriminate|]. destruct o as [k| | |]; try (destruct Ho; congruence).
    + cbv zeta. destruct (buffer_remove _ _ _) as [[t1 b1]|]; [|discriminate]. destruct (flush_loop l t1 b1) as [[[[s1 w1] t2] b2]|] eqn:E; [|discriminate].
      intros X; injection X as <- _ _ _. eapply IH. exact E.
Qed.

Theorem handle_remote_data_spec c init st0 base err0 flush steps : (Z.of_nat (c_max c) < 4294967296)%Z ->
  forall ms m s rc s', handle_remote_data_v2 c (is_open m) flush steps s = Some (rc, s') ->
  Rx c init st0 base err0 ms m s ->
  exists more tail m', rx_in s = wire more ++ tail /\ Forall (sendable (c_max c)) more /\
    (rc <> REMOTE_ERROR -> rx_in s' = tail) /\
    Rx c init st0 base err0 (ms ++ more) m' s' /\
    (rc <> REMOTE_EOF -> m' = m) /\
    (rc = REMOTE_EOF -> m = MOpen /\ (m' = MDone \/ m' = MBroken /\ ~ (no_werr flush /\ Forall (fun st => no_werr (r_writes st)) steps))) /\
    (rc = REMOTE_EXITED -> c_service c = false /\ exists p, In (MSG_DATA_EXIT_CODE, p) more).
Proof.
  intros Hmax ms m s rc s' H HR. unfold handle_remote_data_v2, flush_client_data in H.
  assert (Loop : forall s1, rx_in s1 = rx_in s -> Rx c init st0 base err0 ms m s1 -> (m = MOpen -> rx_buf s1 = []) ->
    remote_loop c (is_open m) steps s1 = Some (rc, s') ->
    exists more tail m', rx_in s = wire more ++ tail /\ Forall (sendable (c_max c)) more /\
    (rc <> REMOTE_ERROR -> rx_in s' = tail) /\
    Rx c init st0 base err0 (ms ++ more) m' s' /\
    (rc <> REMOTE_EOF -> m' = m) /\
    (rc = REMOTE_EOF -> m = MOpen /\ (m' = MDone \/ m' = MBroken /\ ~ (no_werr flush /\ Forall (fun st => no_werr (r_writes st)) steps))) /\
    (rc = REMOTE_EXITED -> c_service c = false /\ exists p, In (MSG_DATA_EXIT_CODE, p) more)).
  { intros s1 E1 HR1 Hb1 H1. destruct (remote_loop_spec c init st0 base err0 steps Hmax _ _ _ _ _ H1 HR1 Hb1) as (more & tail & m' & A & B & C & D & E & F & G).
    exists more, tail, m'. rewrite <- E1. split; [exact A|]. split; [exact B|]. split; [exact C|]. split; [exact D|]. split; [exact E|]. split; [|exact G].
    intros X. destruct (F X) as [F1 [F2|[F2 F3]]]; split; auto. right. split; [exact F2|]. intros [_ Y]. now apply F3. }
  destruct m; cbn [is_open] in *.
  - destruct (flush_loop flush (rx_tm s) (rx_buf s)) as [[[[ws w] tm] b]|] eqn:Ef; [|discriminate].
    destruct (flush_loop_spec _ _ _ _ _ _ _ Ef) as (A & B & C).
    destruct HR as (R1 & R2 & R3 & R4 & R5 & R6).
    assert (L : length b <= length (rx_buf s)) by (rewrite A, app_length; lia).
    assert (T : tm = (base + zlen b)%Z) by (rewrite A, zlen_app in R1; lia).
    assert (Op : Rx c init st0 base err0 ms MOpen (rx_wrote s w tm b)).
    { split; [exact T|]. split; [exact R2|]. split; [exact R3|]. split; [exact R4|]. cbn [rx_wrote rx_out rx_buf]. split; [|lia].
      rewrite <- app_assoc, <- A. exact R5. }
    destruct ws.
    + apply (Loop (rx_wrote s w tm b)); [reflexivity|exact Op|intros _; now apply B|exact H].
    + injection H as <- <-. exists [], (rx_in s), MOpen. split; [reflexivity|]. split; [constructor|]. split; [auto|]. rewrite app_nil_r.
      split; [exact Op|]. split; [auto|]. split; discriminate.
    + injection H as <- <-. exists [], (rx_in s), MBroken. split; [reflexivity|]. split; [constructor|]. split; [auto|]. rewrite app_nil_r.
      split; [apply (Rx_break _ _ _ _ _ _ _ _ Op)|]. split; [congruence|]. split; [|discriminate].
      intros _. split; [reflexivity|]. right. split; [reflexivity|]. intros [Y _]. eapply flush_no_werr; [exact Y|exact Ef|reflexivity].
  - apply (Loop (rx_wrote s [] (rx_tm s) (rx_buf s))); [reflexivity| |discriminate|exact H].
    destruct HR as (R1 & R2 & R3 & R4 & R5 & R6). split; [exact R1|]. split; [exact R2|]. split; [exact R3|]. split; [exact R4|].
    split; [|exact R6]. cbn [rx_wrote rx_out]. rewrite app_nil_r. exact R5.
  - apply (Loop (rx_wrote s [] (rx_tm s) (rx_buf s))); [reflexivity| |discriminate|exact H].
    destruct HR as (R1 & R2 & R3 & R4 & R5). split; [exact R1|]. split; [exact R2|]. split; [exact R3|].
    cbn [rx_wrote rx_out]. rewrite app_nil_r. split; [exact R4|exact R5].
Qed.

(** ** No abort: buffers stay small *)
Definition no_zero (ws : list wres) : Prop := ~ In (Wrote 0) ws.
Lemma write_loop_total script : no_zero script -> forall tm d, (0 <= tm)%Z -> (tm + zlen d <= BUFFER_LIMIT)%Z -> write_loop script tm d <> None.
Proof.
  induction script as [|o script IH]; intros Hz tm d Ht Hl; cbn [write_loop].
  - destruct d as [|a d]; [discriminate|]. rewrite buffer_append_ok; [discriminate|exact Ht|change (zlen []) with 0%Z; lia].
  - destruct d as [|a d0]; [discriminate|]. remember (a :: d0) as d eqn:Ed. destruct o as [k| | |]; try discriminate.
    + destruct (Nat.min k (length d)) as [|n] eqn:En.
      * exfalso. apply Hz. left. f_equal. rewrite Ed in En. cbn [length] in En. lia.
      * assert (L : (zlen (skipn (S n) d) <= zlen d)%Z) by (unfold zlen; rewrite skipn_length; lia).
        specialize (IH ltac:(intros X; apply Hz; now right) tm (skipn (S n) d) Ht ltac:(lia)).
        destruct (write_loop script tm (skipn (S n) d)) as [[[[? ?] ?] ?]|]; [discriminate|contradiction].
    + rewrite buffer_append_ok; [discriminate|exact Ht|change (zlen []) with 0%Z; lia].
Qed.
Theorem handle_remote_data_total c init st0 base err0 flush steps ms m s : (Z.of_nat (c_max c) < 4294967296)%Z ->
  Rx c init st0 base err0 ms m s -> (0 <= base)%Z ->
  (base + 2 * Z.of_nat (Nat.max (length init) (c_max c)) <= BUFFER_LIMIT)%Z ->
  Forall (fun st => no_zero (r_writes st)) steps ->
  handle_remote_data_v2 c (is_open m) flush steps s <> None.
Proof.
  intros Hmax HR Hbase Hlim Hz.
  assert (Loop : forall ms s, Rx c init st0 base err0 ms m s -> (m = MOpen -> rx_buf s = []) -> remote_loop c (is_open m) steps s <> None).
  { clear s ms HR. induction Hz as [|st steps Hst Hz IH]; intros ms s HR Hb; cbn [remote_loop]; [discriminate|].
    destruct (negb (r_ready st) || _) eqn:Erdy; [discriminate|]. destruct (length (rx_in s) <? 8) eqn:E8; [discriminate|]. cbv zeta.
    destruct (Z.of_nat (c_max c) <? dec32 (skipn 4 (rx_in s)))%Z eqn:Elen; [discriminate|].
    destruct (read_vchan_all (r_reads st) _ _) as [[r p] rest] eqn:Er. destruct r as [[|]|]; try discriminate.
    (* use the specification with one step only *)
    set (s1 := rx_set_in (rx_set_in s (skipn 8 (rx_in s))) rest).
    assert (One : forall x, remote_loop c (is_open m) [st] s = Some x -> remote_loop c (is_open m) [st] s = Some x) by auto.
    assert (K : forall s2, remote_loop c (is_open m) [st] s = Some (REMOTE_OK, s2) -> (m = MOpen -> rx_buf s2 = []) -> remote_loop c (is_open m) steps s2 <> None).
    { intros s2 H2 Hb2. destruct (remote_loop_spec c init st0 base err0 [st] Hmax _ _ _ _ _ H2 HR Hb) as (more & tail & m' & _ & _ & _ & D & E & _).
      rewrite (E ltac:(discriminate)) in D. apply (IH _ _ D Hb2). }
    cbn [remote_loop] in K. rewrite Erdy, E8 in K. cbv zeta in K. rewrite Elen, Er in K. fold s1 in K. clear Erdy E8 One.
    destruct (_ || _).
    - destruct m; cbn [is_open negb] in *; try (apply K; [reflexivity|discriminate]).
      destruct (_ =? 0)%Z; [discriminate|]. fold (shown (c_replace_out c) p) in *.
      destruct (write_stdin (r_writes st) (rx_tm s1) (shown (c_replace_out c) p) (rx_buf s1)) as [[[[ws w] tm] b]|] eqn:Ew.
      + destruct ws; [|discriminate|discriminate]. apply K; [reflexivity|]. intros _. apply write_stdin_spec in Ew as (_ & _ & W & _). exact (W eq_refl).
      + exfalso. change (rx_buf s1) with (rx_buf s) in Ew. change (rx_tm s1) with (rx_tm s) in Ew. rewrite (Hb eq_refl) in Ew. cbn [write_stdin] in Ew.
        destruct HR as (R1 & _). rewrite (Hb eq_refl) in R1. change (zlen []) with 0%Z in R1.
        apply (write_loop_total (r_writes st) Hst (rx_tm s) (shown (c_replace_out c) p)); [lia| |exact Ew].
        destruct (read_vchan_all_spec _ _ _ _ _ _ Er) as (_ & L & _). unfold zlen. rewrite shown_length.
        apply Z.ltb_ge in Elen. lia.
    - destruct (_ =? _)%Z; [destruct (c_service c); apply K; try reflexivity; exact Hb|].
      destruct (_ =? _)%Z; [|discriminate]. destruct (c_service c); [apply K; [reflexivity|exact Hb]|discriminate]. }
  unfold handle_remote_data_v2, flush_client_data. destruct m; cbn [is_open] in *.
  - destruct (flush_loop flush (rx_tm s) (rx_buf s)) as [[[[ws w] tm] b]|] eqn:Ef.
    + destruct ws; try discriminate. destruct (flush_loop_spec _ _ _ _ _ _ _ Ef) as (A & B & C). destruct HR as (R1 & R2 & R3 & R4 & R5 & R6).
      apply (Loop ms); [|intros _; now apply B]. split; [cbn [rx_wrote rx_tm rx_buf]; rewrite A, zlen_app in R1; lia|]. split; [exact R2|]. split; [exact R3|].
      split; [exact R4|]. cbn [rx_wrote rx_out rx_buf]. split; [rewrite <- app_assoc, <- A; exact R5|]. rewrite A, app_length in R6. lia.
    + exfalso. destruct HR as (R1 & R2 & R3 & R4 & R5 & R6). apply (flush_loop_total flush (rx_tm s) (rx_buf s)); [lia| |exact Ef].
      unfold zlen in *. lia.
  - apply (Loop ms); [|discriminate]. destruct HR as (R1 & R2 & R3 & R4 & R5 & R6). split; [exact R1|]. split; [exact R2|]. split; [exact R3|]. split; [exact R4|].
    split; [|exact R6]. cbn [rx_wrote rx_out]. rewrite app_nil_r. exact R5.
  - apply (Loop ms); [|discriminate]. destruct HR as (R1 & R2 & R3 & R4 & R5). split; [exact R1|]. split; [exact R2|]. split; [exact R3|].
    cbn [rx_wrote rx_out]. rewrite app_nil_r. split; [exact R4|exact R5].
Qed.

(** ** The sending end *)
Definition msgs (ty : Z) (chunks : list bytes) : list message := map (fun p => (ty, p)) chunks.
Definition good_chunk (max : nat) (p : bytes) : Prop := p <> [] /\ length p <= max.

(** What a call of handle_input_v2 does to the stream: full messages, then nothing, the
    empty message (lost if the vchan fails), or a message cut short by a failure *)
Definition Tx (ty : Z) (max : nat) (rc : rrc) (s s' : tx) : Prop :=
  exists chunks lost tail,
    Forall (good_chunk max) chunks /\
    tx_out s' = tx_out s ++ wire (msgs ty chunks) ++ tail /\
    tx_prefix s ++ tx_src s = concat chunks ++ lost ++ tx_prefix s' ++ tx_src s' /\
    (tx_dead s = true -> chunks = [] /\ tail = [] /\ tx_dead s' = true) /\
    match rc with
    | REMOTE_OK => lost = [] /\ tail = [] /\ tx_dead s' = tx_dead s
    | REMOTE_EOF => lost = [] /\ tx_prefix s' = [] /\ tail = (if tx_dead s' then [] else frame (ty, []))
    | REMOTE_ERROR => is_prefix tail (frame (ty, lost)) /\ (tx_dead s' = false -> lost = [] /\ tail = []) /\ (lost = [] -> tail = [])
    | REMOTE_EXITED => False
    end.

Lemma Tx_nil ty max rc s : rc = REMOTE_OK \/ rc = REMOTE_ERROR -> Tx ty max rc s s.
Proof.
  intros H. exists [], [], []. split; [constructor|]. split; [cbn; rewrite !app_nil_r; reflexivity|]. split; [reflexivity|]. split; [auto|].
  destruct H as [-> | ->]; [auto|]. split; [eexists; reflexivity|auto].
Qed.
Lemma Tx_cons ty max rc s s1 s' chunk : good_chunk max chunk -> tx_dead s = false ->
  tx_out s1 = tx_out s ++ frame (ty, chunk) -> tx_prefix s ++ tx_src s = chunk ++ tx_prefix s1 ++ tx_src s1 -> tx_dead s1 = false ->
  Tx ty max rc s1 s' -> Tx ty max rc s s'.
Proof.
  intros Hc Hd Ho Hp Hd1 (chunks & lost & tail & A & B & C & E & D). exists (chunk :: chunks), lost, tail.
  split; [constructor; assumption|]. split; [|split; [|split; [congruence|rewrite Hd; rewrite Hd1 in D; exact D]]].
  - rewrite B, Ho. unfold msgs. cbn [map]. rewrite wire_cons, <- !app_assoc. reflexivity.
  - rewrite Hp, C. cbn [concat]. rewrite <- !app_assoc. reflexivity.
Qed.
Lemma send_chunk_spec st ty chunk s r s' : send_chunk st ty chunk s = (r, s') ->
  tx_src s' = tx_src s /\ tx_prefix s' = tx_prefix s /\ tx_dup s' = tx_dup s /\
  match r with
  | None => chunk <> [] /\ tx_out s' = tx_out s ++ frame (ty, chunk) /\ tx_dead s = false /\ tx_dead s' = false
  | Some rc => exists tail, tx_out s' = tx_out s ++ tail /\ (tx_dead s = true -> tail = [] /\ tx_dead s' = true) /\
      match rc with
      | REMOTE_EOF => chunk = [] /\ tail = (if tx_dead s' then [] else frame (ty, []))
      | REMOTE_ERROR => chunk <> [] /\ is_prefix tail (frame (ty, chunk)) /\ tx_dead s' = true
      | _ => False
      end
  end.
Proof.
  unfold send_chunk. cbv zeta. destruct (tx_dead s) eqn:Edead; cbn [orb].
  { intros H; injection H as <- <-. cbn. repeat (split; [reflexivity|]). exists []. split; [reflexivity|]. split; [auto|].
    destruct chunk; [auto|]. split; [discriminate|]. split; [eexists; reflexivity|reflexivity]. }
  destruct (i_hdr st); cbn [negb].
  2:{ intros H; injection H as <- <-. cbn. repeat (split; [reflexivity|]). exists []. split; [reflexivity|]. split; [discriminate|].
    destruct chunk; [auto|]. split; [discriminate|]. split; [eexists; reflexivity|reflexivity]. }
  destruct chunk as [|a chunk0].
  { intros H; injection H as <- <-. cbn. repeat (split; [reflexivity|]). eexists. split; [reflexivity|]. split; [discriminate|]. auto. }
  remember (a :: chunk0) as chunk eqn:Ec. assert (Hne : chunk <> []) by (rewrite Ec; discriminate). clear Ec a chunk0.
  destruct (write_vchan_all (i_writes st) chunk) as [o w] eqn:E. destruct (write_vchan_all_spec _ _ _ _ E) as ((rest & P) & T).
  assert (Bad : (Some REMOTE_ERROR, {| tx_src := tx_src s; tx_prefix := tx_prefix s; tx_out := tx_out s ++ (enc32 ty ++ enc32 (zlen chunk)) ++ w; tx_dup := tx_dup s; tx_dead := true |}) = (r, s') ->
    tx_src s' = tx_src s /\ tx_prefix s' = tx_prefix s /\ tx_dup s' = tx_dup s /\
    match r with
    | None => chunk <> [] /\ tx_out s' = tx_out s ++ frame (ty, chunk) /\ false = false /\ tx_dead s' = false
    | Some rc => exists tail, tx_out s' = tx_out s ++ tail /\ (false = true -> tail = [] /\ tx_dead s' = true) /\
      match rc with
      | REMOTE_EOF => chunk = [] /\ tail = (if tx_dead s' then [] else frame (ty, []))
      | REMOTE_ERROR => chunk <> [] /\ is_prefix tail (frame (ty, chunk)) /\ tx_dead s' = true
      | _ => False
      end
    end).
  { intros H; injection H as <- <-. cbn [tx_src tx_prefix tx_dup tx_out tx_dead]. repeat (split; [reflexivity|]). exists ((enc32 ty ++ enc32 (zlen chunk)) ++ w). split; [reflexivity|]. split; [discriminate|].
    split; [exact Hne|]. split; [|reflexivity]. exists rest. unfold frame. cbn [fst snd]. rewrite P at 2. rewrite <- !app_assoc. reflexivity. }
  destruct o as [[|]|]; [|exact Bad|exact Bad]. intros H; injection H as <- <-. cbn [tx_src tx_prefix tx_dup tx_out tx_dead]. repeat (split; [reflexivity|]).
  split; [exact Hne|]. rewrite (T eq_refl). auto.
Qed.

Theorem handle_input_spec ty fd_open max dup steps : 0 < max -> forall s rc s', handle_input_v2 ty fd_open max dup steps s = (rc, s') ->
  Tx ty max rc s s'.
Proof.
  intros Hmax. induction steps as [|st steps IH]; intros s rc s' H; cbn [handle_input_v2] in H.
  { injection H as <- <-. apply Tx_nil. auto. }
  destruct (Z.leb_spec (i_space st) 8) as [Hsp|Hsp]; [injection H as <- <-; apply Tx_nil; auto|]. cbv zeta in H.
  assert (Hlen : 0 < Nat.min (Z.to_nat (i_space st - 8)) max <= max) by lia. set (len := Nat.min _ max) in *.
  (* sending a chunk that was taken off the front *)
  assert (Send : forall chunk s1, length chunk <= max -> tx_out s1 = tx_out s -> tx_dead s1 = tx_dead s -> tx_prefix s ++ tx_src s = chunk ++ tx_prefix s1 ++ tx_src s1 ->
     (chunk = [] -> tx_prefix s1 = []) ->
     match send_chunk st ty chunk s1 with
     | (Some rc, s'') => (rc, s'')
     | (None, s'') => handle_input_v2 ty fd_open max dup steps s''
     end = (rc, s') -> Tx ty max rc s s').
  { intros chunk s1 Hl Ho Hdd Hp He H1. destruct (send_chunk st ty chunk s1) as [r s2] eqn:E.
    destruct (send_chunk_spec _ _ _ _ _ _ E) as (A & B & C & D). destruct r as [rc0|].
    - injection H1 as <- <-. destruct D as (tail & D1 & D0 & D2). rewrite Hdd in D0. destruct rc0; try contradiction.
      + destruct D2 as (D2 & D3 & D4). exists [], chunk, tail. split; [constructor|]. split; [cbn; rewrite D1, Ho; reflexivity|].
        split; [cbn [concat app]; rewrite A, B; exact Hp|]. split; [intros X; destruct (D0 X); auto|]. split; [exact D3|]. split; [congruence|congruence].
      + destruct D2 as [-> D3]. exists [], [], tail. split; [constructor|]. split; [cbn; rewrite D1, Ho; reflexivity|].
        split; [cbn [concat app]; rewrite A, B; exact Hp|]. split; [intros X; destruct (D0 X); auto|]. split; [reflexivity|]. rewrite B. split; [now apply He|exact D3].
    - destruct D as (D1 & D2 & D3 & D4). apply (Tx_cons ty max rc s s2 s' chunk); [split; assumption|congruence|rewrite D2, Ho; reflexivity|rewrite A, B; exact Hp|exact D4|].
      apply IH. exact H1. }
  destruct (tx_prefix s) as [|a pre] eqn:Epre.
  - destruct fd_open; cbn [negb] in H; [|injection H as <- <-; apply Tx_nil; auto].
    destruct (i_read st) as [k| | |].
    + cbn [app]. pose proof (read_count_bounds k len (tx_src s)) as [B1 B2]. pose proof (read_count_zero k len (tx_src s)) as Z0.
      set (n := read_count k len (tx_src s)) in *.
      eapply Send; [| | | | |exact H]; cbn [tx_out tx_src tx_prefix tx_dead app]; [rewrite firstn_length_le by exact B2; lia|reflexivity|reflexivity|symmetry; apply firstn_skipn|reflexivity].
    + apply (Send [] s); [cbn; lia|reflexivity|reflexivity|rewrite Epre; reflexivity|intros _; exact Epre|exact H].
    + injection H as <- <-. apply Tx_nil; auto.
    + injection H as <- <-. apply Tx_nil; auto.
  - rewrite <- Epre in *. set (n := Nat.min len (length (tx_prefix s))) in *.
    assert (Hn : n <= length (tx_prefix s)) by (unfold n; lia).
    assert (H0 : 0 < n) by (unfold n; rewrite Epre; cbn [length]; lia).
    eapply Send; [| | | | |exact H]; cbn [tx_out tx_src tx_prefix tx_dead].
    + rewrite firstn_length_le by exact Hn. unfold n. lia.
    + reflexivity.
    + reflexivity.
    + rewrite app_assoc, firstn_skipn. reflexivity.
    + intros E. apply (f_equal (@length ascii)) in E. rewrite firstn_length_le in E by exact Hn. cbn in E. lia.
Qed.

(** the end of input is only reported when there is nothing left to read, unless the read failed with ECONNRESET *)
Theorem handle_input_eof ty fd_open max dup steps : 0 < max -> forall s s', handle_input_v2 ty fd_open max dup steps s = (REMOTE_EOF, s') ->
  tx_src s' = [] \/ Exists (fun st => i_read st = IReset) steps.
Proof.
  intros Hmax. induction steps as [|st steps IH]; intros s s' H; cbn [handle_input_v2] in H; [discriminate|].
  destruct (Z.leb_spec (i_space st) 8) as [Hsp|Hsp]; [discriminate|]. cbv zeta in H.
  assert (Hlen : 0 < Nat.min (Z.to_nat (i_space st - 8)) max <= max) by lia. set (len := Nat.min _ max) in *.
  assert (Send : forall chunk s1, (chunk = [] -> tx_src s1 = [] \/ i_read st = IReset) ->
     match send_chunk st ty chunk s1 with
     | (Some rc, s'') => (rc, s'')
     | (None, s'') => handle_input_v2 ty fd_open max dup steps s''
     end = (REMOTE_EOF, s') -> tx_src s' = [] \/ Exists (fun st => i_read st = IReset) (st :: steps)).
  { intros chunk s1 He H1. destruct (send_chunk st ty chunk s1) as [r s2] eqn:E.
    destruct (send_chunk_spec _ _ _ _ _ _ E) as (A & B & C & D). destruct r as [rc0|].
    - injection H1 as -> <-. destruct D as (tail & _ & _ & D2 & _). destruct (He D2) as [X|X]; [left; congruence|right; now left].
    - destruct (IH _ _ H1) as [X|X]; [now left|right; now right]. }
  destruct (tx_prefix s) as [|a pre] eqn:Epre.
  - destruct fd_open; cbn [negb] in H; [|discriminate]. destruct (i_read st) as [k| | |] eqn:Er; try discriminate.
    + eapply Send; [|exact H]. intros E. left. cbn [tx_src]. pose proof (read_count_bounds k len (tx_src s)) as [B1 B2].
      apply (f_equal (@length ascii)) in E. rewrite firstn_length_le in E by exact B2. cbn [length] in E. apply read_count_zero in E; [|lia].
      rewrite E. apply skipn_nil.
    + apply (Send [] s); [intros _; now right|exact H].
  - rewrite <- Epre in *. eapply Send; [|exact H]. intros E. apply (f_equal (@length ascii)) in E. rewrite firstn_length_le in E by lia. rewrite Epre in E. cbn [length] in E. lia.
Qed.

Lemma wire_inj max a : (Z.of_nat max < 4294967296)%Z -> forall b x y, Forall (sendable max) a -> Forall (sendable max) b -> wire a ++ x = wire b ++ y ->
  length a <= length b -> exists b', b = a ++ b' /\ x = wire b' ++ y.
Proof.
  intros Hmax. induction a as [|[ty p] a IH]; intros b x y Ha Hb E L.
  - exists b. split; [reflexivity|exact E].
  - destruct b as [|[ty2 p2] b]; [cbn in L; lia|]. inversion Ha as [|? ? [A1 A2] A3]; inversion Hb as [|? ? [B1 B2] B3]; subst. cbn [fst snd] in *.
    rewrite !wire_cons in E. unfold frame in E. cbn [fst snd] in E. rewrite <- !app_assoc in E.
    assert (E1 : ty = ty2). { rewrite <- (dec32_enc32 ty (enc32 (zlen p) ++ p ++ wire a ++ x)), <- (dec32_enc32 ty2 (enc32 (zlen p2) ++ p2 ++ wire b ++ y)) by lia. now rewrite E. }
    subst ty2. apply app_inv_head in E.
    assert (E2 : zlen p = zlen p2). { rewrite <- (dec32_enc32 (zlen p) (p ++ wire a ++ x)), <- (dec32_enc32 (zlen p2) (p2 ++ wire b ++ y)) by (unfold zlen; lia). now rewrite E. }
    rewrite E2 in E. apply app_inv_head in E.
    assert (E3 : p = p2). { apply (f_equal (firstn (length p))) in E. rewrite firstn_app, firstn_all, Nat.sub_diag in E. cbn [firstn] in E. rewrite app_nil_r in E.
      assert (L2 : length p = length p2) by (unfold zlen in E2; lia). rewrite L2 in E. rewrite firstn_app, firstn_all, Nat.sub_diag in E. cbn [firstn] in E. rewrite app_nil_r in E. exact E. }
    subst p2. apply app_inv_head in E. cbn [length] in L. destruct (IH b x y A3 B3 E ltac:(lia)) as (b' & -> & ->). exists b'. auto.
Qed.
