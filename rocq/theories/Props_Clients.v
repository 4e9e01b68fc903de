(** * The clients of the daemon, and its tables: more about qrexec-daemon *)
From Coq Require Import String Ascii List Bool Arith ZArith Lia.
From Verif Require Import Base Sanitize DaemonAgent DaemonState SpecState StateProofs CallsProofs DaemonPolicy.
Import ListNotations.
Open Scope string_scope.
Open Scope list_scope.
Open Scope Z_scope.

(** ** C77: one command per connection *)
(** how many of these go to the agent of the qube *)
Definition commands (outs : list output) : nat := number_of (fun o => match o with ToAgent _ _ _ _ _ => true | _ => false end) outs.

Lemma body_state du s fd type len body ok s' outs stays : handle_cmdline_body du s fd type len body ok = (s', outs, stays) ->
  (forall g, g <> fd -> d_clients s' g = d_clients s g) /\
  if stays then commands outs = 1%nat else outs = [] /\ d_clients s' fd = CLIENT_INVALID.
Proof.
  assert (T : forall t g, g <> fd -> d_clients (terminate_client t fd) g = d_clients t g).
  { intros t g Hg. unfold terminate_client, upd. cbn [d_clients set_notify set_clients]. apply Nat.eqb_neq in Hg. now rewrite Hg. }
  assert (T2 : forall t, d_clients (terminate_client t fd) fd = CLIENT_INVALID).
  { intros t. unfold terminate_client, upd. cbn [d_clients set_notify set_clients]. now rewrite Nat.eqb_refl. }
  unfold handle_cmdline_body. cbv zeta.
  assert (F : forall t, (forall g, d_clients t g = d_clients s g) -> (terminate_client t fd, [], false) = (s', outs, stays) ->
    (forall g, g <> fd -> d_clients s' g = d_clients s g) /\ if stays then commands outs = 1%nat else outs = [] /\ d_clients s' fd = CLIENT_INVALID).
  { intros t Ht H. injection H as <- <- <-. split; [intros g Hg; rewrite T by exact Hg; apply Ht|auto]. }
  destruct (len <=? _); [apply F; auto|]. destruct (len >? _); [apply F; auto|].
  destruct body as [b|]; [|apply F; auto].
  destruct (negb (String.eqb _ _)); [apply F; auto|].
  set (granted := if type =? MSG_SERVICE_CONNECT then _ else _).
  assert (Hg : forall s1, granted = Some s1 -> forall g, d_clients s1 g = d_clients s g).
  { intros s1. unfold granted. destruct (type =? MSG_SERVICE_CONNECT).
    - destruct (find_request _ _ _); [|discriminate]. intros H; injection H as <-. reflexivity.
    - destruct (_ || _); [|discriminate]. intros H; injection H as <-. reflexivity. }
  destruct granted as [s1|]; [|apply F; auto]. specialize (Hg s1 eq_refl).
  assert (Fw : forall s2 port outs0, (forall g, d_clients s2 g = d_clients s g) -> commands outs0 = 0%nat ->
    (if negb (type =? MSG_SERVICE_CONNECT) && starts default_user_keyword (sdrop 8 b)
     then (s2, outs0 ++ [ToAgent type (len - 7 + Z.of_nat (String.length du)) (u32 b) port (du +++ sdrop 7 (sdrop 8 b))], true)
     else (s2, outs0 ++ [ToAgent type len (u32 b) port (sdrop 8 b)], true)) = (s', outs, stays) ->
    (forall g, g <> fd -> d_clients s' g = d_clients s g) /\ if stays then commands outs = 1%nat else outs = [] /\ d_clients s' fd = CLIENT_INVALID).
  { intros s2 port outs0 H2 H0 H.
    assert (C : forall o, commands [o] = 1%nat -> commands (outs0 ++ [o]) = 1%nat).
    { intros o Ho. unfold commands, number_of in *. rewrite filter_app, app_length, H0, Ho. reflexivity. }
    destruct (_ && _); injection H as <- <- <-; (split; [auto|apply C; reflexivity]). }
  destruct (u32 (sdrop 4 b) =? 0).
  - destruct (allocate_vchan_port s1 (to_int (u32 b))) as [[port s2]|] eqn:Ea; [|apply F; auto].
    assert (H2 : forall g, d_clients s2 g = d_clients s g).
    { unfold allocate_vchan_port in Ea. destruct (if _ =? 0 then _ else _) as [i step]. destruct (scan_ports _ _ _ _); [|discriminate].
      injection Ea as _ <-. exact Hg. }
    destruct ok.
    + apply Fw; [exact H2|reflexivity].
    + intros H. injection H as <- <- <-.
      set (t := set_notify _ _). set (t1 := terminate_client t fd).
      assert (A : forall g, (g <> fd -> d_clients t1 g = d_clients s g) /\ (d_clients t1 fd = CLIENT_INVALID)).
      { intros g. split; [intros Hgf; unfold t1; rewrite T by exact Hgf; apply H2|apply T2]. }
      assert (N : forall f, In (Some f) (d_notify t1) -> f <> fd).
      { unfold t1, terminate_client. cbn [d_notify set_notify]. intros f Hf. apply in_map_iff in Hf as (o & Ho & _). intros ->.
        destruct o as [f'|]; [|discriminate]. destruct (Nat.eqb_spec f' fd); [discriminate|]. congruence. }
      unfold release_vchan_port. destruct (nth _ (d_used t1) 0 =? _); [|split; [intros g Hgf; now apply A|split; [reflexivity|now apply (A fd)]]].
      assert (Hn : forall f, nth (Z.to_nat (port - VCHAN_BASE_DATA_PORT)) (d_notify t1) None = Some f -> False).
      { intros f Hf. assert (Hlen : (Z.to_nat (port - VCHAN_BASE_DATA_PORT) < length (d_notify t1))%nat).
        { destruct (Nat.lt_ge_cases (Z.to_nat (port - VCHAN_BASE_DATA_PORT)) (length (d_notify t1))); [assumption|]. rewrite nth_overflow in Hf by assumption. discriminate. }
        unfold t1, terminate_client in Hf, Hlen. cbn [d_notify set_notify] in Hf, Hlen. rewrite map_length in Hlen.
        unfold t in Hf, Hlen. cbn [d_notify set_notify set_clients set_used d_clients] in Hf, Hlen.
        rewrite set_nth_length in Hlen.
        set (g := fun o : option nat => _) in Hf. change None with (g None) in Hf. rewrite map_nth in Hf. rewrite set_nth_same in Hf by exact Hlen.
        unfold g in Hf. rewrite Nat.eqb_refl in Hf. discriminate. }
      destruct (nth _ (d_notify t1) None) as [f|] eqn:En; [destruct (Hn f eq_refl)|].
      split; [intros g Hgf; now apply A|split; [reflexivity|now apply (A fd)]].
  - destruct ((u32 (sdrop 4 b) >=? _) && _); [apply Fw; [exact Hg|reflexivity]|apply F; exact Hg].
Qed.

(** What a client that may give its command achieves with one message: either one
    command is sent to the agent and the client only waits from now on, or it is
    disconnected and nothing is sent; no other client is affected *)
Theorem C77_command du s fd m ok s' outs :
  d_clients s fd = CLIENT_CMDLINE -> dstep du s (FromClient fd m ok) = Some (s', outs) ->
  (forall g, g <> fd -> d_clients s' g = d_clients s g) /\
  (d_clients s' fd = CLIENT_RUNNING /\ commands outs = 1%nat \/ d_clients s' fd = CLIENT_INVALID /\ outs = []).
Proof.
  intros Hc H. cbn [dstep] in H. injection H as H. unfold handle_message_from_client in H. rewrite Hc in H.
  assert (F : (terminate_client s fd, []) = (s', outs) -> (forall g, g <> fd -> d_clients s' g = d_clients s g) /\
    (d_clients s' fd = CLIENT_RUNNING /\ commands outs = 1%nat \/ d_clients s' fd = CLIENT_INVALID /\ outs = [])).
  { intros X; injection X as <- <-. unfold terminate_client, upd. cbn [d_clients set_notify set_clients]. rewrite Nat.eqb_refl.
    split; [intros g Hg; apply Nat.eqb_neq in Hg; now rewrite Hg|auto]. }
  destruct m as [|type len bytes]; [now apply F|]. destruct (_ || _ || _); [|now apply F].
  destruct (handle_cmdline_body du s fd type len (received len bytes) ok) as [[s1 outs1] stays] eqn:E.
  apply body_state in E as [E1 E2]. destruct stays; injection H as <- <-.
  - unfold upd. cbn [d_clients set_clients]. rewrite Nat.eqb_refl. split; [|auto]. intros g Hg. rewrite <- E1 by exact Hg. apply Nat.eqb_neq in Hg. now rewrite Hg.
  - destruct E2. auto.
Qed.
(** Before it has said hello, in the right version, and after its command, nothing that a
    client sends reaches the agent; afterwards any message disconnects it *)
Theorem C77_other_times du s fd m ok s' outs :
  d_clients s fd <> CLIENT_CMDLINE -> dstep du s (FromClient fd m ok) = Some (s', outs) ->
  outs = [] /\ (forall g, g <> fd -> d_clients s' g = d_clients s g) /\
  (d_clients s fd = CLIENT_RUNNING -> d_clients s' fd = CLIENT_INVALID) /\
  (d_clients s fd = CLIENT_INVALID -> s' = s) /\
  (d_clients s fd = CLIENT_HELLO -> d_clients s' fd = CLIENT_INVALID \/
     d_clients s' fd = CLIENT_CMDLINE /\ exists v more, m = ClientMessage 768 4 (v +++ more) /\ String.length v = 4%nat /\ 3 <= u32 v).
Proof.
  intros Hc H. cbn [dstep] in H. injection H as H. unfold handle_message_from_client in H.
  assert (F : (terminate_client s fd, []) = (s', outs) -> outs = [] /\ (forall g, g <> fd -> d_clients s' g = d_clients s g) /\ d_clients s' fd = CLIENT_INVALID).
  { intros X; injection X as <- <-. unfold terminate_client, upd. cbn [d_clients set_notify set_clients]. rewrite Nat.eqb_refl.
    split; [reflexivity|]. split; [intros g Hg; apply Nat.eqb_neq in Hg; now rewrite Hg|auto]. }
  destruct (d_clients s fd) eqn:Ec; try congruence.
  - injection H as <- <-. split; [reflexivity|]. split; [auto|]. split; [discriminate|]. split; [auto|discriminate].
  - assert (G : outs = [] /\ (forall g, g <> fd -> d_clients s' g = d_clients s g) /\ (d_clients s' fd = CLIENT_INVALID \/
     d_clients s' fd = CLIENT_CMDLINE /\ exists v more, m = ClientMessage 768 4 (v +++ more) /\ String.length v = 4%nat /\ 3 <= u32 v)).
    { destruct m as [|type len bytes]; [destruct (F H) as (A & B & C); auto|].
      destruct (negb _) eqn:En; [destruct (F H) as (A & B & C); auto|].
      apply negb_false_iff, andb_true_iff in En as [E1 E2]. apply Z.eqb_eq in E1, E2. subst type len.
      destruct (received _ bytes) as [b|] eqn:Er; [|destruct (F H) as (A & B & C); auto].
      destruct (u32 b <? QREXEC_CLIENT_MIN_VERSION) eqn:Ev; [destruct (F H) as (A & B & C); auto|].
      injection H as <- <-. unfold upd. cbn [d_clients set_clients]. rewrite Nat.eqb_refl. split; [reflexivity|].
      split; [intros g Hg; apply Nat.eqb_neq in Hg; now rewrite Hg|]. right. split; [reflexivity|].
      unfold received in Er. destruct (_ >=? _) eqn:El; [|discriminate]. injection Er as <-.
      exists (stake 4 bytes), (sdrop 4 bytes). change (Z.to_nat sizeof_peer_info) with 4%nat in *. change sizeof_peer_info with 4 in El.
      rewrite Z.geb_le in El. unfold QREXEC_CLIENT_MIN_VERSION in Ev. apply Z.ltb_ge in Ev.
      split; [|split; [|exact Ev]].
      + f_equal. clear. revert bytes. generalize 4%nat. intros n. induction n as [|n IH]; intros [|c b]; cbn [stake sdrop append]; auto. f_equal. apply IH.
      + revert El. clear. intros El. do 4 (destruct bytes as [|? bytes]; [cbn [String.length] in El; lia|]). reflexivity. }
    destruct G as (G1 & G2 & G3). split; [exact G1|]. split; [exact G2|]. split; [discriminate|]. split; [discriminate|auto].
  - destruct (F H) as (A & B & C). split; [exact A|]. split; [exact B|]. split; [auto|]. split; discriminate.
Qed.

(** ** C42: the table of calls *)
Lemma shrink_spec fuel : forall limit l, (shrink fuel limit l <= limit)%nat /\
  forall i, (shrink fuel limit l <= i < limit)%nat -> s_pid (nth i l no_slot) = 0.
Proof.
  induction fuel as [|fuel IH]; intros limit l; cbn [shrink]; [split; [lia|intros; lia]|].
  destruct ((1 <? limit)%nat && (s_pid (nth (limit - 1) l no_slot) =? 0)) eqn:E; [|split; [lia|intros; lia]].
  apply andb_true_iff in E as [E1 E2]. apply Nat.ltb_lt in E1. apply Z.eqb_eq in E2.
  destruct (IH (limit - 1)%nat l) as [A B]. split; [lia|]. intros i Hi.
  destruct (Nat.eq_dec i (limit - 1)) as [->|]; [exact E2|apply B; lia].
Qed.
(** The daemon never looks beyond the 256 entries of its table, and looks at every call
    that is in progress *)
Theorem C42_table du remote version h s : runs du remote version h s ->
  length (d_pending s) = 256%nat /\ (d_limit s <= 256)%nat /\
  forall i, s_pid (nth i (d_pending s) no_slot) <> 0 -> (i < d_limit s)%nat.
Proof.
  intros Hr. split; [eapply pending_length; exact Hr|]. induction Hr as [|h s ev outs s' Hr [IH1 IH2] Hs].
  - cbn [d_limit init]. split; [lia|]. intros i Hi. exfalso. apply Hi. unfold init. cbn [d_pending].
    change no_slot with (mkSlot 0 "" R_PENDING). rewrite nth_repeat. reflexivity.
  - pose proof (used_length _ _ _ _ _ Hr) as Hl. pose proof (pending_length _ _ _ _ _ Hr) as Hp.
    destruct (step_calls _ _ _ _ _ Hl Hs) as [Ha E El Hn Hv _ | y Ha E El Ho _ | y type len body pid i Ha Ev Ho Hf E El
      | y i Ha Hv Hq Hf E El Hc Ho | q code i Ev Hq0 Hf Ho E El | v Ev Ho E El]; rewrite E, El.
    + auto.
    + auto.
    + apply free_slot_some in Hf as [Hi H0]. split; [lia|]. intros j Hj. destruct (Nat.eq_dec j i) as [->|Hji]; [lia|].
      rewrite set_nth_other in Hj by congruence. apply IH2 in Hj. lia.
    + split; [exact IH1|]. intros j Hj. apply IH2. destruct (Nat.eq_dec j i) as [->|Hji].
      * apply find_request_some in Hf as (Hi & _ & Hw). rewrite set_nth_same in Hj by exact Hi. exact Hj.
      * rewrite set_nth_other in Hj by congruence. exact Hj.
    + rewrite E in *. clear E El Hs. apply find_pid_some in Hf as (Hi & _ & Hpid & _).
      set (l := set_nth i _ _) in *. generalize MAX_CLIENTS. intros M. destruct (shrink_spec M (d_limit s) l) as [A B]. split; [lia|].
      intros j Hj. assert ((j < d_limit s)%nat).
      { apply IH2. destruct (Nat.eq_dec j i) as [->|Hji]; [unfold l in Hj; rewrite set_nth_same in Hj by exact Hi; now destruct Hj|]. unfold l in Hj. rewrite set_nth_other in Hj by congruence. exact Hj. }
      destruct (Nat.lt_ge_cases j (shrink M (d_limit s) l)); [assumption|]. exfalso. apply Hj, B. lia.
    + split; [lia|]. intros j Hj. exfalso. apply Hj. change no_slot with ((fun x => mkSlot 0 (s_ident x) (s_resp x)) no_slot). rewrite map_nth. reflexivity.
Qed.

(** ** C57: by UUID or by name *)
(** The target is looked up as a UUID exactly if it is the UUID of the reply *)
Theorem C57_uuid remote service reply target autostart cmd by_uuid :
  act_on_reply remote service reply = RunInVM target autostart cmd by_uuid ->
  exists resp r, reply = Some (resp, r) /\
    (by_uuid = true /\ p_target_uuid r = Some target \/
     by_uuid = false /\ p_target_uuid r = None /\ target = match p_target r with Some t => t | None => "" end).
Proof.
  unfold act_on_reply. destruct reply as [[resp r]|]; [|discriminate]. destruct resp; try discriminate. cbv zeta.
  destruct (target_refers_to_dom0 _); [destruct (if starts _ _ then _ else _); discriminate|].
  intros H. exists RESPONSE_ALLOW, r. split; [reflexivity|]. destruct (p_target_uuid r); injection H as <- <- <- <-; auto.
Qed.
(** the hypotheses are met: a client that said hello may give its command *)
Example C77_example : exists h s, runs "user" 1 3 h s /\ d_clients s 5%nat = CLIENT_CMDLINE.
Proof.
  eexists _, _. split.
  - eapply runs_step with (ev := FromClient 5 (ClientMessage 768 4 (String (ascii_of_nat 3) (String NUL (String NUL (String NUL ""))))) true).
    + eapply runs_step with (ev := NewClient 5 true); [apply runs_start|reflexivity].
    + reflexivity.
  - reflexivity.
Qed.
