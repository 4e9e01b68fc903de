(** C41, C42, C60: ports, service calls and commands in the qrexec daemon *)
From Coq Require Import String Ascii List Bool Arith ZArith Lia.
From Verif Require Import Base Sanitize DaemonAgent DaemonState SpecDaemon SpecAgent SpecState AgentProofs StateProofs CallsProofs.
Import ListNotations.
Open Scope string_scope.
Open Scope list_scope.
Open Scope Z_scope.

(** * C41 *)

(** A port is handed out only if it is not in use, whatever happened before; it is
    one of those the daemon may hand out, and the agent learns the same port *)
Theorem C41_exclusive_partial du remote version ev outs h s fd d p :
  runs du remote version ((ev, outs) :: h) s -> sane_domains ((ev, outs) :: h) ->
  In (PortToClient fd d p) outs ->
  eligible remote d p /\ (forall d', ~ in_use h d' p) /\
  exists type len d0 text, signed d0 d /\ outs = [PortToClient fd d p; ToAgent type len d0 p text].
Proof.
  intros Hr Hsane Hin. inversion Hr as [|h0 s0 ev0 outs0 s1 Hr0 Hs]; subst.
  assert (Hs0 : sane_domains h) by (intros e o Hi; apply (Hsane e o); now right).
  destruct (port_inv_holds _ _ _ _ _ Hr0 Hs0) as [L R U F].
  destruct (step_ports _ _ _ _ _ L Hs) as [_ P].
  destruct P as [_ Hg _ | fd' d1 p1 n ty ln tx Ho Hn Ep Eu _ Hel Hnd _ | ? ? Ho _ _ _ _].
  - exfalso. apply (Hg d p). now exists fd.
  - rewrite Ho in Hin. destruct Hin as [Hin|[Hin|[]]]; [|discriminate Hin]. injection Hin as -> -> ->.
    rewrite R in Hel. split; [exact Hel|]. split.
    + intros d' Hu. destruct (U _ _ Hu) as (_ & B & C). apply B. rewrite <- C.
      replace (slot_of p) with n; [exact Eu|]. unfold slot_of. lia.
    + exists ty, ln, (if d <? 0 then d + 4294967296 else d), tx. split; [|exact Ho].
      destruct Hnd as (? & ? & ? & a0 & a1 & a2 & a3 & ? & ? & _ & Hsg). unfold signed in *.
      pose proof (number_range a0 a1 a2 a3). destruct (Z.ltb_spec d 0); lia.
  - rewrite Ho in Hin. destruct Hin.
Qed.

(** A port in use belongs to one peer; so only that peer's message frees it
    ([in_use] ends only with [reports_end] for that peer and that port) *)
Theorem C41_one_peer du remote version h s d d' p :
  runs du remote version h s -> sane_domains h -> in_use h d p -> in_use h d' p -> d = d'.
Proof.
  intros Hr Hs H1 H2. destruct (port_inv_holds _ _ _ _ _ Hr Hs) as [_ _ U _].
  destruct (U _ _ H1) as (_ & _ & <-). destruct (U _ _ H2) as (_ & _ & <-). reflexivity.
Qed.

(** The daemons of two qubes never hand out the same port for that pair *)
Theorem C41_pair du du' a b version version' ha sa hb sb fd fd' p p' ea eb outs outs' :
  a <> b -> a <> 0 -> b <> 0 ->
  runs du a version ((ea, outs) :: ha) sa -> sane_domains ((ea, outs) :: ha) -> In (PortToClient fd b p) outs ->
  runs du' b version' ((eb, outs') :: hb) sb -> sane_domains ((eb, outs') :: hb) -> In (PortToClient fd' a p') outs' ->
  p <> p'.
Proof.
  intros Hab Ha Hb R1 S1 I1 R2 S2 I2 E.
  destruct (C41_exclusive_partial _ _ _ _ _ _ _ _ _ _ R1 S1 I1) as ([_ E1] & _).
  destruct (C41_exclusive_partial _ _ _ _ _ _ _ _ _ _ R2 S2 I2) as ([_ E2] & _). subst p'.
  destruct E1 as [|[[H1 [k1 K1]]|[H1 [k1 K1]]]]; [lia| |]; (destruct E2 as [|[[H2 [k2 K2]]|[H2 [k2 K2]]]]; [lia| |]); lia.
Qed.

(** A client that asks for a port gets one as long as there is one that is not in
    use: ports that were given back are used again *)
Theorem C41_available du remote version h s fd m type dom d text s' outs :
  runs du remote version h s -> sane_domains h -> d_clients s fd = CLIENT_CMDLINE ->
  type = 512 \/ type = 513 -> command m type dom 0 text -> signed dom d ->
  (exists p, eligible remote d p /\ forall d', ~ in_use h d' p) ->
  dstep du s (FromClient fd m true) = Some (s', outs) -> hands_out outs d (match outs with PortToClient _ _ p :: _ => p | _ => 0 end).
Proof.
  intros Hr Hs Hc Ht Hm Hd (p & Hel & Hfree) Hstep.
  assert (E0 : handle_message_from_client du s fd m true = (s', outs)) by (cbn [dstep] in Hstep; congruence).
  clear Hstep. revert E0.
  remember 0 as port eqn:Eport.
  destruct Hm as [type a0 a1 a2 a3 b0 b1 b2 b3 t rest Hlen].
  destruct (port_inv_holds _ _ _ _ _ Hr Hs) as [L R U F].
  set (txt := t +++ str1 NUL) in *.
  set (body := String a0 (String a1 (String a2 (String a3 (String b0 (String b1 (String b2 (String b3 txt)))))))).
  assert (Erec : received (8 + Z.of_nat (String.length txt))
    (String a0 (String a1 (String a2 (String a3 (String b0 (String b1 (String b2 (String b3 (txt +++ rest))))))))) = Some body).
  { change (String a0 (String a1 (String a2 (String a3 (String b0 (String b1 (String b2 (String b3 (txt +++ rest)))))))))
      with (body +++ rest).
    unfold received. rewrite Z.geb_leb.
    assert (Hl : Z.to_nat (8 + Z.of_nat (String.length txt)) = String.length body).
    { unfold body. cbn [String.length]. lia. }
    destruct (Z.leb_spec (8 + Z.of_nat (String.length txt)) (Z.of_nat (String.length (body +++ rest)))) as [_|Hbad].
    - rewrite Hl. rewrite stake_app_eq by reflexivity. reflexivity.
    - exfalso. assert (String.length (body +++ rest) = String.length body + String.length rest)%nat.
      { clear. induction body as [|c s IH]; cbn [String.append String.length]; [reflexivity|]. rewrite IH. reflexivity. }
      lia. }
  unfold handle_message_from_client. rewrite Hc.
  assert (Ety : (type =? MSG_EXEC_CMDLINE) || (type =? MSG_JUST_EXEC) || (type =? MSG_SERVICE_CONNECT) = true).
  { destruct Ht as [->| ->]; reflexivity. }
  rewrite Ety, Erec. unfold handle_cmdline_body.
  assert (Htl : (0 < String.length txt)%nat).
  { unfold txt. clear. destruct t; cbn; lia. }
  unfold sizeof_exec_params, MAX_QREXEC_CMD_LEN.
  destruct (Z.leb_spec (8 + Z.of_nat (String.length txt)) 8); [lia|].
  rewrite Z.gtb_ltb. destruct (Z.ltb_spec 65535 (8 + Z.of_nat (String.length txt))); [lia|].
  assert (Ed1 : u32 body = number a0 a1 a2 a3) by apply u32_cons.
  assert (Ed2 : u32 (sdrop 4 body) = number b0 b1 b2 b3) by apply u32_cons.
  assert (Ed3 : sdrop 8 body = txt) by reflexivity.
  cbv zeta. rewrite Ed1, Ed2, Ed3.
  assert (Enul : negb (sdrop (String.length txt - 1) txt =? str1 NUL)%string = false).
  { unfold txt. clear. assert (El : String.length (t +++ str1 NUL) = S (String.length t)).
    { induction t; cbn [String.append String.length]; [reflexivity|]. now rewrite IHt. }
    rewrite El. replace (S (String.length t) - 1)%nat with (String.length t) by lia.
    rewrite (sdrop_app_eq t (str1 NUL) _ eq_refl). reflexivity. }
  rewrite Enul.
  assert (Et1 : (type =? MSG_SERVICE_CONNECT) = false) by (destruct Ht as [->| ->]; reflexivity).
  assert (Et2 : (type =? MSG_JUST_EXEC) || (type =? MSG_EXEC_CMDLINE) = true) by (destruct Ht as [->| ->]; reflexivity).
  rewrite Et1, Et2, Eport. change (0 =? 0) with true. cbn match.
  apply signed_iff in Hd; [|apply number_range]. rewrite <- Hd.
  destruct (allocate_vchan_port s d) as [[port' s2]|] eqn:Ea.
  - destruct (negb false && starts default_user_keyword txt); intros E0; apply pair_eq in E0 as [_ <-];
      exists fd; now left.
  - exfalso. rewrite <- R in Hel. assert (Hrange : 513 <= p < 769) by (destruct Hel; auto).
    pose proof (alloc_none _ _ Ea _ Hel) as Hne.
    assert (Hn : (slot_of p < 256)%nat) by (unfold slot_of; lia).
    specialize (F _ Hn Hne). replace (513 + Z.of_nat (slot_of p)) with p in F by (unfold slot_of; lia).
    exact (Hfree _ F).
Qed.

(** * C42 *)

(** Since the agent last connected, no identifier got more answers than calls, at
    any time: no call is answered twice, no refusal or connection comes out of the
    blue, and a request to connect cannot be replayed *)
Theorem C42_at_most_once du remote version h s x :
  runs du remote version h s -> (answers h x <= calls h x)%nat.
Proof. intros Hr. pose proof (calls_answers _ _ _ _ _ x Hr). lia. Qed.

(** Every event in the history respects this, also in the middle of it *)
Corollary C42_no_replay du remote version ev outs h s x :
  runs du remote version ((ev, outs) :: h) s -> connects outs x -> (answers h x < calls h x)%nat.
Proof.
  intros Hr (o & Hin & Ho). inversion Hr as [|h0 s0 ev0 outs0 s1 Hr0 Hs]; subst.
  pose proof (C42_at_most_once _ _ _ _ _ x Hr) as H.
  assert (Hone : (1 <= number_of (answer_of x) outs)%nat).
  { unfold number_of. assert (Hf : In o (filter (answer_of x) outs)).
    { apply filter_In. split; [exact Hin|]. unfold answer_of. now rewrite Ho, orb_true_r. }
    destruct (filter (answer_of x) outs); [destruct Hf|cbn; lia]. }
  assert (Hv : forall v, ev <> AgentRestarted v).
  { intros v ->. cbn [dstep] in Hs. assert (outs = []) by congruence. subst outs. destruct Hin. }
  assert (Ha : asks ev = None).
  { pose proof (used_length _ _ _ _ _ Hr0) as Hlu.
    destruct (step_calls _ _ _ _ _ Hlu Hs) as [Ha|y _ _ _ Eo _|y ? ? ? ? ? _ _ Eo|? ? Ha|? ? ? Ev|? Ev]; auto.
    - subst outs. destruct Hin as [<-|[]]. discriminate Ho.
    - subst outs. destruct Hin.
    - subst ev. reflexivity.
    - subst ev. reflexivity. }
  rewrite answers_cons, calls_cons, Ha in H by exact Hv. cbn [b2n] in H. lia.
Qed.

(** A connection is made only for a call that is in progress (its process still
    runs), if no policy process is killed by a signal *)
Theorem C42_connection_needs_call du remote version ev outs h s x :
  runs du remote version ((ev, outs) :: h) s -> no_kill ((ev, outs) :: h) -> connects outs x ->
  exists since q, in_progress h since x q.
Proof.
  intros Hr Hk (o & Hin & Ho). inversion Hr as [|h0 s0 ev0 outs0 s1 Hr0 Hs]; subst.
  inversion Hk as [|? ? ? Hk0]; subst.
  destruct (calls_inv_holds _ _ _ _ _ Hr0 Hk0) as [L U S C].
  pose proof (used_length _ _ _ _ _ Hr0) as Hlu. pose proof (pending_length _ _ _ _ _ Hr0) as Hlp.
  assert (Hno : forall f : output -> bool, number_of f outs = 0%nat -> f o = false).
  { intros f Hz. destruct (f o) eqn:Ef; [|reflexivity]. exfalso. unfold number_of in Hz.
    assert (Hf : In o (filter f outs)) by (apply filter_In; auto). destruct (filter f outs); [destruct Hf|discriminate Hz]. }
  assert (Hans : forall y, connection_of y o = true -> answer_of y o = true).
  { intros y E. unfold answer_of. rewrite E. apply orb_true_r. }
  destruct (step_calls _ _ _ _ _ Hlu Hs) as [_ _ _ Hz _ _|y _ _ _ Eo _|y ? ? ? ? ? _ _ Eo|y i _ _ _ Hf _ _ _ Eo|q code i _ _ _ Eo _ _|? _ Eo].
  - specialize (Hno _ (Hz x)). rewrite (Hans _ Ho) in Hno. discriminate Hno.
  - subst outs. destruct Hin as [<-|[]]. discriminate Ho.
  - subst outs. destruct Hin.
  - destruct Eo as [->|[_ Eo]]; [destruct Hin|].
    assert (y = x).
    { specialize (Eo x). destruct (String.eqb_spec y x) as [|Hne]; [auto|]. cbn [b2n] in Eo.
      specialize (Hno _ Eo). rewrite (Hans _ Ho) in Hno. discriminate Hno. }
    subst y. apply find_request_some in Hf as (Hi & _ & Hw). rewrite Hlp in Hi.
    unfold waiting in Hw. apply andb_prop in Hw as [Hw Hid]. apply andb_prop in Hw as [Hw _].
    apply String.eqb_eq in Hid.
    assert (Hp : s_pid (nth i (d_pending s0) no_slot) <> 0).
    { destruct (Z.eqb_spec (s_pid (nth i (d_pending s0) no_slot)) 0); [discriminate Hw|auto]. }
    destruct (S i Hi Hp) as [_ (since & Hip & _)]. rewrite Hid in Hip. eauto.
  - subst outs. unfold reap_slot in Hin. destruct (code =? 0); [destruct Hin|].
    destruct (s_resp _); cbn [snd] in Hin; try contradiction. destruct Hin as [<-|[]]. discriminate Ho.
  - subst outs. destruct Hin.
Qed.

(** When the process of a call ends with an error, the call has been answered: it
    is refused at that moment, or a connection was made while it was in progress,
    or somebody's attempt to connect it failed (see C42_failed_connect_refuted).
    For processes that are not killed by a signal (see C42_signal_refuted). *)
Theorem C42_answered_partial du remote version h s q code outs since x :
  runs du remote version ((ChildEnded q (Exited code), outs) :: h) s -> no_kill ((ChildEnded q (Exited code), outs) :: h) ->
  in_progress h since x q -> code <> 0 ->
  outs = [Refused x] \/
  (exists ev o, In (ev, o) since /\ connects o x) \/
  (exists ev, In (ev, []) since /\ connect_request ev x).
Proof.
  intros Hr Hk Hip Hcode. inversion Hr as [|h0 s0 ev0 outs0 s1 Hr0 Hs]; subst.
  inversion Hk as [|? ? ? Hk0]; subst.
  destruct (calls_inv_holds _ _ _ _ _ Hr0 Hk0) as [L U S C].
  pose proof (used_length _ _ _ _ _ Hr0) as Hlu. pose proof (pending_length _ _ _ _ _ Hr0) as Hlp.
  destruct (C _ _ _ Hip) as (i & Hi & Eq & Ex).
  assert (Hq : q <> 0). { intros ->. apply in_progress_running in Hip. exact (running_pos _ Hk0 Hip). }
  assert (Hp : s_pid (nth i (d_pending s0) no_slot) <> 0) by congruence.
  destruct (S i Hi Hp) as [Hpos (since' & Hip' & Hresp)]. rewrite Eq in Hpos, Hip'. rewrite Ex in *.
  (* the part of the history since the call is the same *)
  assert (Hsame : since' = since).
  { clear -Hip Hip' Hk0. revert h Hk0 since' Hip Hip'.
    induction since as [|e since IH]; intros h Hk0 since' H1 H2.
    - destruct H1 as (e & b & E & Hst & _). cbn [app] in E. subst h. destruct e as [ev o].
      apply in_progress_inv in H2 as [[-> _]|(s2 & _ & H2 & _)]; [reflexivity|]. exfalso.
      apply in_progress_running in H2. inversion Hk0 as [|? ? ? _ Hp]; subst. destruct (Hp _ _ Hst) as [_ Hn]. auto.
    - destruct h as [|[ev o] h]. { destruct H1 as (? & ? & E & _). discriminate E. }
      inversion Hk0 as [|? ? ? Hk1 Hp]; subst.
      apply in_progress_inv in H1 as [[? _]|(s1 & E1 & H1 & _)]; [discriminate|]. inversion E1; subst.
      apply in_progress_inv in H2 as [[-> Hst]|(s2 & -> & H2 & _)].
      + exfalso. apply in_progress_running in H1. destruct (Hp _ _ Hst) as [_ Hn]. auto.
      + f_equal. exact (IH _ Hk1 _ H1 H2). }
  subst since'.
  destruct (step_calls _ _ _ _ _ Hlu Hs) as [_ _ _ _ _ Hend|? Ha|? ? ? ? ? ? Ha|? ? _ _ Hne|q' code' j Ev _ Hf Ho _ _|? Ev].
  - exfalso. apply (Hend q code i eq_refl Hpos (L i Hi Hp)); [rewrite Hlp; exact Hi|exact Eq].
  - discriminate Ha.
  - discriminate Ha.
  - exfalso. now apply (Hne q (Exited code)).
  - inversion Ev; subst q' code'. apply find_pid_some in Hf as (Hj & _ & Ej & _). rewrite Hlp in Hj.
    assert (j = i). { destruct (Nat.eq_dec j i) as [|Hji]; [auto|]. exfalso. apply Hq. rewrite <- Ej. apply (U j i Hj Hi Hji). congruence. }
    subst j. rewrite Ho. unfold reap_slot. destruct (Z.eqb_spec code 0) as [|_]; [congruence|].
    destruct Hresp as [->|(ev & o & Hin & Hc & [->|Hcn])].
    + left. cbn [snd]. now rewrite Ex.
    + right; right. eauto.
    + right; left. eauto.
  - discriminate Ev.
Qed.

(** A well-formed call is refused at once only if 256 policy processes are running *)
Theorem C42_refused_at_once du remote version type body pid outs h s v rs target service x :
  runs du remote version ((FromAgent type (Z.of_nat (String.length body)) body pid, outs) :: h) s ->
  no_kill h -> service_message v type body rs target service x -> outs <> [] ->
  exists l, NoDup l /\ length l = 256%nat /\ incl l (running h).
Proof.
  intros Hr Hk Hm Ho. inversion Hr as [|h0 s0 ev0 outs0 s1 Hr0 Hs]; subst.
  destruct (calls_inv_holds _ _ _ _ _ Hr0 Hk) as [L U S C].
  pose proof (used_length _ _ _ _ _ Hr0) as Hlu. pose proof (pending_length _ _ _ _ _ Hr0) as Hlp.
  assert (Hv : handle_message_from_agent v type (Z.of_nat (String.length body)) body = ServiceCall rs target service x).
  { apply service_message_spec. auto. }
  assert (Hv' : handle_message_from_agent (d_version s0) type (Z.of_nat (String.length body)) body = ServiceCall rs target service x).
  { cbn [dstep] in Hs. revert Hs Hv. unfold handle_message_from_agent.
    destruct (sanitize_message_from_agent (d_version s0) _ _); cbn [negb]; [|discriminate].
    destruct (sanitize_message_from_agent v _ _); cbn [negb]; [|discriminate]. auto. }
  cbn [dstep] in Hs. rewrite Hv' in Hs. unfold handle_execute_service in Hs.
  destruct (free_slot (d_pending s0)) as [i|] eqn:Ef. { exfalso. apply Ho. congruence. }
  exists (map s_pid (d_pending s0)). split; [|split].
  - apply (NoDup_nth (map s_pid (d_pending s0)) 0). rewrite map_length, Hlp. intros i j Hi Hj.
    change 0 with (s_pid no_slot). rewrite !map_nth. intros E. destruct (Nat.eq_dec i j) as [|Hij]; [auto|]. exfalso.
    assert (Hin : In (nth i (d_pending s0) no_slot) (d_pending s0)) by (apply nth_In; rewrite Hlp; exact Hi).
    apply (free_slot_none _ Ef _ Hin). exact (U i j Hi Hj Hij E).
  - rewrite map_length. exact Hlp.
  - intros q Hq. apply in_map_iff in Hq as (sl & <- & Hin). apply (In_nth _ _ no_slot) in Hin as (i & Hi & <-).
    rewrite Hlp in Hi.
    assert (Hin : In (nth i (d_pending s0) no_slot) (d_pending s0)) by (apply nth_In; rewrite Hlp; exact Hi).
    pose proof (free_slot_none _ Ef _ Hin) as Hp. destruct (S i Hi Hp) as [_ (since & Hip & _)].
    exact (in_progress_running _ _ _ _ Hip).
Qed.

(** * C60 *)

(** What the daemon sends to the agent as a command is what a client sent: the
    same type, domain and text, except that the user name DEFAULT in front of a
    command is replaced, and the length announced is that of the text; the port is
    the one the client named, or the one it is given *)
Theorem C60_forwarded du s ev s' outs type len d p t :
  dstep du s ev = Some (s', outs) -> In (ToAgent type len d p t) outs ->
  exists fd m ok port text,
    ev = FromClient fd m ok /\ command m type d port text /\ d_clients s fd = CLIENT_CMDLINE /\
    (type = 512 \/ type = 513 \/ type = 514) /\ len = 8 + Z.of_nat (String.length t) /\
    (port = 0 /\ (exists d', signed d d' /\ In (PortToClient fd d' p) outs) \/
     port = p /\ 513 <= p < 769 /\ (forall d' p', ~ hands_out outs d' p')) /\
    (exists rest, type <> 514 /\ text = "DEFAULT" +++ ":" +++ rest /\ t = du +++ ":" +++ rest \/
     (type = 514 \/ starts "DEFAULT:" text = false) /\ t = text).
Proof.
  intros Hs Hin. destruct ev as [fd h|fd m ok|ty ln body pid|pid k|v]; cbn [dstep] in Hs.
  - unfold handle_new_client in Hs. destruct (_ <? _)%nat; cbn [option_map] in Hs; [|discriminate Hs]. inversion Hs; subst. destruct Hin.
  - assert (H1 : handle_message_from_client du s fd m ok = (s', outs)) by congruence. clear Hs.
    revert H1. unfold handle_message_from_client. destruct (d_clients s fd) eqn:Ec.
    1: intros H1; apply pair_eq in H1 as [_ <-]; destruct Hin.
    2:{ destruct m as [|ty ln bytes]. { intros H1; apply pair_eq in H1 as [_ <-]; destruct Hin. }
        destruct (_ || _ || _) eqn:Ety. 2:{ intros H1; apply pair_eq in H1 as [_ <-]; destruct Hin. }
        destruct (handle_cmdline_body du s fd ty ln (received ln bytes) ok) as [[s1 outs1] stays] eqn:Eb.
        intros H1. apply pair_eq in H1 as [_ ->].
        destruct (body_long _ _ _ _ _ _ _ _ _ _ Eb) as (Hl & b & Er). { intros ->. destruct Hin. }
        rewrite Er in Eb. apply received_some in Er as (Er & Hbl).
        assert (Hblen : String.length b = Z.to_nat ln) by (rewrite Er; apply stake_exact; lia).
        assert (H8 : (8 < String.length b)%nat) by lia.
        destruct (eight_prefix b H8) as (a0 & a1 & a2 & a3 & b0 & b1 & b2 & b3 & E8).
        revert Eb. unfold handle_cmdline_body. unfold sizeof_exec_params, MAX_QREXEC_CMD_LEN.
        destruct (Z.leb_spec ln 8); [lia|]. rewrite Z.gtb_ltb. destruct (Z.ltb_spec 65535 ln); [lia|].
        cbv zeta. set (buf := sdrop 8 b) in *.
        assert (Hbuf : Z.of_nat (String.length buf) = ln - 8).
        { pose proof (sdrop_length 8 b) as Hd. fold buf in Hd. lia. }
        assert (Ed1 : u32 b = number a0 a1 a2 a3) by (rewrite E8; apply u32_cons).
        assert (Ed2 : u32 (sdrop 4 b) = number b0 b1 b2 b3) by (rewrite E8; apply u32_cons).
        rewrite Ed1, Ed2.
        destruct (String.eqb_spec (sdrop (String.length buf - 1) buf) (str1 NUL)) as [Enul|_]; cbn [negb].
        2:{ intros Eb. exfalso. assert (outs = []) by congruence. subst outs. destruct Hin. }
        assert (Ebuf : buf = stake (String.length buf - 1) buf +++ str1 NUL).
        { rewrite <- Enul. apply take_drop. }
        assert (Hcmd : command (ClientMessage ty ln bytes) ty (number a0 a1 a2 a3) (number b0 b1 b2 b3) buf).
        { set (t0 := stake (String.length buf - 1) buf) in *.
          assert (Eln : ln = 8 + Z.of_nat (String.length (t0 +++ str1 NUL))) by (rewrite <- Ebuf; lia).
          assert (Eby : bytes = String a0 (String a1 (String a2 (String a3 (String b0 (String b1 (String b2 (String b3
                 ((t0 +++ str1 NUL) +++ sdrop (Z.to_nat ln) bytes))))))))).
          { rewrite (take_drop (Z.to_nat ln) bytes) at 1. rewrite <- Er. rewrite E8 at 1. rewrite <- Ebuf. reflexivity. }
          rewrite Eby. rewrite Eln at 1. rewrite Ebuf. apply command_intro. lia. }
        assert (Hty : ty = 512 \/ ty = 513 \/ ty = 514).
        { apply orb_prop in Ety as [Ety|Ety]; [apply orb_prop in Ety as [Ety|Ety]|]; apply Z.eqb_eq in Ety; auto. }
        set (granted := if ty =? MSG_SERVICE_CONNECT then _ else _). destruct granted as [s2|].
        2:{ intros Eb. exfalso. assert (outs = []) by congruence. subst outs. destruct Hin. }
        (* the two ways of sending *)
        assert (Fwd : forall given p0 st,
          (if negb (ty =? MSG_SERVICE_CONNECT) && starts default_user_keyword buf
           then (st, given ++ [ToAgent ty (ln - 7 + Z.of_nat (String.length du)) (number a0 a1 a2 a3) p0 (du +++ sdrop 7 buf)], true)
           else (st, given ++ [ToAgent ty ln (number a0 a1 a2 a3) p0 buf], true)) = (s1, outs, stays) ->
          (forall ty0 ln0 d0 p1 t0, ~ In (ToAgent ty0 ln0 d0 p1 t0) given) ->
          (exists t0 ln0, outs = given ++ [ToAgent ty ln0 (number a0 a1 a2 a3) p0 t0]) /\
          type = ty /\ d = number a0 a1 a2 a3 /\ p = p0 /\ len = 8 + Z.of_nat (String.length t) /\
          (exists rest, type <> 514 /\ buf = "DEFAULT" +++ ":" +++ rest /\ t = du +++ ":" +++ rest \/
           (type = 514 \/ starts "DEFAULT:" buf = false) /\ t = buf)).
        { intros given p0 st. destruct (Z.eqb_spec ty MSG_SERVICE_CONNECT) as [Esc|Esc]; cbn [negb andb].
          - intros E Hg. assert (Eo : outs = given ++ [ToAgent ty ln (number a0 a1 a2 a3) p0 buf]) by congruence.
            rewrite Eo in Hin. apply in_app_or in Hin as [Hin|[Hin|[]]]; [now apply Hg in Hin|].
            inversion Hin; subst type len d p t. split; [eauto|]. do 3 (split; [reflexivity|]). split; [lia|].
            exists "". right. auto.
          - destruct (starts default_user_keyword buf) eqn:Est.
            + intros E Hg. assert (Eo : outs = given ++ [ToAgent ty (ln - 7 + Z.of_nat (String.length du)) (number a0 a1 a2 a3) p0 (du +++ sdrop 7 buf)]) by congruence.
              rewrite Eo in Hin. apply in_app_or in Hin as [Hin|[Hin|[]]]; [now apply Hg in Hin|].
              assert (Ebd : exists rest, buf = "DEFAULT" +++ ":" +++ rest).
              { exists (sdrop 8 buf). rewrite (take_drop 8 buf) at 1.
                assert (Est8 : stake 8 buf = "DEFAULT:"); [|rewrite Est8; reflexivity].
                clear -Est. unfold default_user_keyword in Est.
                do 8 (destruct buf as [|?c buf]; [discriminate Est|]; cbn [starts] in Est; apply andb_prop in Est as [?E Est]).
                repeat match goal with H : (_ =? _)%char = true |- _ => apply Ascii.eqb_eq in H end. subst. reflexivity. }
              destruct Ebd as [rest Ebd].
              assert (Et : t = du +++ ":" +++ rest). { inversion Hin. subst t. rewrite Ebd. reflexivity. }
              assert (Elen : len = ln - 7 + Z.of_nat (String.length du)) by congruence.
              assert (Ety2 : type = ty /\ d = number a0 a1 a2 a3 /\ p = p0) by (inversion Hin; auto).
              destruct Ety2 as (-> & -> & ->).
              split; [rewrite Eo; eauto|]. do 3 (split; [reflexivity|]). split.
              * rewrite Elen, Et. rewrite Ebd in Hbuf. rewrite !length_app_s. cbn [String.append String.length] in Hbuf |- *. lia.
              * exists rest. left. auto.
            + intros E Hg. assert (Eo : outs = given ++ [ToAgent ty ln (number a0 a1 a2 a3) p0 buf]) by congruence.
              rewrite Eo in Hin. apply in_app_or in Hin as [Hin|[Hin|[]]]; [now apply Hg in Hin|].
              inversion Hin; subst type len d p t. split; [eauto|]. do 3 (split; [reflexivity|]). split; [lia|].
              exists "". right. auto. }
        destruct (Z.eqb_spec (number b0 b1 b2 b3) 0) as [Ez|Ez].
        - destruct (allocate_vchan_port s2 (to_int (number a0 a1 a2 a3))) as [[p0 s3]|].
          2:{ intros Eb. exfalso. assert (outs = []) by congruence. subst outs. destruct Hin. }
          destruct ok. 2:{ intros Eb. exfalso. assert (outs = []) by congruence. subst outs. destruct Hin. }
          intros Eb. apply Fwd in Eb as ((t0 & ln0 & Eo) & -> & -> & -> & El & Et).
          2:{ intros ? ? ? ? ? [Hx|[]]. discriminate Hx. }
          exists fd, (ClientMessage ty ln bytes), true, 0, buf. split; [reflexivity|]. split; [rewrite <- Ez; exact Hcmd|].
          split; [exact Ec|]. split; [exact Hty|]. split; [exact El|]. split; [|exact Et]. left. split; [reflexivity|].
          exists (to_int (number a0 a1 a2 a3)). split; [apply signed_iff; [apply number_range|reflexivity]|].
          rewrite Eo. now left.
        - destruct ((number b0 b1 b2 b3 >=? VCHAN_BASE_DATA_PORT) && _) eqn:Erange.
          2:{ intros Eb. exfalso. assert (outs = []) by congruence. subst outs. destruct Hin. }
          intros Eb. apply (Fwd []) in Eb as ((t0 & ln0 & Eo) & -> & -> & -> & El & Et).
          2:{ intros ? ? ? ? ? []. }
          exists fd, (ClientMessage ty ln bytes), ok, (number b0 b1 b2 b3), buf. split; [reflexivity|]. split; [exact Hcmd|].
          split; [exact Ec|]. split; [exact Hty|]. split; [exact El|]. split; [|exact Et]. right. split; [reflexivity|].
          apply andb_prop in Erange as [R1 R2]. rewrite Z.geb_leb in R1. apply Z.leb_le in R1. apply Z.ltb_lt in R2.
          unfold VCHAN_BASE_DATA_PORT, MAX_CLIENTS in *. split; [lia|].
          intros d' p' (fd' & Hi). rewrite Eo in Hi. destruct Hi as [Hi|[]]. discriminate Hi. }
    + destruct m as [|ty ln bytes]. { intros H1; apply pair_eq in H1 as [_ <-]; destruct Hin. }
      destruct (negb _). { intros H1; apply pair_eq in H1 as [_ <-]; destruct Hin. }
      destruct (received ln bytes) as [b|]. 2:{ intros H1; apply pair_eq in H1 as [_ <-]; destruct Hin. }
      destruct (_ <? _); intros H1; apply pair_eq in H1 as [_ <-]; destruct Hin.
    + intros H1; apply pair_eq in H1 as [_ <-]; destruct Hin.
  - destruct (handle_message_from_agent (d_version s) ty ln body) as [|raw|rs tg sv x|dm pt]; [discriminate Hs| | |].
    + assert (outs = [Refused (cstr raw)]) by congruence. subst outs. destruct Hin as [Hin|[]]. discriminate Hin.
    + assert (H1 : handle_execute_service s x pid = (s', outs)) by congruence.
      apply exec_service_outs in H1 as (_ & _ & [->| ->]); [destruct Hin|]. destruct Hin as [Hin|[]]. discriminate Hin.
    + assert (outs = []) by congruence. subst outs. destruct Hin.
  - assert (H1 : (if pid >? 0 then reap_child s pid k else (s, [])) = (s', outs)) by congruence.
    destruct (pid >? 0). 2:{ apply pair_eq in H1 as [_ <-]. destruct Hin. }
    apply reap_outs in H1 as (_ & _ & [->|[x ->]]); [destruct Hin|]. destruct Hin as [Hin|[]]. discriminate Hin.
  - assert (outs = []) by congruence. subst outs. destruct Hin.
Qed.

(** * Concrete histories *)

(** Runs the daemon on a list of events (oldest first) *)
Fixpoint play (du : string) (s : daemon) (h : history) (evs : list devent) : option (daemon * history) :=
  match evs with
  | [] => Some (s, h)
  | ev :: evs => match dstep du s ev with
                 | None => None
                 | Some (s', outs) => play du s' ((ev, outs) :: h) evs
                 end
  end.
Lemma play_runs du remote version evs : forall s h s' h', runs du remote version h s ->
  play du s h evs = Some (s', h') -> runs du remote version h' s'.
Proof.
  induction evs as [|ev evs IH]; intros s h s' h' Hr; cbn [play].
  - intros H; inversion H; subst. exact Hr.
  - destruct (dstep du s ev) as [[s1 outs]|] eqn:E; [|discriminate]. apply IH. eapply runs_step; eauto.
Qed.
Definition outcome (du : string) (remote version : Z) (evs : list devent) : option history :=
  option_map snd (play du (init remote version) [] evs).
Lemma outcome_runs du remote version evs h : outcome du remote version evs = Some h ->
  exists s, runs du remote version h s.
Proof.
  unfold outcome. destruct (play _ _ _ _) as [[s h']|] eqn:E; [|discriminate]. cbn [option_map snd].
  intros H. exists s. apply (play_runs _ _ _ _ _ _ _ _ (runs_start _ _ _)) in E. congruence.
Qed.

Definition call_text (ident : string) : string :=
  ("work" +++ nuls 60) +++ (ident +++ nuls (32 - String.length ident)) +++ "test.Echo" +++ str1 NUL.
Definition call_event (ident : string) (pid : Z) : devent :=
  FromAgent 530 (Z.of_nat (String.length (call_text ident))) (call_text ident) pid.
Definition byte (n : nat) : string := str1 (ascii_of_nat n).
Definition le4 (a b : nat) : string := byte a +++ byte b +++ byte 0 +++ byte 0.
Definition hello_msg : client_data := ClientMessage 768 4 (le4 3 0).
Definition msg (type : Z) (head text : string) : client_data :=
  ClientMessage type (8 + Z.of_nat (String.length (text +++ str1 NUL))) (head +++ text +++ str1 NUL).
Definition ended (d p0 p1 : nat) : devent := FromAgent 529 8 (le4 d 0 +++ le4 p0 p1) 0.

(** A call, connected by a client that got the port 513 + 2 elsewhere; the policy
    process then fails: no second answer. A second call is refused. *)
Example history_connect : exists h s, runs "user" 7 3 h s /\ no_kill h /\ sane_domains h /\
  answers h "SOCKET3" = 1%nat /\ answers h "SOCKET4" = 1%nat /\ calls h "SOCKET3" = 1%nat /\ calls h "SOCKET4" = 1%nat /\
  running h = [] /\
  map snd h = [[Refused "SOCKET4"]; []; []; [ToAgent 514 16 9 515 ("SOCKET3" +++ str1 NUL)]; []; []; []].
Proof.
  pose (evs := [call_event "SOCKET3" 100; NewClient 5 true; FromClient 5 hello_msg true;
                FromClient 5 (msg 514 (le4 9 0 +++ le4 3 2) "SOCKET3") true;
                ChildEnded 100 (Exited 1); call_event "SOCKET4" 101; ChildEnded 101 (Exited 1)]).
  destruct (outcome "user" 7 3 evs) as [h|] eqn:E; [|vm_compute in E; discriminate E].
  exists h. destruct (outcome_runs _ _ _ _ _ E) as [s Hr]. exists s. split; [exact Hr|].
  vm_compute in E. injection E as <-.
  split.
  { repeat first [apply nk_nil | apply nk_cons]; try (intros q Hq; discriminate Hq);
    intros x q Hst; apply starts_inv in Hst as (A & B & ? & ? & ? & C); try discriminate C; try discriminate B;
    (split; [inversion C; lia|]); inversion C; vm_compute; intuition congruence. }
  split.
  { intros ev outs Hin (fd & type & len & a0 & a1 & a2 & a3 & r & ok & -> & Hs).
    repeat (destruct Hin as [Hin|Hin]; [injection Hin as; try discriminate|]); try destruct Hin; subst; vm_compute in Hs;
      destruct Hs as [_ [Hs|Hs]]; discriminate Hs. }
  vm_compute. repeat split.
Qed.

(** Ports: two clients ask for connections between qubes 7 and 9 (odd slots, as
    9 > 7); the first port is freed by a message that names it and domain 9, not by
    one that names domain 8; then it is handed out again *)
Example history_ports : exists h s, runs "user" 7 3 h s /\
  map snd h = [ [PortToClient 7 9 514; ToAgent 513 15 9 514 ("user:X" +++ str1 NUL)]; []; []; [];
                [PortToClient 6 9 516; ToAgent 512 14 9 516 ("DEF:X" +++ str1 NUL)]; []; []; [];
                [PortToClient 5 9 514; ToAgent 512 15 9 514 ("user:X" +++ str1 NUL)]; []; []].
Proof.
  pose (evs := [NewClient 5 true; FromClient 5 hello_msg true; FromClient 5 (msg 512 (le4 9 0 +++ le4 0 0) "DEFAULT:X") true;
                ended 8 2 2;
                NewClient 6 true; FromClient 6 hello_msg true; FromClient 6 (msg 512 (le4 9 0 +++ le4 0 0) "DEF:X") true;
                ended 9 2 2;
                NewClient 7 true; FromClient 7 hello_msg true; FromClient 7 (msg 513 (le4 9 0 +++ le4 0 0) "DEFAULT:X") true]).
  destruct (outcome "user" 7 3 evs) as [h|] eqn:E; [|vm_compute in E; discriminate E].
  exists h. destruct (outcome_runs _ _ _ _ _ E) as [s Hr]. exists s. split; [exact Hr|].
  vm_compute in E. injection E as <-. reflexivity.
Qed.

(** ** Where the code does not keep what C41 and C42 promise *)

(** Domain 0xFFFFFFFF is taken for the mark of an unused port: the same port is
    handed out twice *)
Theorem C41_all_ones_refuted : exists h s, runs "user" 7 3 h s /\
  (forall ev outs, In (ev, outs) h -> forall d p, ~ reports_end ev d p) /\
  exists fd1 fd2, fd1 <> fd2 /\
    In (PortToClient fd1 (-1) 513) (flat_map snd h) /\ In (PortToClient fd2 (-1) 513) (flat_map snd h).
Proof.
  pose (all1 := byte 255 +++ byte 255 +++ byte 255 +++ byte 255).
  pose (evs := [NewClient 5 true; FromClient 5 hello_msg true; FromClient 5 (msg 512 (all1 +++ le4 0 0) "u:X") true;
                NewClient 6 true; FromClient 6 hello_msg true; FromClient 6 (msg 512 (all1 +++ le4 0 0) "u:X") true]).
  destruct (outcome "user" 7 3 evs) as [h|] eqn:E; [|vm_compute in E; discriminate E].
  exists h. destruct (outcome_runs _ _ _ _ _ E) as [s Hr]. exists s. split; [exact Hr|].
  vm_compute in E. injection E as <-. split.
  - intros ev outs Hin d p (a0 & a1 & a2 & a3 & b0 & b1 & b2 & b3 & q & -> & _).
    repeat (destruct Hin as [Hin|Hin]; [discriminate Hin|]). destruct Hin.
  - exists 5%nat, 6%nat. split; [discriminate|]. cbn. auto 10.
Qed.

(** A call whose policy process is killed by a signal is never answered *)
Theorem C42_signal_refuted : exists h s q, runs "user" 7 3 ((ChildEnded q Signaled, []) :: h) s /\
  in_progress h [] "SOCKET3" q /\ running ((ChildEnded q Signaled, []) :: h) = [] /\
  calls ((ChildEnded q Signaled, []) :: h) "SOCKET3" = 1%nat /\ answers ((ChildEnded q Signaled, []) :: h) "SOCKET3" = 0%nat.
Proof.
  pose (evs := [call_event "SOCKET3" 100; ChildEnded 100 Signaled]).
  destruct (outcome "user" 7 3 evs) as [h|] eqn:E; [|vm_compute in E; discriminate E].
  destruct (outcome_runs _ _ _ _ _ E) as [s Hr]. exists (tl h), s, 100.
  assert (Eh : h = (ChildEnded 100 Signaled, []) :: [(call_event "SOCKET3" 100, [])]).
  { vm_compute in E. injection E as <-. vm_compute. reflexivity. }
  rewrite Eh in *. cbn [tl]. split; [exact Hr|]. split.
  - exists (call_event "SOCKET3" 100, []), []. split; [reflexivity|]. split; [|intros ? ? []].
    split; [vm_compute; reflexivity|]. split; reflexivity.
  - vm_compute. auto.
Qed.

(** ... and its place is lost: after 256 of them, with no process running, every
    call is refused *)
Fixpoint killed_calls (n : nat) : list devent :=
  match n with
  | O => []
  | S n => killed_calls n ++ [call_event "SOCKET3" (Z.of_nat n + 100); ChildEnded (Z.of_nat n + 100) Signaled]
  end.
Definition leak_test (h : history) : bool :=
  match h with
  | (FromAgent ty ln bd pd, [Refused x]) :: h' =>
      (ty =? 530) && (ln =? Z.of_nat (String.length (call_text "SOCKET4"))) && String.eqb bd (call_text "SOCKET4")
      && (pd =? 1000) && String.eqb x "SOCKET4" && Nat.eqb (length (running h')) 0
      && Nat.eqb (answers h' "SOCKET3") 0 && Nat.eqb (calls h' "SOCKET3") 256
  | _ => false
  end.
Theorem C42_leak_refuted : exists h s, runs "user" 7 3 ((call_event "SOCKET4" 1000, [Refused "SOCKET4"]) :: h) s /\
  running h = [] /\ answers h "SOCKET3" = 0%nat /\ calls h "SOCKET3" = 256%nat.
Proof.
  pose (evs := killed_calls 256 ++ [call_event "SOCKET4" 1000]).
  destruct (outcome "user" 7 3 evs) as [h|] eqn:E.
  2:{ exfalso. assert (Hn : match outcome "user" 7 3 evs with None => false | Some _ => true end = true) by (vm_compute; reflexivity).
      rewrite E in Hn. discriminate Hn. }
  destruct (outcome_runs _ _ _ _ _ E) as [s Hr]. exists (tl h), s.
  assert (Hh : forall P : history -> bool, match outcome "user" 7 3 evs with Some h => P h | None => false end = true -> P h = true).
  { intros P. now rewrite E. }
  assert (H0 : leak_test h = true).
  { apply Hh. vm_compute. reflexivity. }
  unfold leak_test in H0.
  clear Hh. destruct h as [|[ev o] h]; [discriminate H0|]. destruct ev as [| |ty ln bd pd| |]; try discriminate H0.
  destruct o as [|[| |x] [|]]; try discriminate H0.
  repeat (apply andb_prop in H0 as [H0 ?HH]).
  apply Nat.eqb_eq in HH, HH0, HH1. apply String.eqb_eq in HH2, HH4. apply Z.eqb_eq in H0, HH3, HH5.
  subst x bd pd ty ln. cbn [tl]. split; [exact Hr|]. split; [|auto].
  destruct (running h); [reflexivity|discriminate HH1].
Qed.

(** A request to connect that fails (here: a port out of range) uses the call up:
    it is neither connected nor refused when its process ends with an error *)
Theorem C42_failed_connect_refuted : exists ev h s, runs "user" 7 3 ((ChildEnded 100 (Exited 1), []) :: h) s /\
  in_progress h [(ev, []); (FromClient 5 hello_msg true, []); (NewClient 5 true, [])] "SOCKET3" 100 /\
  connect_request ev "SOCKET3" /\ no_kill h /\ answers h "SOCKET3" = 0%nat.
Proof.
  pose (ev := FromClient 5 (msg 514 (le4 9 0 +++ le4 1 0) "SOCKET3") true).
  pose (evs := [call_event "SOCKET3" 100; NewClient 5 true; FromClient 5 hello_msg true; ev; ChildEnded 100 (Exited 1)]).
  destruct (outcome "user" 7 3 evs) as [h|] eqn:E; [|vm_compute in E; discriminate E].
  destruct (outcome_runs _ _ _ _ _ E) as [s Hr]. exists ev, (tl h), s.
  assert (Eh : h = [(ChildEnded 100 (Exited 1), []); (ev, []); (FromClient 5 hello_msg true, []); (NewClient 5 true, []);
                    (call_event "SOCKET3" 100, [])]).
  { vm_compute in E. injection E as <-. vm_compute. reflexivity. }
  clear E. rewrite Eh in *. cbn [tl]. split; [exact Hr|].
  assert (Hst : starts_process (call_event "SOCKET3" 100, []) "SOCKET3" 100).
  { split; [vm_compute; reflexivity|]. split; reflexivity. }
  split.
  { exists (call_event "SOCKET3" 100, []), []. split; [reflexivity|]. split; [exact Hst|].
    intros e o Hin. repeat (destruct Hin as [Hin|Hin]; [inversion Hin; subst; split; intros; discriminate|]). destruct Hin. }
  split.
  { exists 5%nat, 16. do 8 eexists. exists ("SOCKET3" +++ str1 NUL), "", true. split; [vm_compute; reflexivity|].
    split; [vm_compute; reflexivity|]. split; [discriminate|]. vm_compute. reflexivity. }
  split; [|vm_compute; reflexivity].
  repeat first [apply nk_nil | apply nk_cons]; try (intros q Hq; discriminate Hq);
    intros x q Hs; apply starts_inv in Hs as (A & B & ? & ? & ? & C); try discriminate C; try discriminate B.
  split; [inversion C; lia|]. intros [].
Qed.

(** A process may end (with success) before its request to connect is read: the
    request is then turned down and the call is never answered *)
Theorem C42_success_first_refuted : exists ev h s, runs "user" 7 3 ((ev, []) :: h) s /\
  connect_request ev "SOCKET3" /\ calls h "SOCKET3" = 1%nat /\ answers ((ev, []) :: h) "SOCKET3" = 0%nat /\
  running h = [] /\ (exists h', h = (ChildEnded 100 (Exited 0), []) :: h').
Proof.
  pose (ev := FromClient 5 (msg 514 (le4 9 0 +++ le4 3 2) "SOCKET3") true).
  pose (evs := [call_event "SOCKET3" 100; NewClient 5 true; FromClient 5 hello_msg true; ChildEnded 100 (Exited 0); ev]).
  destruct (outcome "user" 7 3 evs) as [h|] eqn:E; [|vm_compute in E; discriminate E].
  destruct (outcome_runs _ _ _ _ _ E) as [s Hr]. exists ev, (tl h), s.
  assert (Eh : h = [(ev, []); (ChildEnded 100 (Exited 0), []); (FromClient 5 hello_msg true, []); (NewClient 5 true, []);
                    (call_event "SOCKET3" 100, [])]).
  { vm_compute in E. injection E as <-. vm_compute. reflexivity. }
  clear E. rewrite Eh in *. cbn [tl]. split; [exact Hr|]. split.
  { exists 5%nat, 16. do 8 eexists. exists ("SOCKET3" +++ str1 NUL), "", true. split; [vm_compute; reflexivity|].
    split; [vm_compute; reflexivity|]. split; [discriminate|]. vm_compute. reflexivity. }
  split; [vm_compute; reflexivity|]. split; [vm_compute; reflexivity|]. split; [vm_compute; reflexivity|]. eauto.
Qed.
