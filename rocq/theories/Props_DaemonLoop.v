(** C104: the main loop of the daemon *)
From Coq Require Import String Ascii List Bool Arith ZArith Lia.
From Verif Require Import Base Sanitize DaemonAgent DaemonState SpecState StateProofs DaemonLoop SpecDaemonLoop.
Import ListNotations.
Open Scope string_scope.
Open Scope list_scope.
Open Scope Z_scope.

Lemma all_app du l a b : handle_all du l (a ++ b) = and_then du (handle_all du l a) b.
Proof.
  revert l. induction a as [|ev a IH]; intros l; cbn [app handle_all].
  - cbn [and_then]. destruct (handle_all du l b); reflexivity.
  - destruct (handle du l ev) as [[l' out]|]; [|reflexivity]. rewrite IH.
    destruct (handle_all du l' a) as [d [l2| |]]; cbn [and_then]; [|reflexivity|reflexivity].
    destruct (handle_all du l2 b) as [d2 r]. reflexivity.
Qed.
Lemma then_then du x a b : and_then du (and_then du x a) b = and_then du x (a ++ b).
Proof.
  destruct x as [d [l| |]]; [|reflexivity|reflexivity]. cbn [and_then]. rewrite all_app.
  destruct (handle_all du l a) as [d1 [l1| |]]; cbn [and_then]; [|reflexivity|reflexivity].
  destruct (handle_all du l1 b) as [d2 r]. rewrite app_assoc. reflexivity.
Qed.
Lemma then_nil du x : and_then du x [] = x.
Proof. destruct x as [d [l| |]]; cbn [and_then handle_all]; rewrite ?app_nil_r; reflexivity. Qed.

(** the clients are where max_client_fd says *)
Definition fits (l : loop) : Prop := -1 <= l_max l < 256 /\ forall fd, connected (l_daemon l) fd -> Z.of_nat fd <= l_max l.

Lemma upd_invalid f fd x : upd f fd CLIENT_INVALID x <> CLIENT_INVALID -> f x <> CLIENT_INVALID.
Proof. unfold upd. destruct (Nat.eqb x fd); [intros H; contradiction H; reflexivity|auto]. Qed.
Lemma term_conn s fd x : connected (terminate_client s fd) x -> connected s x.
Proof. unfold connected, terminate_client. cbn [set_notify set_clients d_clients]. apply upd_invalid. Qed.
Lemma release_conn s p d x : connected (release_vchan_port s p d) x -> connected s x.
Proof.
  unfold release_vchan_port. destruct (nth _ _ _ =? d); [|auto].
  destruct (nth _ (d_notify s) None); [|auto]. intros H. apply term_conn in H. exact H.
Qed.
Lemma close_conn fds : forall s x, connected (close_all fds s) x -> connected s x.
Proof.
  unfold close_all. induction fds as [|fd fds IH]; intros s x H; cbn [fold_left] in H; [exact H|].
  apply IH in H. destruct (d_clients s fd); [exact H| | |]; apply term_conn in H; exact H.
Qed.
Lemma body_conn du s fd type len body ok s' outs b x :
  handle_cmdline_body du s fd type len body ok = (s', outs, b) -> connected s' x -> connected s x.
Proof.
  unfold handle_cmdline_body. intros H C.
  assert (F : forall s1 o, (terminate_client s1 fd, o, false) = (s', outs, b) -> (forall y, connected s1 y -> connected s y) -> connected s x).
  { intros s1 o E G. apply G. apply pair_eq in E. destruct E as [E _]. apply pair_eq in E. destruct E as [E _]. subst s'. apply term_conn in C. exact C. }
  destruct (len <=? sizeof_exec_params); [eapply F; eauto|].
  destruct (len >? MAX_QREXEC_CMD_LEN); [eapply F; eauto|].
  destruct body as [bd|]; [|eapply F; eauto].
  destruct (negb (String.eqb (sdrop (String.length (sdrop 8 bd) - 1) (sdrop 8 bd)) (str1 NUL))); [eapply F; eauto|].
  match type of H with (match ?g with Some _ => _ | None => _ end = _) => destruct g as [s1|] eqn:Gr end; [|eapply F; eauto].
  assert (S1 : forall y, connected s1 y -> connected s y).
  { destruct (type =? MSG_SERVICE_CONNECT).
    - destruct (find_request _ _ _) as [i|]; [|discriminate]. apply (f_equal (fun o => match o with Some z => d_clients z | None => d_clients s end)) in Gr.
      cbn [set_pending d_clients] in Gr. intros y. unfold connected. rewrite <- Gr. auto.
    - destruct ((type =? MSG_JUST_EXEC) || (type =? MSG_EXEC_CMDLINE)); [|discriminate]. assert (s1 = s) by congruence. subst. auto. }
  assert (K : forall s2 port o, (forall y, connected s2 y -> connected s y) ->
    (if negb (type =? MSG_SERVICE_CONNECT) && starts default_user_keyword (sdrop 8 bd) then
       (s2, o ++ [ToAgent type (len - 7 + Z.of_nat (String.length du)) (u32 bd) port (du +++ sdrop 7 (sdrop 8 bd))], true)
     else (s2, o ++ [ToAgent type len (u32 bd) port (sdrop 8 bd)], true)) = (s', outs, b) -> connected s x).
  { intros s2 port o G E. apply G. destruct (_ && _); apply pair_eq in E; destruct E as [E _]; apply pair_eq in E; destruct E as [E _]; subst s'; exact C. }
  destruct (u32 (sdrop 4 bd) =? 0).
  - destruct (allocate_vchan_port s1 (to_int (u32 bd))) as [[port s2]|] eqn:A; [|eapply F; eauto].
    assert (S2 : forall y, connected s2 y -> connected s y).
    { apply alloc_some in A. destruct A as (n & _ & _ & _ & -> & _). intros y Y. apply S1. exact Y. }
    destruct ok.
    + apply K in H; [exact H|]. intros y Y. apply S2. exact Y.
    + apply pair_eq in H. destruct H as [H _]. apply pair_eq in H. destruct H as [H _]. subst s'.
      apply release_conn in C. apply term_conn in C. apply S2. exact C.
  - destruct ((u32 (sdrop 4 bd) >=? VCHAN_BASE_DATA_PORT) && (u32 (sdrop 4 bd) <? VCHAN_BASE_DATA_PORT + Z.of_nat MAX_CLIENTS)).
    + apply K in H; [exact H|exact S1].
    + eapply F; eauto.
Qed.
Lemma client_conn du s fd m ok s' outs x :
  handle_message_from_client du s fd m ok = (s', outs) -> connected s' x -> connected s x.
Proof.
  unfold handle_message_from_client. intros H C.
  assert (T : (terminate_client s fd, @nil output) = (s', outs) -> connected s x).
  { intros E. apply pair_eq in E. destruct E as [E _]. subst s'. apply term_conn in C. exact C. }
  destruct (d_clients s fd) eqn:D.
  - apply pair_eq in H. destruct H as [H _]. subst. exact C.
  - destruct m as [|type len bytes]; [auto|]. destruct (negb _); [auto|]. destruct (received len bytes); [|auto].
    destruct (u32 s0 <? QREXEC_CLIENT_MIN_VERSION); [auto|]. apply pair_eq in H. destruct H as [H _]. subst s'.
    unfold connected in *. cbn [set_clients d_clients] in C. unfold upd in C. destruct (Nat.eqb x fd) eqn:E; [|exact C].
    apply Nat.eqb_eq in E. subst x. rewrite D. discriminate.
  - destruct m as [|type len bytes]; [auto|]. destruct (_ || _); [|auto].
    destruct (handle_cmdline_body du s fd type len (received len bytes) ok) as [[s1 o1] b] eqn:B. apply pair_eq in H. destruct H as [H _]. subst s'.
    destruct b; [|eapply body_conn; eassumption].
    unfold connected in C. cbn [set_clients d_clients] in C. unfold upd in C. destruct (Nat.eqb x fd) eqn:E.
    + apply Nat.eqb_eq in E. subst x. unfold connected. rewrite D. discriminate.
    + eapply body_conn; eassumption.
  - apply T. exact H.
Qed.
Lemma restart_conn s v x : connected (handle_agent_restart s v) x -> connected s x.
Proof.
  unfold handle_agent_restart. generalize (seq 0 MAX_CLIENTS). intros fds. cbn zeta. unfold connected at 1. cbn [d_clients]. apply close_conn.
Qed.
(** the only way to become connected *)
Lemma step_conn du s ev s' outs x : dstep du s ev = Some (s', outs) -> connected s' x ->
  connected s x \/ ev = NewClient x true /\ (x < 256)%nat.
Proof.
  intros H C. destruct ev as [fd ok|fd m ok|type len body pid|pid k|v]; cbn [dstep] in H.
  - unfold handle_new_client in H. destruct (fd <? MAX_CLIENTS)%nat eqn:L; [|discriminate]. cbn [option_map] in H.
    apply Nat.ltb_lt in L. assert (E : s' = set_clients s (upd (d_clients s) fd (if ok then CLIENT_HELLO else CLIENT_INVALID))) by congruence.
    subst s'. unfold connected in C. cbn [set_clients d_clients] in C. unfold upd in C. destruct (Nat.eqb x fd) eqn:E; [|left; exact C].
    apply Nat.eqb_eq in E. subst x. destruct ok; [right; split; [reflexivity|exact L]|exfalso; apply C; reflexivity].
  - left. eapply client_conn; [|exact C]. assert (E : handle_message_from_client du s fd m ok = (s', outs)) by congruence. exact E.
  - left. destruct (handle_message_from_agent (d_version s) type len body).
    + discriminate.
    + assert (s' = s) by congruence. subst. exact C.
    + unfold handle_execute_service in H. destruct (free_slot (d_pending s)).
      * apply (f_equal (fun o => match o with Some (z, _) => d_clients z | None => d_clients s end)) in H. cbn [set_pending d_clients] in H.
        unfold connected in *. rewrite H. exact C.
      * assert (s' = s) by congruence. subst. exact C.
    + apply (f_equal (fun o => match o with Some (z, _) => z | None => s end)) in H. subst s'. apply release_conn in C. exact C.
  - left. destruct (pid >? 0); [|assert (s' = s) by congruence; subst; exact C].
    assert (E : reap_child s pid k = (s', outs)) by congruence. unfold reap_child in E. destruct k; [|assert (s' = s) by congruence; subst; exact C].
    destruct (find_pid (d_pending s) (d_limit s) pid); [|assert (s' = s) by congruence; subst; exact C].
    match type of E with (let '(_, _) := ?p in _) = _ => destruct p as [r o] end.
    apply (f_equal (fun o => d_clients (fst o))) in E. cbn [fst set_pending d_clients] in E. unfold connected in *. rewrite E. exact C.
  - left. assert (E : s' = handle_agent_restart s v) by congruence. subst s'. apply restart_conn in C. exact C.
Qed.
Lemma reap_clients du s pid k s' outs : dstep du s (ChildEnded pid k) = Some (s', outs) -> d_clients s' = d_clients s.
Proof.
  cbn [dstep]. intros H. destruct (pid >? 0); [|assert (s' = s) by congruence; subst; reflexivity].
  assert (E : reap_child s pid k = (s', outs)) by congruence. unfold reap_child in E. destruct k; [|assert (s' = s) by congruence; subst; reflexivity].
  destruct (find_pid (d_pending s) (d_limit s) pid); [|assert (s' = s) by congruence; subst; reflexivity].
  match type of E with (let '(_, _) := ?p in _) = _ => destruct p as [r o] end.
  apply (f_equal (fun o => d_clients (fst o))) in E. cbn [fst set_pending d_clients] in E. symmetry. exact E.
Qed.

Lemma handle_fits du l ev l' out : fits l -> handle du l ev = Some (l', out) -> fits l'.
Proof.
  intros [M F] H. unfold handle in H. destruct (dstep du (l_daemon l) ev) as [[s o]|] eqn:D; [|discriminate].
  assert (E : l' = mkLoop s (match ev with NewClient fd true => if Z.of_nat fd >? l_max l then Z.of_nat fd else l_max l | _ => l_max l end)) by congruence.
  assert (G : forall x, connected s x -> connected (l_daemon l) x \/ ev = NewClient x true /\ (x < 256)%nat) by (intros x X; eapply step_conn; eassumption).
  subst l'. unfold fits. cbn [l_max l_daemon].
  destruct ev as [fd [|]| | | |]; try (split; [exact M|]; intros x X; destruct (G x X) as [Y|[Y _]]; [auto|discriminate]).
  assert (B : (fd < 256)%nat).
  { cbn [dstep] in D. unfold handle_new_client in D. destruct (fd <? MAX_CLIENTS)%nat eqn:L; [|discriminate]. apply Nat.ltb_lt in L. exact L. }
  destruct (Z.of_nat fd >? l_max l) eqn:L; (split; [lia|]); intros x X; destruct (G x X) as [Y|[Y _]]; try (apply F in Y; lia);
    assert (x = fd) by congruence; lia.
Qed.

Lemma all_history du r v evs : forall h l done o, runs du r v h (l_daemon l) -> handle_all du l evs = (done, o) ->
  match o with
  | Goes l' => map fst done = evs /\ runs du r v (rev done ++ h) (l_daemon l')
  | Exits => exists s ev rest, evs = map fst done ++ ev :: rest /\ runs du r v (rev done ++ h) s /\ dstep du s ev = None
  | AssertionFails => False
  end.
Proof.
  induction evs as [|ev evs IH]; intros h l done o R H; cbn [handle_all] in H.
  - apply pair_eq in H. destruct H as [<- <-]. split; [reflexivity|exact R].
  - unfold handle in H. destruct (dstep du (l_daemon l) ev) as [[s out]|] eqn:D.
    + match type of H with (let (_, _) := handle_all du ?l2 evs in _) = _ => set (l1 := l2) in H; destruct (handle_all du l1 evs) as [d o'] eqn:A end.
      apply pair_eq in H. destruct H as [<- <-]. cbn [rev map fst]. rewrite <- !app_assoc. cbn [app].
      assert (R1 : runs du r v ((ev, out) :: h) (l_daemon l1)) by (cbn [l1 l_daemon]; eapply runs_step; eassumption).
      specialize (IH _ _ _ _ R1 A). destruct o' as [l'| |].
      * destruct IH as [I1 I2]. split; [rewrite I1; reflexivity|exact I2].
      * destruct IH as (s0 & e0 & rest & I1 & I2 & I3). exists s0, e0, rest. split; [rewrite I1; reflexivity|]. split; assumption.
      * exact IH.
    + apply pair_eq in H. destruct H as [<- <-]. exists (l_daemon l), ev, evs. split; [reflexivity|]. split; [exact R|exact D].
Qed.
Lemma all_fits du evs : forall l done l', fits l -> handle_all du l evs = (done, Goes l') -> fits l'.
Proof.
  induction evs as [|ev evs IH]; intros l done l' F H; cbn [handle_all] in H.
  - assert (l' = l) by congruence. subst. exact F.
  - destruct (handle du l ev) as [[l1 out]|] eqn:E; [|discriminate].
    destruct (handle_all du l1 evs) as [d o] eqn:A. assert (o = Goes l') by congruence. subst o.
    eapply IH; [|exact A]. eapply handle_fits; eassumption.
Qed.
Lemma reap_all du cs : forall l, exists done l1, handle_all du l (map (fun c => ChildEnded (fst c) (snd c)) cs) = (done, Goes l1) /\
  d_clients (l_daemon l1) = d_clients (l_daemon l) /\ l_max l1 = l_max l.
Proof.
  induction cs as [|[pid k] cs IH]; intros l; cbn [map handle_all fst snd].
  - exists [], l. auto.
  - unfold handle. destruct (dstep du (l_daemon l) (ChildEnded pid k)) as [[s out]|] eqn:D; [|cbn [dstep] in D; discriminate].
    destruct (IH (mkLoop s (l_max l))) as (d & l1 & E & C & M). rewrite E. exists ((ChildEnded pid k, out) :: d), l1. cbn [l_daemon l_max] in *.
    split; [reflexivity|]. split; [rewrite C; eapply reap_clients; exact D|exact M].
Qed.

Lemma eta {A B} (x : A * B) : x = (let (a, b) := x in (a, b)).
Proof. destruct x; reflexivity. Qed.
Definition stops (t : turn) : bool :=
  match t_poll t with
  | PollFailed => true
  | Polled _ => negb (t_open t) && match t_back t with None => true | Some _ => false end
  | Interrupted => false
  end.
Lemma valid_iff s fd : valid s fd = true <-> connected s fd.
Proof. unfold valid, connected. destruct (d_clients s fd); split; intros H; try discriminate; try reflexivity; exfalso; apply H; reflexivity. Qed.
Lemma clients_calls ready sent l :
  flat_map (calls_of_client sent) (polled ready (map Client l)) =
  map (fun fd => FromClient fd (fst (sent fd)) (snd (sent fd))) (filter (fun fd => ready (Client fd)) l).
Proof.
  induction l as [|fd l IH]; [reflexivity|]. unfold polled in *. cbn [map flat_map filter calls_of_client]. destruct (ready (Client fd)); rewrite IH; reflexivity.
Qed.

Lemma turn_events du l t : fits l -> exists evs, attention (connected (l_daemon l)) t evs /\
  one_turn du l t = (let (done, o) := handle_all du l evs in (done, if stops t then match o with Goes _ => Exits | _ => o end else o)).
Proof.
  intros F. unfold one_turn, attention, stops.
  destruct (reap_all du (t_children t) l) as (d & l1 & E & C & M).
  set (ch := map (fun c => ChildEnded (fst c) (snd c)) (t_children t)) in *.
  assert (FL : fill (t_space t) l1 = Some (if t_space t then Vchan :: Listening :: map Client (filter (valid (l_daemon l1)) (seq 0 (Z.to_nat (l_max l1 + 1)))) else [Vchan])).
  { unfold fill. destruct (t_space t); [|reflexivity]. destruct F as [F _]. rewrite M. replace (l_max l <? Z.of_nat MAX_CLIENTS) with true; [reflexivity|].
    symmetry. apply Z.ltb_lt. change (Z.of_nat MAX_CLIENTS) with 256. lia. }
  assert (X : forall evs, and_then du (d, Goes l1) evs = handle_all du l (ch ++ evs)) by (intros evs; rewrite all_app, E; reflexivity).
  destruct (t_poll t) as [| |ready] eqn:P.
  - exists ch. split; [exists ch, [], [], []; rewrite !app_nil_r; auto|]. rewrite E, FL. reflexivity.
  - exists ch. split; [exists ch, [], [], []; rewrite !app_nil_r; auto|]. rewrite E, FL. reflexivity.
  - destruct (t_open t) eqn:O; cbn [negb andb].
    + set (new := if t_space t && ready Listening then [NewClient (fst (t_accept t)) (snd (t_accept t))] else []).
      set (fds := if t_space t then filter (fun fd => ready (Client fd)) (filter (valid (l_daemon l1)) (seq 0 (Z.to_nat (l_max l1 + 1)))) else []).
      set (cl := map (fun fd => FromClient fd (fst (t_sent t fd)) (snd (t_sent t fd))) fds).
      exists (ch ++ new ++ map from_agent (t_messages t) ++ cl). split.
      * exists ch, new, (map from_agent (t_messages t)), cl. split; [reflexivity|]. split; [reflexivity|]. split; [reflexivity|]. split; [reflexivity|].
        exists fds. split; [reflexivity|]. unfold fds. destruct (t_space t).
        -- split; [apply NoDup_filter, NoDup_filter, seq_NoDup|]. intros fd. rewrite !filter_In, in_seq, valid_iff.
           unfold connected. rewrite C, M. split; [intros ((B & V) & Rd); auto|]. intros (_ & V & Rd). split; [|exact Rd]. split; [|exact V].
           destruct F as [Fm Fc]. specialize (Fc fd V). lia.
        -- split; [constructor|]. intros fd. split; [intros []|]. intros (Q & _). discriminate Q.
      * rewrite E, FL. destruct (t_space t) eqn:S.
        -- unfold polled. cbn [map nth_error]. cbn [skipn]. change (map (fun w => (w, ready w)) (map Client (filter (valid (l_daemon l1)) (seq 0 (Z.to_nat (l_max l1 + 1)))))) with (polled ready (map Client (filter (valid (l_daemon l1)) (seq 0 (Z.to_nat (l_max l1 + 1)))))).
           rewrite clients_calls. fold fds. fold cl. unfold new. cbn [andb].
           destruct (ready Listening); rewrite !then_then, X; cbn [app]; apply eta.
        -- unfold polled. cbn [map nth_error skipn flat_map]. unfold new, cl, fds. cbn [andb map app].
           rewrite then_then, X. apply eta.
    + destruct (t_back t) as [v|].
      * exists (ch ++ [AgentRestarted v]). split; [exists ch, [], [AgentRestarted v], []; auto|]. rewrite E, FL, X. apply eta.
      * exists ch. split; [exists ch, [], [], []; rewrite !app_nil_r; auto|]. rewrite E, FL. reflexivity.
Qed.

Lemma turned_fits du r v h l : turned du r v h l -> fits l /\ runs du r v h (l_daemon l).
Proof.
  intros T. induction T as [|h l t done l' T [F R] E].
  - split; [|apply runs_start]. unfold fits, begin, init. cbn [l_max l_daemon d_clients]. split; [lia|]. intros fd C. exfalso. apply C. reflexivity.
  - destruct (turn_events du l t F) as (evs & _ & E'). rewrite E' in E. destruct (handle_all du l evs) as [d o] eqn:A.
    apply pair_eq in E. destruct E as [E1 E]. subst d.
    assert (o = Goes l') by (destruct (stops t); destruct o; congruence). subst o.
    split; [eapply all_fits; eassumption|]. pose proof (all_history du r v evs h l done _ R A) as [_ H]. exact H.
Qed.

(** ** The theorems *)

(** A turn does what has to be done, in this order, each once; it breaks off only because poll or the
    reconnection fails or because a handler ends the daemon; its assertion does not fail *)
Theorem C104_turn du r v h l t done o : turned du r v h l -> one_turn du l t = (done, o) ->
  exists evs, attention (connected (l_daemon l)) t evs /\
  match o with
  | Goes l' => map fst done = evs
  | Exits =>
      (map fst done = evs /\ (t_poll t = PollFailed \/ t_open t = false /\ t_back t = None)) \/
      (exists s ev rest, evs = map fst done ++ ev :: rest /\ runs du r v (rev done ++ h) s /\ dstep du s ev = None)
  | AssertionFails => False
  end.
Proof.
  intros T E. destruct (turned_fits _ _ _ _ _ T) as [F R]. destruct (turn_events du l t F) as (evs & At & E'). rewrite E' in E. clear E'.
  exists evs. split; [exact At|]. destruct (handle_all du l evs) as [d o'] eqn:A. apply pair_eq in E. destruct E as [-> E].
  pose proof (all_history du r v evs h l done _ R A) as H. destruct (stops t) eqn:S.
  - destruct o' as [l'| |]; [|subst o; right; exact H|destruct H]. subst o. left. split; [exact (proj1 H)|].
    unfold stops in S. destruct (t_poll t); [discriminate|left; reflexivity|]. destruct (t_open t); [discriminate|]. destruct (t_back t); [discriminate|]. auto.
  - subst o. destruct o' as [l'| |]; [exact (proj1 H)|right; exact H|exact H].
Qed.

(** What a daemon does over its turns is one of the histories of the other theorems *)
Theorem C104_history du r v h l : turned du r v h l -> runs du r v h (l_daemon l).
Proof. intros T. exact (proj2 (turned_fits _ _ _ _ _ T)). Qed.

(** The array for ppoll has room, and the assertion holds *)
Theorem C104_room du r v h l space : turned du r v h l -> exists fds, fill space l = Some fds /\ (length fds <= 256 + 2)%nat.
Proof.
  intros T. destruct (turned_fits _ _ _ _ _ T) as [[M _] _]. unfold fill. destruct space.
  - replace (l_max l <? Z.of_nat MAX_CLIENTS) with true by (symmetry; apply Z.ltb_lt; change (Z.of_nat MAX_CLIENTS) with 256; lia).
    eexists. split; [reflexivity|]. cbn [length]. rewrite map_length.
    assert (L : forall (f : nat -> bool) k, (length (filter f k) <= length k)%nat) by (intros f k; induction k as [|a k IHk]; cbn [filter length]; [lia|]; destruct (f a); cbn [length]; lia).
    specialize (L (valid (l_daemon l)) (seq 0 (Z.to_nat (l_max l + 1)))). rewrite seq_length in L. lia.
  - exists [Vchan]. split; [reflexivity|]. cbn [length]. lia.
Qed.

(** Nothing is taken from a client, and no client is accepted, while there is no space in the vchan *)
Theorem C104_space du r v h l t done o : turned du r v h l -> one_turn du l t = (done, o) -> t_space t = false ->
  forall ev, In ev (map fst done) -> match ev with FromClient _ _ _ | NewClient _ _ => False | _ => True end.
Proof.
  intros T E S ev I. destruct (C104_turn _ _ _ _ _ _ _ _ T E) as (evs & (ch & new & ag & cl & -> & Hc & H) & D).
  assert (I' : In ev (ch ++ new ++ ag ++ cl)).
  { destruct o as [l'| |]; [rewrite <- D; exact I| |destruct D]. destruct D as [[<- _]|(s & e & rest & -> & _)]; [exact I|]. apply in_or_app. left. exact I. }
  clear I D. rewrite !in_app_iff in I'.
  assert (X : In ev ch \/ new = [] /\ (In ev ag -> match ev with FromClient _ _ _ | NewClient _ _ => False | _ => True end) /\ cl = []).
  { right. destruct (t_poll t) as [| |ready]; try (destruct H as (-> & -> & ->); split; [reflexivity|]; split; [intros []|reflexivity]).
    destruct (t_open t).
    - rewrite S in H. cbn [andb] in H. destruct H as (-> & -> & fds & -> & _ & Hf). split; [reflexivity|]. split.
      + intros J. apply in_map_iff in J. destruct J as ([[[ty le] bo] pi] & <- & _). exact Logic.I.
      + destruct fds as [|fd fds]; [reflexivity|]. destruct (Hf fd) as [Hf1 _]. destruct (Hf1 (or_introl eq_refl)) as (Q & _). discriminate Q.
    - destruct H as (-> & -> & ->). split; [reflexivity|]. split; [|reflexivity]. destruct (t_back t); [intros [<-|[]]; exact Logic.I|intros []]. }
  destruct X as [J|(-> & J & ->)].
  - subst ch. apply in_map_iff in J. destruct J as (c & <- & _). exact Logic.I.
  - destruct I' as [K|[[]|[K|[]]]]; [|exact (J K)]. subst ch. apply in_map_iff in K. destruct K as (c & <- & _). exact Logic.I.
Qed.

(** A client that is ready is attended to in this very turn, whatever else there is to do, with what it
    has sent *)
Theorem C104_served du r v h l t done l' ready fd : turned du r v h l -> one_turn du l t = (done, Goes l') ->
  t_poll t = Polled ready -> t_open t = true -> t_space t = true ->
  ((exists m ok, In (FromClient fd m ok) (map fst done)) <-> connected (l_daemon l) fd /\ ready (Client fd) = true) /\
  (forall m ok, In (FromClient fd m ok) (map fst done) -> t_sent t fd = (m, ok)).
Proof.
  intros T E P O S. destruct (C104_turn _ _ _ _ _ _ _ _ T E) as (evs & (ch & new & ag & cl & -> & Hc & H) & D).
  rewrite P, O, S in H. cbn [andb] in H. destruct H as (Hn & Ha & fds & Hcl & _ & Hf). rewrite D.
  assert (K : forall m ok, In (FromClient fd m ok) (ch ++ new ++ ag ++ cl) <-> In fd fds /\ t_sent t fd = (m, ok)).
  { intros m ok. rewrite !in_app_iff. split.
    - intros [J|[J|[J|J]]].
      + subst ch. apply in_map_iff in J. destruct J as (c & J & _). discriminate J.
      + subst new. destruct (ready Listening); [destruct J as [J|[]]; discriminate J|destruct J].
      + subst ag. apply in_map_iff in J. destruct J as ([[[ty le] bo] pi] & J & _). discriminate J.
      + subst cl. apply in_map_iff in J. destruct J as (x & J & Jx). assert (x = fd) by congruence. subst x. split; [exact Jx|].
        assert (m = fst (t_sent t fd)) by congruence. assert (ok = snd (t_sent t fd)) by congruence. subst. destruct (t_sent t fd); reflexivity.
    - intros [J Q]. right. right. right. subst cl. apply in_map_iff. exists fd. rewrite Q. auto. }
  split.
  - split.
    + intros (m & ok & J). apply K in J. destruct J as [J _]. apply Hf in J. tauto.
    + intros [C Rd]. destruct (t_sent t fd) as [m ok] eqn:Q. exists m, ok. apply K. split; [|reflexivity]. apply Hf. auto.
  - intros m ok J. apply K in J. exact (proj2 J).
Qed.

(** A new client is not taken for one that was polled: even when the descriptor of a client that was
    ready is closed in this turn *)
Theorem C104_new_apart du r v h l t done o fd ok : turned du r v h l -> one_turn du l t = (done, o) ->
  apart du (l_daemon l) done -> In (NewClient fd ok) (map fst done) ->
  forall m ok', ~ In (FromClient fd m ok') (map fst done).
Proof.
  intros T E Ap I m ok' J. destruct (C104_turn _ _ _ _ _ _ _ _ T E) as (evs & (ch & new & ag & cl & Ee & Hc & H) & D).
  assert (Pre : exists rest, evs = map fst done ++ rest).
  { destruct o as [l'| |]; [exists []; rewrite app_nil_r; symmetry; exact D| |destruct D].
    destruct D as [[<- _]|(s & e & rest & -> & _)]; [exists []; rewrite app_nil_r; reflexivity|exists (e :: rest); reflexivity]. }
  destruct Pre as [rest Pre]. clear D.
  assert (Inn : forall ev, In ev (map fst done) -> In ev (ch ++ new ++ ag ++ cl)) by (intros ev K; rewrite <- Ee, Pre; apply in_or_app; left; exact K).
  assert (C : connected (l_daemon l) fd).
  { pose proof (Inn _ J) as K. rewrite !in_app_iff in K. destruct (t_poll t) as [| |ready].
    - destruct H as (-> & -> & ->). destruct K as [K|[[]|[[]|[]]]]. subst ch. apply in_map_iff in K. destruct K as (c & K & _). discriminate K.
    - destruct H as (-> & -> & ->). destruct K as [K|[[]|[[]|[]]]]. subst ch. apply in_map_iff in K. destruct K as (c & K & _). discriminate K.
    - destruct (t_open t).
      + destruct H as (Hn & Ha & fds & Hcl & _ & Hf). destruct K as [K|[K|[K|K]]].
        * subst ch. apply in_map_iff in K. destruct K as (c & K & _). discriminate K.
        * subst new. destruct (t_space t && ready Listening); [destruct K as [K|[]]; discriminate K|destruct K].
        * subst ag. apply in_map_iff in K. destruct K as ([[[ty le] bo] pi] & K & _). discriminate K.
        * subst cl. apply in_map_iff in K. destruct K as (x & K & Kx). assert (x = fd) by congruence. subst x. apply Hf in Kx. tauto.
      + destruct H as (-> & -> & ->). destruct K as [K|[[]|[K|[]]]].
        * subst ch. apply in_map_iff in K. destruct K as (c & K & _). discriminate K.
        * destruct (t_back t); [destruct K as [K|[]]; discriminate K|destruct K]. }
  (* the new client comes right after the children *)
  assert (B : exists cs tail, map fst done = map (fun c => ChildEnded (fst c) (snd c)) cs ++ NewClient fd ok :: tail).
  { pose proof (Inn _ I) as K. rewrite !in_app_iff in K.
    assert (Nn : new = [NewClient fd ok]).
    { destruct (t_poll t) as [| |ready].
      - destruct H as (-> & -> & ->). destruct K as [K|[[]|[[]|[]]]]. subst ch. apply in_map_iff in K. destruct K as (c & K & _). discriminate K.
      - destruct H as (-> & -> & ->). destruct K as [K|[[]|[[]|[]]]]. subst ch. apply in_map_iff in K. destruct K as (c & K & _). discriminate K.
      - destruct (t_open t).
        + destruct H as (Hn & Ha & fds & Hcl & _ & Hf). destruct K as [K|[K|[K|K]]].
          * subst ch. apply in_map_iff in K. destruct K as (c & K & _). discriminate K.
          * subst new. destruct (t_space t && ready Listening); [destruct K as [K|[]]; rewrite K; reflexivity|destruct K].
          * subst ag. apply in_map_iff in K. destruct K as ([[[ty le] bo] pi] & K & _). discriminate K.
          * subst cl. apply in_map_iff in K. destruct K as (x & K & Kx). discriminate K.
        + destruct H as (-> & -> & ->). destruct K as [K|[[]|[K|[]]]].
          * subst ch. apply in_map_iff in K. destruct K as (c & K & _). discriminate K.
          * destruct (t_back t); [destruct K as [K|[]]; discriminate K|destruct K]. }
    rewrite Ee in Pre. rewrite Nn in Pre. cbn [app] in Pre. rewrite Hc in Pre.
    clear - Pre I. exists (t_children t). revert Pre I. generalize (t_children t). generalize (ag ++ cl). generalize (map fst done). clear.
    intros d tl cs. revert d. induction cs as [|c cs IH]; intros d Pre I; cbn [map app] in *.
    - destruct d as [|e d]; [destruct I|]. cbn [app] in Pre. exists d. congruence.
    - destruct d as [|e d]; [destruct I|]. cbn [app] in Pre. assert (e = ChildEnded (fst c) (snd c)) by congruence. subst e.
      destruct I as [I|I]; [discriminate I|]. destruct (IH d) as [tail Et]; [congruence|exact I|]. exists tail. rewrite Et. reflexivity. }
  destruct B as (cs & tail & B). clear - Ap B C. revert B Ap C. generalize (l_daemon l). revert done.
  induction cs as [|c cs IH]; intros done s B Ap C; cbn [map app] in B.
  - destruct done as [|[e out] done]; [discriminate B|]. cbn [map fst] in B. assert (e = NewClient fd ok) by congruence. subst e. cbn [apart] in Ap. destruct Ap as [Ap _]. exact (Ap C).
  - destruct done as [|[e out] done]; [discriminate B|]. cbn [map fst] in B. assert (e = ChildEnded (fst c) (snd c)) by congruence. subst e. cbn [apart] in Ap.
    destruct Ap as [_ Ap]. destruct (dstep du s (ChildEnded (fst c) (snd c))) as [[s' o']|] eqn:D; [|cbn [dstep] in D; discriminate].
    apply (IH done s'); [congruence|exact Ap|]. unfold connected in *. rewrite (reap_clients _ _ _ _ _ _ D). exact C.
Qed.

(** ** A case *)
(** two clients, 5 and 7; then a turn in which the agent reports the end of the connection 7 waits for,
    while 7 and 5 are ready and a third client comes *)
Definition hello := ClientMessage 768 4 (string_of_list_ascii (map ascii_of_nat [3; 0; 0; 0]%nat)).
Definition command := ClientMessage 512 11 (string_of_list_ascii (map ascii_of_nat [9; 0; 0; 0; 0; 0; 0; 0; 117; 58; 0]%nat)).
Definition coming fd := mkTurn [] true (Polled (fun w => match w with Listening => true | _ => false end)) true None (fd, true) [] (fun _ => (ClientEOF, true)).
Definition speaking fd m := mkTurn [] true (Polled (fun w => match w with Client x => Nat.eqb x fd | _ => false end)) true None (0%nat, true) [] (fun _ => (m, true)).
Definition last_turn :=
  mkTurn [(77, Exited 1)] true (Polled (fun _ => true)) true None (6%nat, true)
    [(529, 8, string_of_list_ascii (map ascii_of_nat [9; 0; 0; 0; 2; 2; 0; 0]%nat), 0)] (fun _ => (hello, true)).
Fixpoint all_turns (l : loop) (ts : list turn) : list (devent * list output) * option loop :=
  match ts with
  | [] => ([], Some l)
  | t :: ts' => match one_turn "user" l t with
                | (d, Goes l') => let (d', r) := all_turns l' ts' in (d ++ d', r)
                | (d, _) => (d, None)
                end
  end.
Definition ex_turns := [coming 5; coming 7; speaking 7 hello; speaking 7 command; last_turn].
Example ex_loop :
  map fst (fst (all_turns (begin 3 3) ex_turns)) =
  [NewClient 5 true; NewClient 7 true; FromClient 7 hello true; FromClient 7 command true;
   ChildEnded 77 (Exited 1); NewClient 6 true; FromAgent 529 8 (string_of_list_ascii (map ascii_of_nat [9; 0; 0; 0; 2; 2; 0; 0]%nat)) 0;
   FromClient 5 hello true; FromClient 7 hello true].
Proof. vm_compute. reflexivity. Qed.
Lemma turns_turned ts : forall h l d l', turned "user" 3 3 h l -> all_turns l ts = (d, Some l') -> exists h', turned "user" 3 3 h' l'.
Proof.
  induction ts as [|t ts IH]; intros h l d l' T E; cbn [all_turns] in E.
  - assert (l' = l) by congruence. subst. exists h. exact T.
  - destruct (one_turn "user" l t) as [d1 [l1| |]] eqn:O; try discriminate. destruct (all_turns l1 ts) as [d2 r] eqn:A.
    assert (r = Some l') by congruence. subst r. eapply IH; [|exact A]. eapply turned_on; eassumption.
Qed.
Example ex_after : exists h l, turned "user" 3 3 h l /\ l_max l = 7 /\ connected (l_daemon l) 5 /\ connected (l_daemon l) 6 /\ ~ connected (l_daemon l) 7.
Proof.
  destruct (all_turns (begin 3 3) ex_turns) as [d [l|]] eqn:A.
  - assert (K : forall (f : loop -> bool), match all_turns (begin 3 3) ex_turns with (_, Some l) => f l | _ => false end = f l) by (rewrite A; reflexivity).
    destruct (turns_turned _ _ _ _ _ (turned_begin _ _ _) A) as [h T]. exists h, l. split; [exact T|]. split.
    + apply Z.eqb_eq. rewrite <- (K (fun l => l_max l =? 7)). vm_compute. reflexivity.
    + rewrite <- !valid_iff. rewrite <- (K (fun l => valid (l_daemon l) 5)), <- (K (fun l => valid (l_daemon l) 6)).
      split; [vm_compute; reflexivity|]. split; [vm_compute; reflexivity|]. rewrite <- (K (fun l => valid (l_daemon l) 7)). vm_compute. discriminate.
  - exfalso. assert (K : match all_turns (begin 3 3) ex_turns with (_, Some _) => true | _ => false end = true) by (vm_compute; reflexivity).
    rewrite A in K. discriminate K.
Qed.
