(** C105: the main loop of the agent *)
From Coq Require Import String Ascii List Bool Arith ZArith Lia.
From Verif Require Import Base Sanitize DaemonAgent Agent SpecMain MainProofs AgentLoop SpecAgentLoop.
Import ListNotations.
Open Scope string_scope.
Open Scope list_scope.
Open Scope Z_scope.

Lemma pass_spec ready conns : forall rest,
  second_pass (polled ready (conn_entries conns) ++ rest) conns =
  Some (fst (poll_conns (fun fd => ready (Conn fd)) conns), snd (poll_conns (fun fd => ready (Conn fd)) conns), rest).
Proof.
  induction conns as [|[c|] cs IH]; intros rest; cbn [conn_entries second_pass poll_conns].
  - reflexivity.
  - destruct (poll_conns (fun fd => ready (Conn fd)) cs) as [cs' out] eqn:P. cbn [fst snd] in IH.
    destruct (negb (c_fd c =? -1)) eqn:N; cbn [andb].
    + unfold polled in *. cbn [map app]. rewrite Z.eqb_refl. rewrite IH.
      destruct (ready (Conn (c_fd c))); reflexivity.
    + rewrite IH. reflexivity.
  - destruct (poll_conns (fun fd => ready (Conn fd)) cs) as [cs' out] eqn:P. cbn [fst snd] in IH. rewrite IH. reflexivity.
Qed.
Lemma none_ready conns : poll_conns (fun _ => false) conns = (conns, []).
Proof.
  induction conns as [|[c|] cs IH]; cbn [poll_conns]; [reflexivity| |]; rewrite IH; [rewrite andb_false_r|]; reflexivity.
Qed.
Lemma poll_ext f g conns : (forall fd, f fd = g fd) -> poll_conns f conns = poll_conns g conns.
Proof.
  intros E. induction conns as [|[c|] cs IH]; cbn [poll_conns]; [reflexivity| |]; rewrite IH; [rewrite E|]; reflexivity.
Qed.
Lemma no_entries conns : conn_entries conns = [] -> forall f, poll_conns f conns = (conns, []).
Proof.
  intros E f. induction conns as [|[c|] cs IH]; cbn [poll_conns conn_entries] in *; [reflexivity| |].
  - destruct (negb (c_fd c =? -1)); [discriminate|]. rewrite (IH E). reflexivity.
  - rewrite (IH E). reflexivity.
Qed.
Lemma check_spec ready space conns :
  check_conns (polled ready (fill space conns)) conns = Some (poll_conns (fun fd => space && ready (Conn fd)) conns).
Proof.
  unfold check_conns, fill. destruct space; cbn [andb].
  - unfold polled. cbn [map length skipn]. rewrite map_length.
    destruct (conn_entries conns) as [|w ws] eqn:E.
    + cbn [length Nat.ltb Nat.leb]. rewrite (no_entries conns E). reflexivity.
    + replace (2 <? S (S (length (w :: ws))))%nat with true by (symmetry; apply Nat.ltb_lt; cbn [length]; lia).
      rewrite <- E. pose proof (pass_spec ready conns []) as P. rewrite app_nil_r in P. unfold polled in P. rewrite P.
      destruct (poll_conns (fun fd => ready (Conn fd)) conns); reflexivity.
  - unfold polled. cbn [map length Nat.ltb Nat.leb]. rewrite none_ready. reflexivity.
Qed.

(** [done] is what the handlers have done, for the events up to the end, or to the one that ends the agent *)
Lemma all_history en evs : forall h s done o, history en h s -> handle_all en s evs = (done, o) ->
  match o with
  | Goes s' => length done = length evs /\ history en (h ++ combine evs done) s'
  | Exits => exists pre ev rest d s1 s2 out, evs = pre ++ ev :: rest /\ done = d ++ [out] /\ length d = length pre /\
      history en (h ++ combine pre d) s1 /\ step en ev s1 = (s2, out) /\ dies out = true
  | Aborts => False
  end.
Proof.
  induction evs as [|ev evs IH]; intros h s done o H E; cbn [handle_all] in E.
  - assert (done = []) by congruence. assert (o = Goes s) by congruence. subst. cbn [combine length]. rewrite app_nil_r. auto.
  - destruct (step en ev s) as [s' out] eqn:S. destruct (dies out) eqn:D.
    + assert (done = [out]) by congruence. assert (o = Exits) by congruence. subst.
      exists [], ev, evs, [], s, s', out. cbn [combine app length]. rewrite app_nil_r. repeat split; auto.
    + destruct (handle_all en s' evs) as [d r] eqn:A. assert (done = out :: d) by congruence. assert (o = r) by congruence. subst done o.
      assert (H1 : history en (h ++ [(ev, out)]) s') by (eapply h_step; eassumption).
      specialize (IH _ _ _ _ H1 A). destruct r as [s2| |].
      * destruct IH as [L I]. cbn [length combine]. split; [lia|]. rewrite <- app_assoc in I. exact I.
      * destruct IH as (pre & e & rest & d0 & s1 & s2 & o0 & -> & -> & L & I & St & Di).
        exists (ev :: pre), e, rest, (out :: d0), s1, s2, o0. cbn [app length combine]. repeat split; auto. rewrite <- app_assoc in I. exact I.
      * exact IH.
Qed.
Lemma combine_app {A B} (a a' : list A) : forall (b b' : list B), length b = length a -> combine (a ++ a') (b ++ b') = combine a b ++ combine a' b'.
Proof.
  induction a as [|x a IH]; intros [|y b] b' L; cbn in L; try discriminate; cbn; [reflexivity|]. rewrite IH by lia. reflexivity.
Qed.

(** ** The theorems *)

(** A turn does what is due, each once and in this order, and what it does continues the history of the
    agent. It breaks off only because poll fails or because a handler ends the agent: neither the abort
    nor the assertions in it are reached *)
Theorem C105_turn en h s t done o : history en h s -> one_turn en s t = (done, o) ->
  match o with
  | Goes s' => length done = length (due t) /\ history en (h ++ combine (due t) done) s'
  | Exits =>
      (t_poll t = PollFailed /\ length done = length (due t)) \/
      (exists pre ev rest d s1 s2 out, due t = pre ++ ev :: rest /\ done = d ++ [out] /\ length d = length pre /\
        history en (h ++ combine pre d) s1 /\ step en ev s1 = (s2, out) /\ dies out = true)
  | Aborts => False
  end.
Proof.
  intros H E. unfold one_turn in E. unfold due.
  change (map (fun c => Reaped (fst c) (snd c)) (t_children t)) with (map reaped (t_children t)).
  destruct (handle_all en s (map reaped (t_children t))) as [d0 o0] eqn:A. pose proof (all_history _ _ _ _ _ _ H A) as R.
  destruct o0 as [s1| |].
  - destruct R as [L R]. destruct (t_poll t) as [| |ready] eqn:P.
    + assert (done = d0) by congruence. assert (o = Goes s1) by congruence. subst. rewrite app_nil_r. auto.
    + assert (done = d0) by congruence. assert (o = Exits) by congruence. subst. left. rewrite app_nil_r. auto.
    + rewrite check_spec in E. cbn zeta in E.
      destruct (poll_conns (fun fd => t_space t && ready (Conn fd)) (a_conns s1)) as [cs out] eqn:Q.
      assert (St : step en (Polled (fun fd => t_space t && ready (Conn fd))) s1 = (mkAgent cs (a_waiting s1) (a_wait s1), out)).
      { cbn [step]. unfold set_conns. rewrite Q. reflexivity. }
      assert (Di : dies out = false).
      { clear - Q. revert cs out Q. induction (a_conns s1) as [|[c|] l IH]; intros cs out Q; cbn [poll_conns] in Q.
        - assert (out = []) by congruence. subst. reflexivity.
        - destruct (poll_conns _ l) as [cs' out'] eqn:Q'. specialize (IH _ _ eq_refl).
          destruct (negb (c_fd c =? -1) && (t_space t && ready (Conn (c_fd c)))).
          + assert (out = Closed (c_fd c) :: Terminated (c_domain c) (c_port c) :: out') by congruence. subst out. cbn. exact IH.
          + assert (out = out') by congruence. subst. exact IH.
        - destruct (poll_conns _ l) as [cs' out'] eqn:Q'. specialize (IH _ _ eq_refl). assert (out = out') by congruence. subst. exact IH. }
      assert (H2 : history en ((h ++ combine (map reaped (t_children t)) d0) ++ [(Polled (fun fd => t_space t && ready (Conn fd)), out)])
        (mkAgent cs (a_waiting s1) (a_wait s1))) by (eapply h_step; eassumption).
      set (tail := map (fun m => let '(e, type, len, body) := m in Message e type len body) (t_messages t) ++
        (if t_space t && ready Trigger_socket then let '(fd, type, len, data) := t_client t in [Trigger fd type len data] else [])).
      match type of E with (let (_, _) := handle_all en ?s2 ?evs in _) = _ => assert (W : evs = tail) end.
      { unfold tail, fill, polled. change (map (fun m => let '(e, type, len, body) := m in Message e type len body) (t_messages t)) with (map message (t_messages t)). f_equal.
        destruct (t_space t); cbn [map nth_error andb]; [|reflexivity]. destruct (ready Trigger_socket); [|reflexivity]. unfold trigger_event. destruct (t_client t) as [[[fd ty] le] da]. reflexivity. }
      rewrite W in E. clear W.
      destruct (handle_all en (mkAgent cs (a_waiting s1) (a_wait s1)) tail) as [d1 r] eqn:B.
      assert (done = d0 ++ out :: d1) by congruence. assert (o = r) by congruence. subst done o.
      pose proof (all_history _ _ _ _ _ _ H2 B) as K. destruct r as [s3| |].
      * destruct K as [L2 K]. split; [rewrite !app_length; cbn [length]; lia|]. rewrite combine_app by exact L. cbn [combine].
        rewrite <- !app_assoc in K. cbn [app] in K. exact K.
      * right. destruct K as (pre & e & rest & d2 & s2' & s3 & o3 & Et & -> & L2 & K & S3 & D3).
        exists (map reaped (t_children t) ++ Polled (fun fd => t_space t && ready (Conn fd)) :: pre), e, rest, (d0 ++ out :: d2), s2', s3, o3.
        split; [rewrite Et, <- app_assoc; reflexivity|]. split; [rewrite <- app_assoc; reflexivity|]. split; [rewrite !app_length; cbn [length]; lia|].
        split; [|split; assumption]. rewrite combine_app by exact L. cbn [combine]. rewrite <- !app_assoc in K. cbn [app] in K. exact K.
      * exact K.
  - assert (done = d0) by congruence. assert (o = Exits) by congruence. subst. right.
    destruct R as (pre & e & rest & d2 & s2' & s3 & o3 & Et & -> & L2 & K & S3 & D3).
    exists pre, e, (rest ++ match t_poll t with
      | PollDone ready => Polled (fun fd => t_space t && ready (Conn fd)) :: map (fun m => let '(e, type, len, body) := m in Message e type len body) (t_messages t) ++
        (if t_space t && ready Trigger_socket then let '(fd, type, len, data) := t_client t in [Trigger fd type len data] else [])
      | _ => [] end), d2, s2', s3, o3.
    rewrite Et, <- app_assoc. cbn [app]. repeat split; auto.
  - destruct R.
Qed.

(** Each connection gets what poll has found for its own descriptor: those that are over are closed and
    reported, in the order of the slots, the others stay where they are *)
Theorem C105_own ready space conns : exists conns' out,
  check_conns (polled ready (fill space conns)) conns = Some (conns', out) /\
  length conns' = length conns /\
  (forall i c, in_slot conns i c ->
     if space then (over (fun fd => ready (Conn fd)) c /\ nth_error conns' i = Some None) \/
                   (~ over (fun fd => ready (Conn fd)) c /\ in_slot conns' i c)
     else in_slot conns' i c) /\
  (forall i, nth_error conns i = Some None -> nth_error conns' i = Some None) /\
  exists ends, out = flat_map (fun c => [Closed (c_fd c); Terminated (c_domain c) (c_port c)]) ends /\
    (forall c, In c ends <-> space = true /\ over (fun fd => ready (Conn fd)) c /\ exists i, in_slot conns i c) /\
    (forall pre c post, conns = pre ++ Some c :: post -> space = true -> over (fun fd => ready (Conn fd)) c ->
       exists e1 e2, ends = e1 ++ c :: e2 /\ (forall x, In x e1 <-> (over (fun fd => ready (Conn fd)) x /\ In (Some x) pre)) /\
                     (forall x, In x e2 <-> (over (fun fd => ready (Conn fd)) x /\ In (Some x) post))).
Proof.
  destruct (poll_conns (fun fd => space && ready (Conn fd)) conns) as [conns' out] eqn:P.
  exists conns', out. rewrite check_spec, P. split; [reflexivity|].
  set (is_over := fun c => negb (c_fd c =? -1) && (space && ready (Conn (c_fd c)))).
  set (ends_of := fun l : list (option connection) => flat_map (fun o => match o with Some c => if is_over c then [c] else [] | None => [] end) l).
  assert (OV : forall c, is_over c = true <-> space = true /\ over (fun fd => ready (Conn fd)) c).
  { intros c. unfold is_over, over. rewrite !andb_true_iff, negb_true_iff, Z.eqb_neq. tauto. }
  assert (PS : forall l, poll_conns (fun fd => space && ready (Conn fd)) l =
    (map (fun o => match o with Some c => if is_over c then None else Some c | None => None end) l,
     flat_map (fun c => [Closed (c_fd c); Terminated (c_domain c) (c_port c)]) (ends_of l))).
  { induction l as [|[c|] l IH]; cbn [poll_conns map]; [reflexivity| |]; rewrite IH; unfold ends_of; cbn [flat_map]; [|reflexivity].
    fold (is_over c). destruct (is_over c); reflexivity. }
  assert (IE : forall l x, In x (ends_of l) <-> is_over x = true /\ In (Some x) l).
  { intros l x. unfold ends_of. rewrite in_flat_map. split.
    - intros ([c|] & I & J); [|destruct J]. destruct (is_over c) eqn:O; [|destruct J]. destruct J as [<-|[]]. auto.
    - intros [O I]. exists (Some x). split; [exact I|]. rewrite O. left. reflexivity. }
  rewrite PS in P. assert (conns' = map (fun o => match o with Some c => if is_over c then None else Some c | None => None end) conns) by congruence.
  assert (Eo : out = flat_map (fun c => [Closed (c_fd c); Terminated (c_domain c) (c_port c)]) (ends_of conns)) by congruence.
  subst conns'. split; [apply map_length|]. split; [|split].
  - intros i c I. unfold in_slot in *. rewrite nth_error_map, I. cbn [option_map]. specialize (OV c). destruct (is_over c).
    + destruct OV as [OV _]. destruct (OV eq_refl) as [-> O]. left. auto.
    + destruct space; [|reflexivity]. right. split; [|reflexivity]. intros O. destruct OV as [_ OV]. discriminate OV. auto.
  - intros i I. rewrite nth_error_map, I. reflexivity.
  - exists (ends_of conns). split; [exact Eo|]. split.
    + intros c. rewrite IE, OV. split.
      * intros [[S O] I]. split; [exact S|]. split; [exact O|]. apply In_nth_error in I. exact I.
      * intros (S & O & i & I). split; [auto|]. eapply nth_error_In. exact I.
    + intros pre c post -> S O. exists (ends_of pre), (ends_of post). split.
      * unfold ends_of. rewrite flat_map_app. cbn [flat_map]. replace (is_over c) with true; [reflexivity|]. symmetry. apply OV. auto.
      * split; intros x; rewrite IE, OV; tauto.
Qed.

Lemma release_length pid conns : length (fst (release_pid pid conns)) = length conns.
Proof.
  induction conns as [|[c|] cs IH]; cbn [release_pid]; [reflexivity| |].
  - destruct (c_pid c =? pid); [reflexivity|]. destruct (release_pid pid cs) as [cs' out]. cbn [fst length] in *. lia.
  - destruct (release_pid pid cs) as [cs' out]. cbn [fst length] in *. lia.
Qed.
Lemma poll_length ready conns : length (fst (poll_conns ready conns)) = length conns.
Proof.
  induction conns as [|[c|] cs IH]; cbn [poll_conns]; [reflexivity| |]; destruct (poll_conns ready cs) as [cs' out]; [destruct (_ && _)|]; cbn [fst length] in *; lia.
Qed.
Lemma step_length en ev s s' out : step en ev s = (s', out) -> length (a_conns s') = length (a_conns s).
Proof.
  intros H. destruct ev as [e type len body|pid envs|ready|fd type len data]; cbn [step] in H.
  - unfold handle_server_cmd in H. destruct (_ || _).
    + destruct (_ || _); [assert (s' = s) by congruence; subst; reflexivity|].
      destruct (type =? MSG_SERVICE_CONNECT).
      * unfold set_conns in H. pose proof (service_connect_grows (cstr (stake (Z.to_nat (len - 9)) (sdrop 8 body))) (u32 body) (u32 (sdrop 4 body)) (m_ebadf e) (a_conns s)) as [G _].
        destruct (service_connect _ _ _ _ _) as [c o]. cbn [fst snd] in *. injection H as <- <-. exact G.
      * pose proof (exec_init_grows en (m_files e) (m_forked e) (m_do e) (message_request type len body) s) as [G _].
        change (mkReq type _ _ _) with (message_request type len body) in H. rewrite H in G. exact G.
    + destruct (type =? MSG_SERVICE_REFUSED); injection H as <- <-; reflexivity.
  - unfold reap in H. destruct (match a_wait s with Some w => pid =? w | None => false end) eqn:Ew.
    + pose proof (run_waiting_grows en envs (a_waiting s) 0 (a_conns s)) as [G _].
      destruct (run_waiting _ _ _ _ _) as [c o]. injection H as <- <-. exact G.
    + unfold set_conns in H. injection H as <- <-. cbn [a_conns]. apply release_length.
  - unfold set_conns in H. injection H as <- <-. cbn [a_conns]. apply poll_length.
  - injection H as <- <-. reflexivity.
Qed.
(** The array for ppoll has room *)
Theorem C105_room en h s space : history en h s -> (length (fill space (a_conns s)) <= 256 + 2)%nat.
Proof.
  intros H. assert (L : length (a_conns s) = 256%nat).
  { clear space. induction H as [|h s ev s' out H IH St Di]; [apply repeat_length|]. rewrite (step_length _ _ _ _ _ St). exact IH. }
  unfold fill. destruct space; cbn [length]; [|lia].
  assert (K : forall l, (length (conn_entries l) <= length l)%nat).
  { induction l as [|[c|] l IH]; cbn [conn_entries length]; [lia| |lia]. destruct (negb _); cbn [length]; lia. }
  specialize (K (a_conns s)). lia.
Qed.

(** ** A case: three connections, one of them of a process of the agent's own (no descriptor), the last
    two with one descriptor each, of which the second is ready *)
Definition ex_conns : list (option connection) :=
  [Some (mkConn 31 (-1) 4 513); None; Some (mkConn (-1) 9 5 515); Some (mkConn (-1) 7 6 517)].
Example ex_pass :
  check_conns (polled (fun w => match w with Conn 7 => true | _ => false end) (fill true ex_conns)) ex_conns =
  Some ([Some (mkConn 31 (-1) 4 513); None; Some (mkConn (-1) 9 5 515); None], [Closed 7; Terminated 6 517]).
Proof. reflexivity. Qed.
(** a whole turn of an agent with a connection to a local client on descriptor 9, which closes it while
    another one connects and the child 44 ends *)
Definition ex_env := mkEnv (mkFiles (fun _ => Exec.LAbsent) (fun _ => None) "") None (mkDo None 1) false.
Definition ex_connect := Message ex_env 514 16 (string_of_list_ascii (map ascii_of_nat [5; 0; 0; 0; 3; 2; 0; 0; 83; 79; 67; 75; 69; 84; 57; 0]%nat)).
Definition ex_turn := mkTurn [(44, fun _ => mkDo None 1)] true (PollDone (fun w => match w with Vchan => false | _ => true end)) [] (10%nat, 3, 4, "abcd").
Example ex_whole : exists h s done s', history true h s /\ one_turn true s ex_turn = (done, Goes s') /\
  done = [[]; [Closed 9; Terminated 5 515]; [Closed 10]].
Proof.
  destruct (step true ex_connect start) as [s out] eqn:E.
  assert (Eo : out = [ParamsTo 9 5 515]).
  { assert (X : snd (step true ex_connect start) = [ParamsTo 9 5 515]) by (vm_compute; reflexivity). rewrite E in X. exact X. }
  assert (Ec : s = mkAgent (put 0 (Some (mkConn (-1) 9 5 515)) (repeat None MAX_FDS)) (repeat None MAX_FDS) None).
  { assert (X : fst (step true ex_connect start) = mkAgent (put 0 (Some (mkConn (-1) 9 5 515)) (repeat None MAX_FDS)) (repeat None MAX_FDS) None) by (vm_compute; reflexivity). rewrite E in X. exact X. }
  exists ([] ++ [(ex_connect, out)]), s. do 2 eexists. split.
  - eapply h_step; [apply h_start|exact E|]. subst out. reflexivity.
  - subst s. split; [vm_compute; reflexivity|reflexivity].
Qed.
