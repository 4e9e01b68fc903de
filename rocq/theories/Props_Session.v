(** C113: calls that wait for a session. The servers of sockets are those of SpecSocket, the
    agent over time is that of SpecMain. *)
From Coq Require Import String Ascii List Bool Arith ZArith Lia.
From Verif Require Import Base Sanitize Exec UnixSocket SpecSocket Props_Socket WaitSession.
From Verif Require Toml Agent SpecMain MainProofs Props_Main.
Import ListNotations.
Open Scope string_scope.
Open Scope list_scope.
Open Scope nat_scope.

(** the user whose session is waited for *)
Definition session_user (m : machine) : string := match m_user m with Some u => u | None => "user" end.
(** a qube with a graphical interface, and no argument *)
Definition graphical (m : machine) : Prop := m_argument m = "" /\ m_dom0 m = false /\ m_gui m = "True".
(** the status: that of the user's systemd; when it reports a failure, the failed units are listed,
    and it is the status of this if it fails as well *)
Definition ends_with (m : machine) (st : nat) : Prop :=
  m_running m = 0 /\ st = 0 \/ m_running m <> 0 /\ m_listing m = 0 /\ st = m_running m \/ m_running m <> 0 /\ m_listing m <> 0 /\ st = m_listing m.
(** after the events [es] there is a server of the user's session *)
Definition served (es : list happens) (u : string) : Prop := exists n, started_last es u n.
Definition short (es : list happens) : Prop := Forall (fun e => String.length (who e) <= 73) es.

Lemma status_spec m st : st = session_status m <-> ends_with m st.
Proof.
  unfold session_status, ends_with. destruct (Nat.eqb_spec (m_running m) 0) as [A|A]; [intuition lia|]. destruct (Nat.eqb_spec (m_listing m) 0) as [B|B]; intuition lia.
Qed.
Lemma file_path m : session_file m = fork_server_path (session_user m).
Proof. reflexivity. Qed.
Lemma only_sockets es : forall fs u, short es -> (fs (fork_server_path u) = None \/ exists n, fs (fork_server_path u) = Some (Socket n)) ->
  after fs es (fork_server_path u) = None \/ exists n, after fs es (fork_server_path u) = Some (Socket n).
Proof.
  induction es as [|e es IH]; intros fs u S H; [exact H|]. inversion S as [|? ? L S']; subst. unfold after in *. cbn [fold_left]. apply IH; [exact S'|].
  destruct (String.string_dec (who e) u) as [E|N]; [|rewrite step_other by assumption; exact H]. subst u.
  destruct e as [ok n v|v]; cbn [who step] in *.
  - unfold get_server_socket. fold (fork_server_address v). rewrite address_short by exact L. rewrite unlink_same.
    destruct H as [E|(m & E)]; rewrite E; (destruct ok; [right; exists n; apply set_same|left; rewrite unlink_same, E; reflexivity]).
  - rewrite unlink_same. destruct H as [E|(m & E)]; rewrite E; auto.
Qed.
Lemma there_served fs es u : short es -> String.length u <= 73 -> (forall v, fs (fork_server_path v) = None) ->
  there MAX_LINKS (after fs es) (fork_server_path u) = true <-> served es u.
Proof.
  intros S L Z. pose proof (fun n => C107_fork_server_partial es fs u n S L Z) as P. rewrite address_short in P by exact L. unfold served. unfold MAX_LINKS. cbn [there].
  destruct (only_sockets es fs u S (or_introl (Z u))) as [E|(n & E)]; rewrite E.
  - split; [discriminate|]. intros (n & H). apply P in H as (k & H). apply leads_inv in H as [(_ & H)|(to & k' & _ & H & _)]; congruence.
  - split; [|reflexivity]. intros _. exists n. apply P. exists 0. constructor. exact E.
Qed.
Lemma after_app fs a b : after fs (a ++ b) = after (after fs a) b.
Proof. apply fold_left_app. Qed.
Lemma short_app a b : short (a ++ b) <-> short a /\ short b.
Proof. apply Forall_app. Qed.
Lemma loop_spec u fs0 : String.length u <= 73 -> (forall v, fs0 (fork_server_path v) = None) -> forall times pre rest, short pre -> short (concat times) ->
  wait_loop (fork_server_path u) (after fs0 pre) times = Some rest <->
  exists a t, times = a ++ t :: rest /\ served (pre ++ concat (a ++ [t])) u /\ forall a1 t1 a2, a = a1 ++ t1 :: a2 -> ~ served (pre ++ concat (a1 ++ [t1])) u.
Proof.
  intros L Z. induction times as [|t times IH]; intros pre rest Sp St.
  - split; [discriminate|]. intros (a & t & E & _). destruct a; discriminate.
  - cbn [concat] in St. apply short_app in St as [S1 S2]. cbn [wait_loop]. cbv zeta. rewrite <- after_app.
    assert (Sp' : short (pre ++ t)) by (apply short_app; auto). pose proof (there_served fs0 (pre ++ t) u Sp' L Z) as T.
    destruct (there MAX_LINKS (after fs0 (pre ++ t)) (fork_server_path u)) eqn:E.
    + split.
      * intros H. assert (rest = times) by congruence. subst rest. exists [], t. split; [reflexivity|]. cbn [app concat]. rewrite app_nil_r. split; [apply T; reflexivity|].
        intros a1 t1 a2 X. destruct a1; discriminate.
      * intros (a & t' & X & _ & N). destruct a as [|t1 a]; cbn [app] in X; [congruence|]. assert (t1 = t) by congruence. subst t1. exfalso. apply (N [] t a eq_refl). cbn [app concat]. rewrite app_nil_r. apply T. reflexivity.
    + rewrite (IH (pre ++ t) rest Sp' S2). split.
      * intros (a & t' & -> & V & N). exists (t :: a), t'. split; [reflexivity|]. cbn [app concat]. rewrite app_assoc. split; [exact V|].
        intros a1 t1 a2 X. destruct a1 as [|b1 a1]; cbn [app concat] in *.
        { assert (t1 = t) by congruence. subst t1. rewrite app_nil_r. intros K. apply T in K. congruence. }
        assert (b1 = t /\ a = a1 ++ t1 :: a2) as [-> X2] by (split; congruence). rewrite app_assoc. apply (N a1 t1 a2 X2).
      * intros (a & t' & X & V & N). destruct a as [|b a]; cbn [app concat] in *.
        { assert (t' = t) by congruence. subst t'. rewrite app_nil_r in V. apply T in V. congruence. }
        assert (b = t /\ times = a ++ t' :: rest) as [-> X2] by (split; congruence). exists a, t'. split; [exact X2|]. split; [rewrite app_assoc in V; exact V|].
        intros a1 t1 a2 ->. specialize (N (t :: a1) t1 a2 eq_refl). cbn [app concat] in N. rewrite app_assoc in N. exact N.
Qed.

(** In a qube with a graphical interface, WaitForSession ends at the first time that it finds a
    server of the default user's session, and not before; then with the status of the user's systemd *)
Theorem C113_waits m fs0 times st rest : graphical m -> String.length (session_user m) <= 73 -> short (concat times) -> (forall v, fs0 (fork_server_path v) = None) ->
  wait_for_session m fs0 times = Some (st, rest) <->
  ends_with m st /\ exists a t, times = a ++ t :: rest /\ served (concat (a ++ [t])) (session_user m) /\
    forall a1 t1 a2, a = a1 ++ t1 :: a2 -> ~ served (concat (a1 ++ [t1])) (session_user m).
Proof.
  intros (A & D & G) L S Z. unfold wait_for_session. rewrite A, D, G. change (String.eqb "" "") with true. change (negb false && String.eqb "True" "True") with true. cbv iota.
  rewrite file_path. pose proof (loop_spec (session_user m) fs0 L Z times [] rest (Forall_nil _) S) as P. cbn [app] in P. unfold after in P at 1. cbn [fold_left] in P. rewrite <- P, <- status_spec.
  destruct (wait_loop _ _ _) as [r|]; cbn [option_map]; split; try discriminate.
  - intros H. assert (session_status m = st /\ r = rest) as [<- ->] by (split; congruence). auto.
  - intros [-> H]. congruence.
  - intros [_ H]. discriminate.
Qed.
(** elsewhere it does not look for a server; with an argument it refuses, but with status 0 *)
Theorem C113_does_not_wait m fs times : ~ graphical m -> exists st, wait_for_session m fs times = Some (st, times) /\ (m_argument m = "" -> ends_with m st) /\ (m_argument m <> "" -> st = 0).
Proof.
  intros N. unfold wait_for_session. destruct (String.eqb_spec (m_argument m) "") as [A|A].
  - destruct (negb (m_dom0 m) && String.eqb (m_gui m) "True") eqn:E.
    + exfalso. apply N. apply andb_prop in E as [E1 E2]. apply negb_true_iff in E1. apply String.eqb_eq in E2. split; [exact A|]. split; assumption.
    + exists (session_status m). split; [reflexivity|]. split; [intros _; apply status_spec; reflexivity|contradiction].
  - exists 0. split; [reflexivity|]. split; [contradiction|reflexivity].
Qed.

(** *** The calls that the agent has held back meanwhile *)
Open Scope Z_scope.
Lemma run_waiting_in en envs : forall ws i conns j q p, nth_error ws j = Some (Some (q, p)) ->
  exists c, incl (snd (Agent.exec_do en (envs (i + j)%nat) q p c)) (snd (Agent.run_waiting en envs i ws conns)).
Proof.
  induction ws as [|w ws IH]; intros i conns j q p H; [destruct j; discriminate|]. destruct j as [|j]; cbn [nth_error] in H.
  - assert (w = Some (q, p)) by congruence. subst w. cbn [Agent.run_waiting]. rewrite Nat.add_0_r. exists conns. destruct (Agent.exec_do en (envs i) q p conns) as [c1 o1]. destruct (Agent.run_waiting en envs (S i) ws c1) as [c2 o2]. cbn [snd]. apply incl_appl, incl_refl.
  - cbn [Agent.run_waiting]. destruct w as [[q0 p0]|].
    + destruct (Agent.exec_do en (envs i) q0 p0 conns) as [c1 o1]. destruct (IH (S i) c1 j q p H) as (c & I). exists c. replace (i + S j)%nat with (S i + j)%nat by lia.
      destruct (Agent.run_waiting en envs (S i) ws c1) as [c2 o2]. cbn [snd] in *. apply incl_appr. exact I.
    + replace (i + S j)%nat with (S i + j)%nat by lia. apply IH. exact H.
Qed.
(** what the agent gets when it connects to the server of the session of a command's user *)
Definition connects (fs : names) (d : Agent.do_env) (p : Agent.prepared) : Prop :=
  forall u, Agent.pr_user p = Some u -> (exists k n, leads fs k (fork_server_address u) n) <-> Agent.d_server d <> None.
(** a command that session servers take (C72) *)
Definition for_server (q : Agent.request) (p : Agent.prepared) : Prop :=
  Z.of_nat (String.length (Agent.q_cmdline q)) <= 65534 /\ (exists u t, Agent.q_cmdline q = u +++ ":" +++ t) /\ pc_nogui (Agent.pr_cmd p) = false /\
  Toml.cf_send_service_descriptor (Agent.pr_config p) = true /\ Toml.cf_exit_on_stdin_eof (Agent.pr_config p) = false /\ Toml.cf_exit_on_stdout_eof (Agent.pr_config p) = false.

Lemma do_served d q p conns fd : for_server q p -> Agent.d_server d = Some fd -> exists text, In (Agent.HandedOver fd q p text) (snd (Agent.exec_do true d q (Some p) conns)).
Proof.
  intros (L & (u & t & C) & N & D & I & O) S. unfold Agent.exec_do, Toml.qrexec_cmd_use_fork_server, Agent.fork_server_tried, Agent.MAX_QREXEC_CMD_LEN, zlen.
  assert (Hc : has_char ":" (Agent.q_cmdline q) = true) by (rewrite C, has_char_app; cbn; apply orb_true_r).
  assert (Hl : Z.of_nat (String.length (Agent.q_cmdline q)) + 1 >? 65535 = false) by lia.
  rewrite N, D, I, O, Hc, Hl, S. cbn [negb andb]. eexists. destruct (Agent.register _ _ _ _ _) as [c o]. cbn [snd]. left. reflexivity.
Qed.
Lemma do_unserved d q p conns : Agent.d_server d = None -> In (Agent.Started (Agent.d_pid d) q p) (snd (Agent.exec_do true d q p conns)).
Proof.
  intros S. unfold Agent.exec_do. rewrite S. match goal with |- context [if ?x then None else None] => destruct x end; (destruct (Agent.register _ _ _ _ _) as [c o]; cbn [snd]; left; reflexivity).
Qed.

(** When the waiting process was WaitForSession in a qube with a graphical interface, and no session
    server of the default user has ended or been started since it looked for the last time, a call
    held back that is for this user is handed over to the server of the session *)
Theorem C113_finds_session_partial h s w envs m fs0 times st rest i q p :
  SpecMain.history true h s -> SpecMain.waiting_process h = Some w -> nth_error (Agent.a_waiting s) i = Some (Some (q, Some p)) ->
  graphical m -> (String.length (session_user m) <= 73)%nat -> short (concat times) -> (forall v, fs0 (fork_server_path v) = None) ->
  wait_for_session m fs0 times = Some (st, rest) -> (forall e, In e (concat rest) -> who e <> session_user m) ->
  Agent.pr_user p = Some (session_user m) -> for_server q p -> connects (after fs0 (concat times)) (envs i) p ->
  exists fd text n k, In (Agent.HandedOver fd q p text) (snd (Agent.step true (Agent.Reaped w envs) s)) /\ Agent.d_server (envs i) = Some fd /\
    leads (after fs0 (concat times)) k (fork_server_address (session_user m)) n /\ started_last (concat times) (session_user m) n.
Proof.
  intros H Hw Hi G L S Z W Q Pu F C. specialize (C _ Pu). apply (C113_waits m fs0 times st rest G L S Z) in W as (_ & a & t & E & (n & V) & _).
  assert (V' : started_last (concat times) (session_user m) n).
  { destruct V as (x & y & V & N). exists x, (y ++ concat rest). split.
    - rewrite E. replace (a ++ t :: rest)%list with ((a ++ [t]) ++ rest)%list by (rewrite <- app_assoc; reflexivity). rewrite concat_app, V, <- app_assoc. reflexivity.
    - intros e He. apply in_app_or in He as [He|He]; [apply N|apply Q]; exact He. }
  pose proof (proj2 (C107_fork_server_partial (concat times) fs0 (session_user m) n S L Z) V') as (k & K).
  destruct (Agent.d_server (envs i)) as [fd|] eqn:D; [|exfalso; apply (proj1 C); eauto].
  destruct (MainProofs.history_inv _ _ _ H) as (_ & A & _). rewrite Hw in A.
  destruct (run_waiting_in true envs (Agent.a_waiting s) 0 (Agent.a_conns s) i q (Some p) Hi) as (c & I). cbn [Nat.add] in I.
  destruct (do_served (envs i) q p c fd F D) as (text & T).
  exists fd, text, n, k. split; [|split; [reflexivity|split; assumption]]. cbn [Agent.step]. unfold Agent.reap. rewrite A, Z.eqb_refl.
  apply I in T. destruct (Agent.run_waiting _ _ _ _ _) as [c2 o2]. exact T.
Qed.
(** A call for another user is carried out without any session of this user, however WaitForSession
    was told of him *)
Definition alone (m : machine) : Prop := graphical m /\ session_user m = "user" /\ m_input m = "alice" +++ str1 "010".
Theorem C113_other_user_refuted m st : alone m -> ends_with m st -> exists h s q p envs,
  SpecMain.history true h s /\ SpecMain.waiting_process h = Some 99 /\ (exists i, nth_error (Agent.a_waiting s) i = Some (Some (q, Some p))) /\
  (exists pid src o1 o2, flat_map snd h = o1 ++ Agent.WaitStarted pid (Some "alice") src :: o2) /\
  Agent.pr_user p = Some "alice" /\ for_server q p /\
  (forall fs0, (forall v, fs0 (fork_server_path v) = None) ->
    wait_for_session m fs0 [[Starts true 1 "user"]] = Some (st, []) /\ forall i, connects (after fs0 [Starts true 1 "user"]) (envs i) p) /\
  exists pid, In (Agent.Started pid q (Some p)) (snd (Agent.step true (Agent.Reaped 99 envs) s)).
Proof.
  intros (G & U & _) St. set (h := fst (Props_Main.play true (firstn 2 Props_Main.two_users) [] Agent.start)). set (s := snd (Props_Main.play true (firstn 2 Props_Main.two_users) [] Agent.start)).
  destruct (nth_error (Agent.a_waiting s) 0) as [[[q [p|]]|]|] eqn:E; try (vm_compute in E; discriminate).
  exists h, s, q, p, (fun _ => Agent.mkDo None 50). split; [apply Props_Main.play_history; [constructor|vm_compute; reflexivity]|].
  assert (V : q = Agent.mkReq 512 1 2 "alice:QUBESRPC q.S dom1" /\ Agent.pr_user p = Some "alice" /\ pc_nogui (Agent.pr_cmd p) = false /\
    Toml.cf_send_service_descriptor (Agent.pr_config p) = true /\ Toml.cf_exit_on_stdin_eof (Agent.pr_config p) = false /\ Toml.cf_exit_on_stdout_eof (Agent.pr_config p) = false).
  { vm_compute in E. injection E as <- <-. vm_compute. repeat split. }
  destruct V as (Vq & Vu & V). split; [vm_compute; reflexivity|]. split; [exists 0%nat; exact E|].
  split.
  { destruct (flat_map snd h) as [|x [|y [|z l]]] eqn:Eh; try (vm_compute in Eh; discriminate).
    assert (Ey : y = Agent.WaitStarted 99 (Some "alice") (Some "dom1")) by (vm_compute in Eh; congruence). exists 99, (Some "dom1"), [x], []. rewrite Ey. reflexivity. }
  split; [exact Vu|]. split; [rewrite Vq; split; [vm_compute; discriminate|]; split; [exists "alice", "QUBESRPC q.S dom1"; reflexivity|exact V]|].
  split.
  - intros fs0 Z. assert (Sh : short (concat [[Starts true 1 "user"]])) by (repeat constructor; vm_compute; repeat constructor). split.
    + apply C113_waits; [exact G|rewrite U; vm_compute; repeat constructor|exact Sh|exact Z|]. split; [exact St|]. exists [], [Starts true 1 "user"]. split; [reflexivity|]. rewrite U. split.
      * exists 1%nat, [], []. split; [reflexivity|intros e []].
      * intros a1 t1 a2 X. destruct a1; discriminate.
    + intros i u Eu. rewrite Vu in Eu. assert (u = "alice") by congruence. subst u. split; [|intros X; exfalso; apply X; reflexivity]. intros (k & n & K). exfalso. assert (X : started_last [Starts true 1 "user"] "alice" n).
      { apply (C107_fork_server_partial [Starts true 1 "user"] fs0 "alice" n Sh); [vm_compute; repeat constructor|exact Z|eauto]. }
      destruct X as (a & b & X & _). destruct a as [|x a]; [|destruct a; discriminate]. cbn [app] in X. assert ("user" = "alice") by congruence. discriminate.
  - exists 50. destruct (run_waiting_in true (fun _ => Agent.mkDo None 50) (Agent.a_waiting s) 0 (Agent.a_conns s) 0 q (Some p) E) as (c & I).
    assert (T := do_unserved (Agent.mkDo None 50) q (Some p) c eq_refl). apply I in T. cbn [Agent.step]. unfold Agent.reap.
    replace (Agent.a_wait s) with (Some 99) by (vm_compute; reflexivity). rewrite Z.eqb_refl. destruct (Agent.run_waiting _ _ _ _ _) as [c2 o2]. exact T.
Qed.
(** A file that is there is enough: a socket at which nobody listens (yet, or any more) ends the
    waiting, although no server can be reached *)
Theorem C113_listens_refuted m fs u : graphical m -> session_user m = u -> (String.length u <= 73)%nat ->
  fs (fork_server_path u) = Some Other -> (exists st, wait_for_session m fs [[]] = Some (st, [])) /\ forall k n, ~ leads fs k (fork_server_address u) n.
Proof.
  intros (A & D & G) U L E. split.
  - exists (session_status m). unfold wait_for_session. rewrite A, D, G. change (String.eqb "" "") with true. change (negb false && String.eqb "True" "True") with true. cbv iota.
    rewrite file_path, U. cbn [wait_loop]. unfold after. cbn [fold_left]. unfold MAX_LINKS. cbn [there]. rewrite E. reflexivity.
  - intros k n H. rewrite address_short in H by exact L. apply leads_inv in H as [(_ & H)|(to & k' & _ & H & _)]; congruence.
Qed.

(** the hypotheses of C113_finds_session_partial are met: alice is the default user, and her
    session's server is started while WaitForSession waits *)
Definition ex_machine : machine := mkMachine "" false "True" (Some "alice") ("alice" +++ str1 "010") 0 0.
Definition ex_times : list (list happens) := [[Starts true 1 "root"]; [Starts true 2 "alice"]; [Ends "root"]].
Example C113_example : exists q p, let h := fst (Props_Main.play true (firstn 2 Props_Main.two_users) [] Agent.start) in let s := snd (Props_Main.play true (firstn 2 Props_Main.two_users) [] Agent.start) in
  SpecMain.history true h s /\ SpecMain.waiting_process h = Some 99 /\ nth_error (Agent.a_waiting s) 0 = Some (Some (q, Some p)) /\
  graphical ex_machine /\ short (concat ex_times) /\ wait_for_session ex_machine (fun _ => None) ex_times = Some (0%nat, [[Ends "root"]]) /\
  Agent.pr_user p = Some (session_user ex_machine) /\ for_server q p /\
  connects (after (fun _ => None) (concat ex_times)) (Agent.mkDo (Some 7) 50) p.
Proof.
  set (h := fst (Props_Main.play true (firstn 2 Props_Main.two_users) [] Agent.start)). set (s := snd (Props_Main.play true (firstn 2 Props_Main.two_users) [] Agent.start)).
  destruct (nth_error (Agent.a_waiting s) 0) as [[[q [p|]]|]|] eqn:E; try (vm_compute in E; discriminate). exists q, p. cbv zeta. fold h s.
  split; [apply Props_Main.play_history; [constructor|vm_compute; reflexivity]|].
  assert (V : q = Agent.mkReq 512 1 2 "alice:QUBESRPC q.S dom1" /\ Agent.pr_user p = Some "alice" /\ pc_nogui (Agent.pr_cmd p) = false /\
    Toml.cf_send_service_descriptor (Agent.pr_config p) = true /\ Toml.cf_exit_on_stdin_eof (Agent.pr_config p) = false /\ Toml.cf_exit_on_stdout_eof (Agent.pr_config p) = false).
  { vm_compute in E. injection E as <- <-. vm_compute. repeat split. }
  destruct V as (Vq & Vu & V). split; [vm_compute; reflexivity|]. split; [exact E|]. split; [repeat split|].
  assert (Sh : short (concat ex_times)) by (repeat constructor; vm_compute; repeat constructor). split; [exact Sh|].
  split; [vm_compute; reflexivity|]. split; [exact Vu|]. split; [rewrite Vq; split; [vm_compute; discriminate|]; split; [exists "alice", "QUBESRPC q.S dom1"; reflexivity|exact V]|].
  intros u Eu. rewrite Vu in Eu. assert (u = "alice") by congruence. subst u. split; [intros _ X; discriminate X|]. intros _.
  exists 0%nat, 2%nat. constructor. vm_compute. reflexivity.
Qed.

Open Scope nat_scope.
(** ** Links *)
(** [follows fs k p q]: after following [k] links, the name [p] is the name [q] *)
Inductive follows (fs : names) : nat -> string -> string -> Prop :=
| follows_none p : follows fs 0 p p
| follows_root p to k q : fs p = Some (Link ("/" +++ to)) -> follows fs k ("/" +++ to) q -> follows fs (S k) p q
| follows_beside d x to k q : fs (d +++ "/" +++ x) = Some (Link to) -> (forall a b, x <> a +++ "/" +++ b) -> starts "/" to = false ->
    follows fs k (d +++ "/" +++ to) q -> follows fs (S k) (d +++ "/" +++ x) q
| follows_plain x to k q : fs x = Some (Link to) -> (forall a b, x <> a +++ "/" +++ b) -> starts "/" to = false ->
    follows fs k to q -> follows fs (S k) x q.
(** something that is no link is there, behind at most 40 links *)
Definition present (fs : names) (p : string) : Prop :=
  exists k q e, k <= 40 /\ follows fs k p q /\ fs q = Some e /\ forall to, e <> Link to.

Lemma follows_step fs p to k q : fs p = Some (Link to) -> follows fs k (if starts "/" to then to else dir_of p +++ to) q -> follows fs (S k) p q.
Proof.
  intros E H. destruct (starts "/" to) eqn:St.
  - apply starts_spec in St as (r & ->). exact (follows_root fs p r k q E H).
  - destruct (last_slash p) as [m|] eqn:L.
    + destruct (last_slash_split p m L) as (d & x & -> & _ & Nx). rewrite dir_of_split in H by exact Nx. rewrite app_assoc_s in H. eapply follows_beside; eassumption.
    + unfold dir_of in H. rewrite L in H. eapply follows_plain; [exact E| |exact St|exact H]. apply last_slash_None. exact L.
Qed.
Lemma follows_inv fs k p q : follows fs k p q ->
  (k = 0 /\ p = q) \/ exists to k', k = S k' /\ fs p = Some (Link to) /\ follows fs k' (if starts "/" to then to else dir_of p +++ to) q.
Proof.
  intros H. destruct H as [p|p to k q E H|d x to k q E Nx St H|x to k q E Nx St H].
  - left. auto.
  - right. exists ("/" +++ to), k. split; [reflexivity|]. split; [exact E|]. rewrite (proj2 (starts_spec "/" ("/" +++ to)) (ex_intro _ to eq_refl)). exact H.
  - right. exists to, k. split; [reflexivity|]. split; [exact E|]. rewrite St, dir_of_split by exact Nx. rewrite app_assoc_s. exact H.
  - right. exists to, k. split; [reflexivity|]. split; [exact E|]. rewrite St. unfold dir_of. rewrite (proj2 (last_slash_None x)) by exact Nx. exact H.
Qed.
Lemma there_follows fs : forall fuel p, there fuel fs p = true <-> exists k q e, k <= fuel /\ follows fs k p q /\ fs q = Some e /\ forall to, e <> Link to.
Proof.
  induction fuel as [|fuel IH]; intros p; cbn [there].
  - split.
    + destruct (fs p) as [[n|to| |]|] eqn:E; try discriminate; intros _; exists 0, p; eexists; (split; [lia|]); (split; [constructor|]); (split; [exact E|discriminate]).
    + intros (k & q & e & Hk & F & E & N). apply follows_inv in F as [[_ ->]|(to & k' & -> & _)]; [|lia]. rewrite E. destruct e; try reflexivity. now destruct (N to).
  - destruct (fs p) as [[n|to| |]|] eqn:E.
    + split; [intros _|reflexivity]. exists 0, p, (Socket n). split; [lia|]. split; [constructor|]. split; [exact E|discriminate].
    + rewrite IH. split.
      * intros (k & q & e & Hk & F & Q). exists (S k), q, e. split; [lia|]. split; [exact (follows_step _ _ _ _ _ E F)|exact Q].
      * intros (k & q & e & Hk & F & Eq & N). apply follows_inv in F as [[_ ->]|(to' & k' & -> & E' & F)].
        -- assert (e = Link to) by congruence. now destruct (N to).
        -- assert (to' = to) by congruence. subst to'. exists k', q, e. split; [lia|]. auto.
    + split; [intros _|reflexivity]. exists 0, p, Dir. split; [lia|]. split; [constructor|]. split; [exact E|discriminate].
    + split; [intros _|reflexivity]. exists 0, p, Other. split; [lia|]. split; [constructor|]. split; [exact E|discriminate].
    + split; [discriminate|]. intros (k & q & e & Hk & F & Eq & N). apply follows_inv in F as [[_ ->]|(to' & k' & -> & E' & F)]; congruence.
Qed.
(** In whatever state the directory is, and whatever happens there: the script ends at the first time that it
    looks and something is there, under the name of the user's socket *)
Theorem C113_first_time_there m fs times st rest : graphical m ->
  wait_for_session m fs times = Some (st, rest) <->
  ends_with m st /\ exists a t, times = a ++ t :: rest /\
    present (after fs (concat (a ++ [t]))) ("/var/run/qubes/qrexec-server." +++ session_user m +++ ".sock") /\
    forall a1 t1 a2, a = a1 ++ t1 :: a2 -> ~ present (after fs (concat (a1 ++ [t1]))) ("/var/run/qubes/qrexec-server." +++ session_user m +++ ".sock").
Proof.
  intros (Ga & Gd & Gg). unfold wait_for_session. rewrite Ga, Gd, Gg. change (String.eqb "" "") with true. change (negb false && String.eqb "True" "True")%bool with true.
  cbv iota.
  change ("/var/run/qubes/qrexec-server." +++ session_user m +++ ".sock") with (session_file m). set (path := session_file m).
  assert (L : forall times fs rest, wait_loop path fs times = Some rest <->
    exists a t, times = a ++ t :: rest /\ present (after fs (concat (a ++ [t]))) path /\ forall a1 t1 a2, a = a1 ++ t1 :: a2 -> ~ present (after fs (concat (a1 ++ [t1]))) path).
  { clear. induction times as [|t times IH]; intros fs rest; cbn [wait_loop].
    - split; [discriminate|]. intros (a & t & E & _). destruct a; discriminate.
    - cbv zeta. assert (T : there MAX_LINKS (after fs t) path = true <-> present (after fs t) path) by apply there_follows.
      destruct (there MAX_LINKS (after fs t) path) eqn:Th.
      + split.
        * intros E. exists [], t. split; [cbn [List.app]; congruence|]. cbn [List.app concat]. rewrite app_nil_r. split; [apply T; reflexivity|]. intros a1 t1 a2 E'. destruct a1; discriminate.
        * intros (a & t' & E & _ & N). destruct a as [|t0 a]; [cbn [List.app] in E; congruence|].
          exfalso. apply (N [] t0 a eq_refl). cbn [List.app concat]. rewrite app_nil_r. assert (t0 = t) by (cbn [List.app] in E; congruence). subst t0. apply T. reflexivity.
      + rewrite IH. split.
        * intros (a & t' & -> & P & N). exists (t :: a), t'. split; [reflexivity|]. cbn [List.app concat]. rewrite after_app. split; [exact P|].
          intros a1 t1 a2 E. destruct a1 as [|x a1]; cbn [List.app] in E.
          -- assert (t1 = t) by congruence. subst t1. cbn [List.app concat]. rewrite app_nil_r. intros Q. apply T in Q. discriminate Q.
          -- assert (x = t) by congruence. subst x. cbn [List.app concat]. rewrite after_app. apply (N a1 t1 a2). congruence.
        * intros (a & t' & E & P & N). destruct a as [|x a]; cbn [List.app] in E.
          -- assert (t' = t) by congruence. subst t'. cbn [List.app concat] in P. rewrite app_nil_r in P. apply T in P. discriminate P.
          -- assert (x = t) by congruence. subst x. exists a, t'. split; [congruence|]. cbn [List.app concat] in P. rewrite after_app in P. split; [exact P|].
             intros a1 t1 a2 ->. specialize (N (t :: a1) t1 a2 eq_refl). cbn [List.app concat] in N. rewrite after_app in N. exact N. }
  specialize (L times fs rest). rewrite <- L, <- (status_spec m st).
  destruct (wait_loop path fs times) as [r|]; cbn [option_map]; split.
  - intros E. split; congruence.
  - intros [-> E]. congruence.
  - discriminate.
  - intros [_ E]. discriminate.
Qed.
(** a link to a socket in another directory *)
Definition ex_linked : names := fun p =>
  if String.eqb p "/var/run/qubes/qrexec-server.alice.sock" then Some (Link "user/alice") else if String.eqb p "/var/run/qubes/user/alice" then Some (Socket 3) else None.
Example C113_links : present ex_linked "/var/run/qubes/qrexec-server.alice.sock" /\ wait_for_session ex_machine ex_linked [[]] = Some (0, []).
Proof.
  split; [|vm_compute; reflexivity]. apply (there_follows ex_linked 40). vm_compute. reflexivity.
Qed.
