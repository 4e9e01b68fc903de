(** C95: a call that cannot be started is reported to its caller *)
From Coq Require Import String Ascii List Bool Arith ZArith Lia.
From Verif Require Import Base Io Stream SpecStream ProcessIo SpecPio StreamProofs ProcessIoProofs PioProofs Props_Pio Spawn SpecSpawn SpawnProofs.
From Verif Require Import RemoteProofs.
From Verif Require Exec SpecExec SpecLookup Props_Exec Toml Agent.
Import ListNotations.
Open Scope string_scope.
Open Scope list_scope.
Open Scope Z_scope.

(** What the caller must be sent: both streams end, then the exit code *)
Definition told (code : Z) : list message := [(MSG_DATA_STDOUT, []); (MSG_DATA_STDERR, []); (MSG_DATA_EXIT_CODE, enc32 code)].
Definition told_by_dom0 (code : Z) : list message := [(MSG_DATA_STDERR, []); (MSG_DATA_STDOUT, []); (MSG_DATA_EXIT_CODE, enc32 code)].

(** ** Commands for a qube *)

(** exactly the calls that can be started are served *)
Theorem C95_started m dirs k line : services_in m dirs -> works k ->
  (forall st p, agent_serve m k 512 line = Serves st p ->
     exists command c greet user, asks m false line command c greet user /\ can_start m dirs command greet user c st) /\
  (forall command c greet user st, asks m false line command c greet user -> (forall c', c = Some c' -> short_paths m dirs c') ->
     can_start m dirs command greet user c st -> exists p, agent_serve m k 512 line = Serves st p).
Proof.
  intros HP (K1 & K2). unfold agent_serve. rewrite K1, K2. cbn [andb negb]. change (512 =? Agent.MSG_JUST_EXEC) with false. change (512 =? Agent.MSG_EXEC_CMDLINE) with true. cbv iota zeta.
  split.
  - intros st p. destruct (Agent.prepare (m_files m) line) as [p'|] eqn:E; [|discriminate].
    destruct (execute_parsed m p') as [st'|] eqn:Ex; [|discriminate]. intros H. injection H as -> ->.
    apply agent_asks_sound in E as (command & c & greet & user & A & (A1 & <- & <- & <-)).
    do 4 eexists. split; [exact A|]. eapply execute_sound; eassumption.
  - intros command c greet user st A S H. apply agent_asks_complete in A as (p & E & (A1 & <- & <- & <-)).
    exists p. rewrite E. rewrite (execute_complete m dirs p c st HP A1 S H). reflexivity.
Qed.

(** all others are answered: 127 when the machine has no such service, 125 otherwise *)
Theorem C95_agent_tells m dirs k line : services_in m dirs -> works k ->
  (exists st p, agent_serve m k 512 line = Serves st p) \/
  exists code, agent_serve m k 512 line = Ends code (firstn (k_takes k) (wire (told code))) /\ (code = 127 \/ code = 125) /\
    (code = 127 -> exists command c greet user, asks m false line command (Some c) greet user /\ not_installed m dirs c) /\
    (forall command c greet user, asks m false line command (Some c) greet user -> short_paths m dirs c -> not_installed m dirs c -> code = 127).
Proof.
  intros HP (K1 & K2). unfold agent_serve. rewrite K1, K2. cbn [andb negb]. change (512 =? Agent.MSG_JUST_EXEC) with false. change (512 =? Agent.MSG_EXEC_CMDLINE) with true. cbv iota zeta.
  destruct (Agent.prepare (m_files m) line) as [p|] eqn:E.
  - destruct (execute_parsed m p) as [st|status] eqn:Ex; [left; eauto|right].
    exists (if status =? -1 then EXIT_SERVICE_NOT_FOUND else EXIT_PROBLEM).
    split; [reflexivity|]. split; [destruct (status =? -1); auto|].
    destruct (agent_asks_sound m line p E) as (command & c & greet & user & A & (A1 & _)).
    destruct (execute_absent m dirs p c HP A1) as [H1 H2]. split.
    + destruct (Z.eqb_spec status (-1)) as [->|N]; [|discriminate]. intros _. destruct (H1 Ex) as (c' & -> & N). eauto 8.
    + intros command' c' greet' user' A' S N. destruct (asks_fun _ _ _ _ _ _ _ _ _ _ _ A A') as (_ & -> & _).
      rewrite (H2 c' eq_refl S N) in Ex. injection Ex as <-. reflexivity.
  - right. exists EXIT_PROBLEM. split; [reflexivity|]. split; [auto|]. split; [discriminate|].
    intros command c greet user A _ _. apply agent_asks_complete in A as (p & E' & _). congruence.
Qed.

(** calls nobody waits for: the code is 0 exactly if the call was started *)
Theorem C95_just_exec m dirs k line : services_in m dirs -> works k ->
  exists code, agent_serve m k 513 line = Ends (if (length (wire [(MSG_DATA_EXIT_CODE, enc32 code)]) <=? k_takes k)%nat then 0 else 1)
                                     (firstn (k_takes k) (wire [(MSG_DATA_EXIT_CODE, enc32 code)])) /\
    (code = 0 \/ code = 127 \/ code = 125) /\
    (code = 0 -> exists command c greet user st, asks m false line command c greet user /\ can_start m dirs command greet user c st /\
       (m_writes m = true \/ exists prog, st = OnProcess prog command user)) /\
    (forall command c greet user st, asks m false line command c greet user -> (forall c', c = Some c' -> short_paths m dirs c') ->
       can_start m dirs command greet user c st -> m_writes m = true \/ (exists prog, st = OnProcess prog command user) -> code = 0) /\
    (code = 127 -> exists command c greet user, asks m false line command (Some c) greet user /\ not_installed m dirs c) /\
    (forall command c greet user, asks m false line command (Some c) greet user -> short_paths m dirs c -> not_installed m dirs c -> code = 127).
Proof.
  intros HP (K1 & K2). unfold agent_serve. rewrite K1, K2. cbn [andb negb]. change (513 =? Agent.MSG_JUST_EXEC) with true. cbv iota zeta.
  exists (handle_just_exec m (Agent.prepare (m_files m) line)).
  split; [unfold wire, frame, all_put, put, exit_code_msg; cbn [map concat fst snd]; rewrite app_nil_r; reflexivity|].
  destruct (Agent.prepare (m_files m) line) as [p|] eqn:E.
  2:{ cbn [handle_just_exec]. split; [auto|]. split; [discriminate|]. split; [|split; [discriminate|]].
      - intros command c greet user st A. apply agent_asks_complete in A as (p & E' & _). congruence.
      - intros command c greet user A. apply agent_asks_complete in A as (p & E' & _). congruence. }
  destruct (agent_asks_sound m line p E) as (command & c & greet & user & A & (A1 & <- & <- & <-)).
  assert (J : handle_just_exec m (Some p) =
              match execute_parsed m p with inl (OnSocket _) => if m_writes m then 0 else 125 | inl (OnProcess _ _ _) => 0
              | inr status => if status =? -1 then 127 else 125 end).
  { cbn [handle_just_exec]. unfold execute_parsed, do_fork_exec.
    destruct (Exec.pc_descriptor (Agent.pr_cmd p)) as [d|]; [destruct (Exec.pc_name (Agent.pr_cmd p)) as [n|]|]; try (destruct (m_forks m); reflexivity).
    destruct (the_service m p d n); try (destruct (m_forks m); reflexivity); try (destruct (m_connects m); reflexivity); reflexivity. }
  rewrite J. clear J.
  destruct (execute_absent m dirs p c HP A1) as [H1 H2].
  split; [destruct (execute_parsed m p) as [[s|? ? ?]|status]; [destruct (m_writes m)| |destruct (status =? -1)]; auto|].
  split; [|split; [|split]].
  - intros Hz. destruct (execute_parsed m p) as [st|status] eqn:Ex; [|destruct (status =? -1); discriminate Hz].
    pose proof (execute_sound m dirs p c st HP A1 Ex) as Hc.
    do 5 eexists. split; [exact A|]. split; [exact Hc|]. inversion Hc; subst; eauto; left; destruct (m_writes m); auto; discriminate Hz.
  - intros command' c' greet' user' st A' S Hc Hw. destruct (asks_fun _ _ _ _ _ _ _ _ _ _ _ A A') as (<- & <- & <- & <-).
    rewrite (execute_complete m dirs p c st HP A1 S Hc). destruct Hw as [Hw|(prog & ->)]; [|reflexivity]. rewrite Hw. destruct st; reflexivity.
  - destruct (execute_parsed m p) as [[s|? ? ?]|status] eqn:Ex; [destruct (m_writes m); discriminate|discriminate|].
    destruct (Z.eqb_spec status (-1)) as [->|N]; [|discriminate]. intros _. destruct (H1 eq_refl) as (c' & -> & N). eauto 8.
  - intros command' c' greet' user' A' S N. destruct (asks_fun _ _ _ _ _ _ _ _ _ _ _ A A') as (_ & -> & _).
    rewrite (H2 c' eq_refl S N). reflexivity.
Qed.

(** ** Calls to dom0 *)
Theorem C95_dom0_started m dirs k line : services_in m dirs -> works k ->
  (forall st p, run_qrexec_to_dom0 m k line = Serves st p ->
     exists command c greet user, asks m true line command c greet user /\ can_start m dirs command greet user c st) /\
  (forall command c greet user st, asks m true line command c greet user -> (forall c', c = Some c' -> short_paths m dirs c') ->
     can_start m dirs command greet user c st -> exists p, run_qrexec_to_dom0 m k line = Serves st p).
Proof.
  intros HP (K1 & K2). unfold run_qrexec_to_dom0, handshake_and_go. rewrite K1, K2. cbn [andb negb]. cbv iota zeta.
  split.
  - intros st p. destruct (Exec.parse_qubes_rpc_command line false) as [cmd|] eqn:Ep; [|discriminate].
    destruct (dom0_prepare m cmd) as [p'|] eqn:E; [|discriminate].
    destruct (execute_parsed m p') as [st'|] eqn:Ex; [|discriminate]. intros H. injection H as -> ->.
    destruct (dom0_asks_sound m line cmd p Ep E) as (command & c & greet & user & A & (A1 & <- & <- & <-)).
    do 4 eexists. split; [exact A|]. eapply execute_sound; eassumption.
  - intros command c greet user st A S H. apply dom0_asks_complete in A as (cmd & p & Ep & E & (A1 & <- & <- & <-)).
    exists p. rewrite Ep, E. rewrite (execute_complete m dirs p c st HP A1 S H). reflexivity.
Qed.
(** every command line that can be understood is served or answered *)
Theorem C95_dom0_tells_partial m dirs k line user0 nogui0 command0 c0 : services_in m dirs -> works k ->
  SpecExec.line_means false line user0 nogui0 command0 c0 ->
  (exists st p, run_qrexec_to_dom0 m k line = Serves st p) \/
  exists code, run_qrexec_to_dom0 m k line = Ends code (firstn (k_takes k) (wire (told_by_dom0 code))) /\ (code = 127 \/ code = 125) /\
    (code = 127 -> exists command c greet user, asks m true line command (Some c) greet user /\ not_installed m dirs c) /\
    (forall command c greet user, asks m true line command (Some c) greet user -> short_paths m dirs c -> not_installed m dirs c -> code = 127).
Proof.
  intros HP (K1 & K2) HL. unfold run_qrexec_to_dom0, handshake_and_go. rewrite K1, K2. cbn [andb negb]. cbv iota zeta.
  destruct (means_parse _ _ _ _ _ _ HL) as (cmd & Ep & _). rewrite Ep.
  destruct (dom0_prepare m cmd) as [p|] eqn:E.
  - destruct (execute_parsed m p) as [st|status] eqn:Ex; [left; eauto|right].
    exists (if status =? -1 then EXIT_SERVICE_NOT_FOUND else EXIT_PROBLEM).
    split; [reflexivity|]. split; [destruct (status =? -1); auto|].
    destruct (dom0_asks_sound m line cmd p Ep E) as (command & c & greet & user & A & (A1 & _)).
    destruct (execute_absent m dirs p c HP A1) as [H1 H2]. split.
    + destruct (Z.eqb_spec status (-1)) as [->|N]; [|discriminate]. intros _. destruct (H1 Ex) as (c' & -> & N). eauto 8.
    + intros command' c' greet' user' A' S N. destruct (asks_fun _ _ _ _ _ _ _ _ _ _ _ A A') as (_ & -> & _).
      rewrite (H2 c' eq_refl S N) in Ex. injection Ex as <-. reflexivity.
  - right. exists EXIT_PROBLEM. split; [reflexivity|]. split; [auto|]. split; [discriminate|].
    intros command c greet user A _ _. apply dom0_asks_complete in A as (cmd' & p & Ep' & E' & _). congruence.
Qed.
(** a connection that fails: nobody is told anything, and the process says so *)
Theorem C95_no_connection m k type line : ~ works k ->
  agent_serve m k type line = Ends 1 [] /\ run_qrexec_to_dom0 m k line = Ends 125 [].
Proof.
  intros N. assert (E : (k_open k && k_hello k = false)%bool).
  { destruct (k_open k) eqn:A, (k_hello k) eqn:B; auto. exfalso. apply N. split; assumption. }
  split.
  - unfold agent_serve. rewrite E. reflexivity.
  - unfold run_qrexec_to_dom0, handshake_and_go. destruct (k_open k) eqn:A; [|reflexivity]. cbn [negb]. cbv iota zeta. cbn [andb] in E. rewrite E. cbn [andb negb]. cbv iota.
    destruct (Exec.parse_qubes_rpc_command line false) as [cmd|]; [|reflexivity]. destruct (dom0_prepare m cmd) as [p|]; [|reflexivity].
    destruct (execute_parsed m p); reflexivity.
Qed.

(** ** The caller *)

(** Whatever part of the answer arrives, the caller returns that code, or -1 if it has not
    got it; and if all arrives it returns the code, whatever the schedule *)
Theorem C95_caller_returns cl ok n before code ecs sc wait : sensible cl -> service (en_cfg cl) = false -> (4 <= c_max (pc_rx (en_cfg cl)))%nat ->
  0 < code < 256 -> before = [] \/ before = [(MSG_DATA_STDOUT, []); (MSG_DATA_STDERR, [])] \/ before = [(MSG_DATA_STDERR, []); (MSG_DATA_STDOUT, [])] ->
  en_run cl ok (firstn n (wire (before ++ [(MSG_DATA_EXIT_CODE, enc32 code)]))) ecs = PDone sc -> no_poll_error ecs ->
  (pio_return (en_cfg cl) wait sc = code \/ pio_return (en_cfg cl) wait sc = -1) /\
  ((length (wire (before ++ [(MSG_DATA_EXIT_CODE, enc32 code)])) <= n)%nat -> pio_return (en_cfg cl) wait sc = code).
Proof.
  intros Hc Ec H4 Hcode Hb Hrun Hpe. set (ms := before ++ [(MSG_DATA_EXIT_CODE, enc32 code)]) in *.
  assert (Hn : no_exit before) by (destruct Hb as [->|[->| ->]]; intros q Hq; cbn [In] in Hq; repeat (destruct Hq as [Hq|Hq]; [apply (f_equal fst) in Hq; discriminate Hq|]); exact Hq).
  assert (Hs : Forall (sendable (c_max (pc_rx (en_cfg cl)))) ms).
  { apply Forall_app; split; [|constructor; [apply exit_sendable; lia|constructor]].
    assert (Sd : forall ty, 0 <= ty < 4294967296 -> sendable (c_max (pc_rx (en_cfg cl))) (ty, [])) by (intros ty Ht; unfold sendable; cbn [fst snd length]; auto with zarith).
    destruct Hb as [E|[E|E]]; rewrite E; [apply Forall_nil|..]; (apply Forall_cons; [|apply Forall_cons; [|apply Forall_nil]]); apply Sd; cbv; intuition discriminate. }
  destruct (got cl ok _ ecs (PDone sc) sc false false Hc Hrun eq_refl ltac:(discriminate) ltac:(discriminate)) as (cons & m & R & Hcs & Hp & Hm).
  destruct (Hm ltac:(auto)) as (_ & Hin & _). destruct R as (_ & R2 & _). change (c_service (pc_rx (en_cfg cl))) with (service (en_cfg cl)) in R2. rewrite Ec in R2.
  assert (Hpre : is_prefix (wire cons) (wire ms)).
  { destruct Hp as (r & Hr). exists (r ++ skipn n (wire ms)). rewrite app_assoc, <- Hr, firstn_skipn. reflexivity. }
  destruct (wire_prefix _ _ _ (proj1 (proj2 Hc)) Hcs Hs Hpre) as (rest & Er).
  assert (Hall : last_exit (-1) ms = code).
  { unfold ms. rewrite last_exit_app, (last_exit_data before) by exact Hn. unfold last_exit. cbn [fold_left fst snd]. change (MSG_DATA_EXIT_CODE =? MSG_DATA_EXIT_CODE)%Z with true. cbn match.
    unfold code_of. change (Stream.zlen (enc32 code) <? 4)%Z with false. cbn match. rewrite <- (app_nil_r (enc32 code)), dec32_enc32 by lia. unfold to_int. destruct (Z.ltb_spec code 2147483648); lia. }
  assert (Hstat : rx_status (p_rx sc) = code \/ rx_status (p_rx sc) = -1).
  { destruct (Z.eq_dec (rx_status (p_rx sc)) (-1)) as [E|N]; [auto|]. left.
    assert (Hx : exists p, In (MSG_DATA_EXIT_CODE, p) cons) by (apply (exit_in (-1)); rewrite <- R2; exact N).
    assert (rest = []) as -> by (eapply (exit_is_last before code cons rest Hn Hx); exact Er).
    rewrite app_nil_r in Er. rewrite R2, <- Er. exact Hall. }
  assert (Hret : pio_return (en_cfg cl) wait sc = rx_status (p_rx sc)).
  { unfold pio_return. rewrite Ec. cbn [negb andb]. destruct (Z.eqb_spec (rx_status (p_rx sc)) 0) as [E|N]; [|reflexivity]. lia. }
  rewrite Hret. split; [exact Hstat|]. intros Hlen. destruct Hstat as [E|E]; [exact E|].
  rewrite firstn_all2 in Hin by exact Hlen.
  destruct (run_done_client _ _ _ _ Hrun Ec) as [X|[X|X]]; [lia| |contradiction].
  rewrite X, app_nil_r in Hin. rewrite R2.
  assert (Hpre2 : is_prefix (wire ms) (wire cons)) by (exists []; rewrite app_nil_r; symmetry; exact Hin).
  destruct (wire_prefix _ _ _ (proj1 (proj2 Hc)) Hs Hcs Hpre2) as (rest' & Er').
  rewrite Er in Er'. rewrite <- app_assoc in Er'. assert (rest ++ rest' = []) as E0.
  { apply (app_inv_head cons). rewrite app_nil_r. symmetry. exact Er'. }
  apply app_eq_nil in E0 as [-> _]. rewrite app_nil_r in Er. rewrite <- Er. exact Hall.
Qed.

(** ** Faults *)

(** a call to dom0 whose command line is not understood is not answered: the process crashes *)
Theorem C95_unparsable_refuted m k n : works k -> 255 < Z.of_nat n ->
  run_qrexec_to_dom0 m k ("QUBESRPC " +++ Props_Exec.letters n +++ " work") = Crashes.
Proof.
  intros (K1 & K2) Hn. unfold run_qrexec_to_dom0, handshake_and_go. rewrite K1, K2. cbn [andb negb]. cbv iota zeta.
  destruct (Exec.parse_qubes_rpc_command _ false) as [p|] eqn:E; [|reflexivity].
  assert (1 <= Z.of_nat n <= 255) by (apply Props_Exec.C49_name_limit; eauto). lia.
Qed.
(** qrexec-client -l crashes when the local command cannot be started *)
Theorem C95_local_refuted m dirs k line : services_in m dirs -> works k ->
  (forall u g text c, ~ SpecExec.line_means false line u g text c) \/
  (exists u g text c, SpecExec.line_means false line u g text (Some c) /\ short_paths m dirs c /\ not_installed m dirs c) ->
  client_local m k (Some line) = inl Crashes.
Proof.
  intros HP (K1 & K2) H. unfold client_local, handshake_and_go. rewrite K1, K2. cbn [andb negb]. cbv iota zeta.
  destruct H as [H|(u & g & text & c & HL & S & N)].
  - apply Props_Exec.C49_other_lines_refused in H. rewrite H. reflexivity.
  - destruct (means_parse _ _ _ _ _ _ HL) as (cmd & Ep & Hc & _). rewrite Ep.
    rewrite (proj2 (execute_absent m dirs (Agent.mkPrep cmd Toml.no_config (Exec.pc_username cmd)) (Some c) HP Hc) c eq_refl S N). reflexivity.
Qed.

(** otherwise it takes part in the call, also if there is no local command, and exits with the
    status of the call only if asked to *)
Theorem C95_local_takes_part m dirs k : services_in m dirs -> works k ->
  client_local m k None = inr tt /\
  (forall line user nogui command c st, SpecExec.line_means false line user nogui command c ->
     (forall c', c = Some c' -> short_paths m dirs c') -> can_start m dirs command true user c st ->
     client_local m k (Some line) = inr tt) /\
  (forall code, select_loop true code = code /\ select_loop false code = 0).
Proof.
  intros HP (K1 & K2). unfold client_local, handshake_and_go. rewrite K1, K2. cbn [andb negb]. cbv iota zeta.
  split; [reflexivity|]. split; [|intros code; split; reflexivity].
  intros line user nogui command c st HL S H. destruct (means_parse _ _ _ _ _ _ HL) as (cmd & Ep & A). rewrite Ep.
  destruct A as (Hc & Hu & _ & Hcmd).
  rewrite (execute_complete m dirs (Agent.mkPrep cmd Toml.no_config (Exec.pc_username cmd)) c st HP Hc S); [reflexivity|].
  cbn [Agent.pr_cmd Agent.pr_user Agent.pr_config]. change (Toml.cf_send_service_descriptor Toml.no_config) with true. rewrite Hu, Hcmd. exact H.
Qed.

(** ** Examples *)
Definition ex_machine (forks : bool) : machine :=
  mkMachine (Agent.mkFiles Props_Exec.ex_fs (fun _ => None) "/etc/qubes/rpc-config") Props_Exec.the_path true true forks true.
Definition ex_link (n : nat) : link := mkLink true true n.
Example C95_example :
  services_in (ex_machine true) Props_Exec.the_dirs /\ works (ex_link 100) /\
  agent_serve (ex_machine true) (ex_link 100) 512 "user:QUBESRPC x work" = Ends 127 (wire (told 127)) /\
  agent_serve (ex_machine true) (ex_link 100) 513 "user:QUBESRPC x work" = Ends 0 (wire [(MSG_DATA_EXIT_CODE, enc32 127)]) /\
  agent_serve (ex_machine false) (ex_link 100) 512 "user:ls" = Ends 125 (wire (told 125)) /\
  agent_serve (ex_machine false) (ex_link 10) 512 "QUBESRPC" = Ends 125 (firstn 10 (wire (told 125))) /\
  (exists p, agent_serve (ex_machine true) (ex_link 100) 512 "user:QUBESRPC qubes.Gpg+k work" =
             Serves (OnSocket (Exec.ConnectSocket "/usr/local/etc/qubes-rpc/qubes.Gpg+k" (Some ("qubes.Gpg+k work" +++ str1 NUL)))) p) /\
  (exists p, agent_serve (ex_machine true) (ex_link 100) 512 "user:ls" = Serves (OnProcess None "ls" (Some "user")) p) /\
  run_qrexec_to_dom0 (ex_machine true) (ex_link 100) "QUBESRPC x work" = Ends 127 (wire (told_by_dom0 127)) /\
  client_local (ex_machine true) (ex_link 100) (Some "QUBESRPC x work") = inl Crashes /\
  client_local (ex_machine true) (ex_link 100) None = inr tt.
Proof.
  split; [exact Props_Exec.the_path_ok|]. split; [split; reflexivity|].
  do 4 (split; [vm_compute; reflexivity|]). do 2 (split; [eexists; vm_compute; reflexivity|]). repeat split; vm_compute; reflexivity.
Qed.
