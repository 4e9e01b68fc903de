(** C69-C72: the agent over time. The vocabulary is in SpecMain. *)
From Coq Require Import String Ascii List Bool Arith ZArith Lia Permutation.
From Verif Require Import Base Sanitize DaemonAgent SpecDaemon SpecAgent AgentProofs Exec SpecExec Toml TomlProofs Agent SpecMain MainProofs TriggerProofs.
Import ListNotations.
Open Scope string_scope.
Open Scope list_scope.
Open Scope Z_scope.

(** C69: every command received is carried out exactly once, with the settings in
    force when it was received; those held back are service calls that wait for a
    session, and there is a process that waits for it *)
Theorem C69_exactly_once en h s : history en h s ->
  exists held, Permutation (all_received h) (all_carried_out h ++ held) /\
    Forall (fun x => may_wait (snd x)) held /\ (held <> [] -> waiting_process h <> None) /\
    (List.length held <= 256)%nat.
Proof.
  intros H. destruct (history_inv _ _ _ H) as (P & W & N). destruct (history_held _ _ _ H) as [F L].
  exists (used (a_waiting s)). split; [auto|]. split; [auto|]. split.
  - intros Hn Hw. apply Hn, N. congruence.
  - rewrite <- MAX_FDS_256, <- L. clear. induction (a_waiting s) as [|[x|] l IH]; cbn; lia.
Qed.
(** nothing is held back once the waiting process is gone *)
Theorem C69_session_end en h s w envs out : history en (h ++ [(Reaped w envs, out)]) s -> waiting_process h = Some w ->
  Permutation (all_received (h ++ [(Reaped w envs, out)])) (all_carried_out (h ++ [(Reaped w envs, out)])).
Proof.
  intros H Hw. destruct (history_inv _ _ _ H) as (P & W & N).
  destruct (history_split _ _ _ _ _ H) as (s1 & s2 & H1 & St & Hd & H2). cbn [fst snd step] in *.
  assert (a_wait s = None).
  { rewrite W. destruct (history_inv _ _ _ H1) as (_ & W1 & _). unfold reap in St. rewrite W1, Hw, Z.eqb_refl in St.
    pose proof (run_waiting_out en envs (a_waiting s1) 0 (a_conns s1)) as [_ R]. destruct (run_waiting _ _ _ _ _) as [c o].
    injection St as _ <-. cbn [snd] in R. unfold waiting_process in *. rewrite fold_left_app, Hw. cbn [fold_left fst snd].
    unfold wait_after. rewrite Z.eqb_refl. apply R. }
  rewrite (N H0), app_nil_r in P. exact P.
Qed.
(** a command that need not wait is carried out as soon as it is received *)
Theorem C69_at_once en h s ev out : history en (h ++ [(ev, out)]) s ->
  forall q p, received ev = [(q, p)] -> ~ may_wait p -> carried_out out = [(q, p)].
Proof.
  intros H q p R M. destruct (history_split _ _ _ _ _ H) as (s1 & s2 & H1 & St & Hd & H2). cbn [fst snd] in *.
  destruct ev as [e type len body| | |]; try discriminate. cbn [received] in R.
  destruct (((type =? 512) || (type =? 513)) && (8 <? len) && (len <? 2147483648)) eqn:E; [|discriminate].
  injection R as <- <-. cbn [step] in St. unfold handle_server_cmd, MSG_EXEC_CMDLINE, MSG_JUST_EXEC, MSG_SERVICE_CONNECT in St.
  destruct ((type =? 512) || (type =? 513)) eqn:Et; [|discriminate]. cbn [orb] in St.
  assert (L : ((len <=? 8) || (len >? 2147483647))%bool = false) by lia. rewrite L in St.
  assert (T : type =? 514 = false) by lia. rewrite T in St.
  pose proof (exec_init_at_once en (m_files e) (m_forked e) (m_do e) (message_request type len body) s1 M) as X.
  change (mkReq type _ _ _) with (message_request type len body) in St. rewrite St in X. exact X.
Qed.
(** one that has to wait does wait, unless 256 commands wait already or no process
    to wait could be started *)
Theorem C69_waits en h s e type len body out : history en (h ++ [(Message e type len body, out)]) s ->
  forall q p, received (Message e type len body) = [(q, p)] -> may_wait p ->
  (waiting_process h <> None \/ m_forked e <> None) ->
  (List.length (all_received h) < List.length (all_carried_out h) + 256)%nat ->
  carried_out out = [] /\
  waiting_process (h ++ [(Message e type len body, out)]) =
    match waiting_process h with Some w => Some w | None => m_forked e end.
Proof.
  intros H q p R M Hw Hl. destruct (history_split _ _ _ _ _ H) as (s1 & s2 & H1 & St & Hd & H2). cbn [fst snd] in *.
  destruct (history_inv _ _ _ H1) as (P & W & _). destruct (history_inv _ _ _ H2) as (_ & W2 & _).
  destruct (history_held _ _ _ H1) as [_ L1]. cbn [received] in R.
  destruct (((type =? 512) || (type =? 513)) && (8 <? len) && (len <? 2147483648)) eqn:E; [|discriminate].
  injection R as <- <-. cbn [step] in St. unfold handle_server_cmd, MSG_EXEC_CMDLINE, MSG_JUST_EXEC, MSG_SERVICE_CONNECT in St.
  destruct ((type =? 512) || (type =? 513)) eqn:Et; [|discriminate]. cbn [orb] in St.
  assert (L : ((len <=? 8) || (len >? 2147483647))%bool = false) by lia. rewrite L in St.
  assert (T : type =? 514 = false) by lia. rewrite T in St.
  change (mkReq type _ _ _) with (message_request type len body) in St.
  rewrite <- W in Hw. apply Permutation_length in P. rewrite app_length in P.
  assert (U : (List.length (used (a_waiting s1)) < List.length (a_waiting s1))%nat).
  { rewrite L1, MAX_FDS_256. lia. }
  pose proof (exec_init_waits en (m_files e) (m_forked e) (m_do e) (message_request type len body) s1 M Hw U) as X.
  cbv zeta in X. rewrite St in X. cbn [fst snd] in X. destruct X as [X1 X2]. split; [auto|]. rewrite <- W, <- X2. symmetry. exact W2.
Qed.

(** C70: the end of every connection is reported exactly once, when it happens *)
Theorem C70_ends_reported en h s : history en h s -> system_ok h -> few_connections h ->
  forall h1 ev out h2, h = h1 ++ (ev, out) :: h2 ->
    Permutation (reported out) (map address (ended ev (live_connections h1))).
Proof. intros H So Fe h1 ev out h2 E. apply (ends_reported _ _ _ H So Fe _ _ _ _ E). Qed.
Theorem C70_balance en h s : history en h s -> system_ok h -> few_connections h ->
  Permutation (map address (all_opened h)) (all_reported h ++ map address (live_connections h)).
Proof. apply reports_balance. Qed.

(** C71: the answer to the call of a local client goes to that client, whatever it
    sends *)
Definition connect_message (d p ident : string) : string := d +++ p +++ ident +++ str1 NUL.
Theorem C71_answer_to_caller fd type len data type' len' body :
  Z.of_nat fd < 2147483648 ->
  handle_trigger_io fd type len data = [Forwarded type' len' body] ->
  (exists source target service ident,
     handle_message_from_agent 4 type' len' body = ServiceCall (Some source) target service ident /\
     forall en e s d p, String.length d = 4%nat -> String.length p = 4%nat ->
       exists out, snd (step en (Message e 514 (zlen (connect_message d p ident)) (connect_message d p ident)) s) =
         (if m_ebadf e then [] else ParamsTo (Z.of_nat fd) (u32 d) (u32 p) :: out) /\
         (out = [] \/ out = [NoSlot (u32 d) (u32 p)])) \/
  (exists raw, handle_message_from_agent 4 type' len' body = RefuseCall raw /\
     forall en e s, step en (Message e 515 32 raw) s = (s, [Closed (Z.of_nat fd)])).
Proof.
  intros Sm H. unfold handle_trigger_io in H.
  destruct (negb (type =? Agent.MSG_TRIGGER_SERVICE4) || (len <=? 160) || (len >? 160 + MAX_SERVICE_NAME_LEN))%bool eqn:E; [discriminate|].
  destruct (zlen data <? len) eqn:El; [discriminate|].
  injection H as <- <- <-. unfold Agent.MSG_TRIGGER_SERVICE4, MAX_SERVICE_NAME_LEN in E.
  assert (Et : type = 531) by lia. subst type.
  assert (Lp : String.length (stake (Z.to_nat len) data) = Z.to_nat len) by (apply stake_exact; unfold zlen in El; lia).
  assert (Lg : (160 <= String.length (stake (Z.to_nat len) data))%nat) by (rewrite Lp; lia).
  destruct (ident_field fd _ Sm Lg) as [If Li]. remember (stake (Z.to_nat len) data) as params eqn:Ep. clear Ep.
  unfold handle_message_from_agent.
  assert (Sa : sanitize_message_from_agent 4 531 len = true).
  { apply header_spec. constructor; lia. }
  rewrite Sa. cbn [negb].
  assert (Lb : (Z.of_nat (String.length (write_ident fd params)) =? len) = true) by (apply Z.eqb_eq; rewrite Li, Lp; lia).
  rewrite Lb. cbn [negb]. change (531 =? MSG_TRIGGER_SERVICE) with false. change (531 =? MSG_TRIGGER_SERVICE3) with false.
  change (531 =? DaemonAgent.MSG_TRIGGER_SERVICE4) with true.
  remember (stake 32 (sdrop 128 (write_ident fd params))) as raw eqn:Er.
  assert (Lr : String.length raw = 32%nat) by (subst raw; apply stake_exact; rewrite sdrop_length, Li; lia). clear Er.
  assert (R : forall en e s, step en (Message e 515 32 raw) s = (s, [Closed (Z.of_nat fd)])).
  { intros en e s. unfold step, handle_server_cmd. change ((515 =? Agent.MSG_EXEC_CMDLINE) || (515 =? Agent.MSG_JUST_EXEC) || (515 =? Agent.MSG_SERVICE_CONNECT))%bool with false.
    change (515 =? Agent.MSG_SERVICE_REFUSED) with true. unfold service_refused. change (32 =? 32) with true. cbn [negb].
    rewrite If, scan_ident. reflexivity. }
  unfold trigger.
  destruct (negb (validate_request_id raw)); [right; eauto|].
  destruct (negb (String.eqb _ (str1 NUL))); [right; eauto|].
  destruct (negb (Nat.eqb _ _)); [right; eauto|].
  destruct (validate_service_name _) as [service|]; [|right; eauto].
  left. rewrite If. cbn [option_map]. eexists _, _, service, (socket_ident fd). split; [reflexivity|].
  intros en e s d p Hd Hp. unfold step, handle_server_cmd.
  change ((514 =? Agent.MSG_EXEC_CMDLINE) || (514 =? Agent.MSG_JUST_EXEC) || (514 =? Agent.MSG_SERVICE_CONNECT))%bool with true.
  change (514 =? Agent.MSG_SERVICE_CONNECT) with true.
  pose proof (ident_length fd Sm) as IL. remember (socket_ident fd) as i eqn:Ei.
  assert (Lm : zlen (connect_message d p i) = 9 + Z.of_nat (String.length i)).
  { unfold zlen, connect_message. rewrite !length_app_s. cbn [str1 String.length]. lia. }
  assert (I0 : (0 < String.length i)%nat) by (subst i; unfold socket_ident; rewrite length_app_s; cbn; lia).
  rewrite Lm. assert (B : ((9 + Z.of_nat (String.length i) <=? 8) || (9 + Z.of_nat (String.length i) >? 2147483647))%bool = false) by lia.
  rewrite B.
  assert (C : cstr (stake (Z.to_nat (9 + Z.of_nat (String.length i) - 9)) (sdrop 8 (connect_message d p i))) = i).
  { unfold connect_message. rewrite <- (app_assoc_s d p). rewrite (sdrop_app_eq (d +++ p)) by (rewrite length_app_s; lia).
    rewrite stake_app_eq by lia. rewrite <- (app_nil_s i) at 1. rewrite cstr_app by (subst i; apply ident_no_nul). cbn [cstr]. apply app_nil_s. }
  rewrite C.
  assert (U1 : u32 (connect_message d p i) = u32 d).
  { unfold u32, connect_message. f_equal. rewrite stake_app_eq by exact Hd.
    pose proof (stake_app_eq d "" 4 Hd) as X. rewrite app_nil_s in X. rewrite X. reflexivity. }
  assert (U2 : u32 (sdrop 4 (connect_message d p i)) = u32 p).
  { unfold u32, connect_message. f_equal. rewrite (sdrop_app_eq d) by exact Hd. rewrite stake_app_eq by exact Hp.
    pose proof (stake_app_eq p "" 4 Hp) as X. rewrite app_nil_s in X. rewrite X. reflexivity. }
  rewrite U1, U2. unfold set_conns, service_connect. subst i. rewrite scan_ident.
  destruct (m_ebadf e).
  - exists []. cbn [snd]. auto.
  - pose proof (register_out (-1) (Z.of_nat fd) (u32 d) (u32 p) (a_conns s)) as Ro.
    destruct (register _ _ _ _ _) as [c o]. cbn [snd] in *. exists o. auto.
Qed.
(** the rest of the call reaches the daemon unchanged, if it has the right form *)
Theorem C71_forwarded fd type len data : Z.of_nat fd < 2147483648 ->
  (exists body, handle_trigger_io fd type len data = [Forwarded type len body] /\
     zlen body = len /\ stake 128 body = stake 128 data /\ sdrop 160 body = sdrop 160 (stake (Z.to_nat len) data)) /\
    type = 531 /\ 160 < len <= 65160 /\ len <= zlen data \/
  handle_trigger_io fd type len data = [Closed (Z.of_nat fd)] /\
    ~ (type = 531 /\ 160 < len <= 65160 /\ len <= zlen data).
Proof.
  intros Sm. unfold handle_trigger_io, Agent.MSG_TRIGGER_SERVICE4, MAX_SERVICE_NAME_LEN.
  destruct (negb (type =? 531) || (len <=? 160) || (len >? 160 + 65000))%bool eqn:E; [right; split; [reflexivity|lia]|].
  destruct (zlen data <? len) eqn:El; [right; split; [reflexivity|lia]|].
  left. split; [|lia]. eexists. split; [reflexivity|].
  assert (Lp : String.length (stake (Z.to_nat len) data) = Z.to_nat len) by (apply stake_exact; unfold zlen in El; lia).
  assert (Lg : (160 <= String.length (stake (Z.to_nat len) data))%nat) by (rewrite Lp; lia).
  destruct (ident_field fd _ Sm Lg) as [If Li]. split; [unfold zlen; rewrite Li, Lp; apply Z2Nat.id; lia|].
  pose proof (ident_length fd Sm) as IL.
  assert (S1 : stake 128 (stake (Z.to_nat len) data) = stake 128 data).
  { rewrite (take_drop (Z.to_nat len) data) at 2. rewrite (take_drop 128 (stake (Z.to_nat len) data)) at 2.
    rewrite app_assoc_s. rewrite stake_app_eq; [reflexivity|]. apply stake_exact. lia. }
  rewrite <- S1. unfold write_ident. cbv zeta.
  split.
  - apply stake_app_eq, stake_exact. lia.
  - remember (socket_ident fd +++ str1 NUL) as i. assert (LI : (String.length i <= 17)%nat) by (subst i; rewrite length_app_s; cbn [str1 String.length]; lia).
    replace 160%nat with (128 + (String.length i + (32 - String.length i)))%nat at 1 by lia.
    rewrite <- sdrop_sdrop, (sdrop_app_eq (stake 128 _)) by (apply stake_exact; lia).
    rewrite <- sdrop_sdrop, (sdrop_app_eq i) by reflexivity. rewrite sdrop_sdrop. f_equal. lia.
Qed.

(** C72: a command handed to a fork server is the command received, run as the user it
    is to run as, and with settings for which the fork server behaves in the same way *)
Theorem C72_fork_server en h s ev out fd q p text : history en h s -> In (ev, out) h -> In (HandedOver fd q p text) out ->
  exists u c, q_cmdline q = u +++ ":" +++ text /\ pr_cmd p = c /\ pc_username c = Some u /\
    fork_server_command (zlen text + 1) (text +++ str1 NUL) =
      Some (mkCmd None (pc_command c) false (pc_descriptor c) (pc_name c) (pc_arg c) (pc_source c)) /\
    pc_nogui c = false /\ cf_send_service_descriptor (pr_config p) = true /\
    cf_exit_on_stdin_eof (pr_config p) = false /\ cf_exit_on_stdout_eof (pr_config p) = false /\
    pr_user p = Some (match cf_user (pr_config p) with Some u' => u' | None => u end).
Proof.
  intros H Hi Ho.
  assert (Hc : In (q, Some p) (all_carried_out h)).
  { unfold all_carried_out. apply in_flat_map. exists (ev, out). split; [auto|]. apply (in_carried _ _ _ _ _ Ho). }
  destruct (carried_received _ _ _ _ _ H Hc) as (e & type & len & body & out0 & _ & _ & _ & Eq & Ep).
  apply in_split in Hi as (h1 & h2 & ->).
  destruct (history_split _ _ _ _ _ H) as (s1 & s2 & H1 & St & Hd & H2). cbn [fst snd] in *.
  assert (Hs : handed_ok en q p text) by (apply (step_handed en ev s1 fd); rewrite St; exact Ho).
  destruct Hs as (_ & Lq & Us & u & Ec & Nu).
  assert (Nq : has_char NUL (q_cmdline q) = false) by (rewrite Eq; apply SanitizeProofs.cstr_no_nul).
  unfold qrexec_cmd_use_fork_server in Us. repeat apply andb_prop in Us as [Us ?].
  assert (Nt : has_char NUL text = false).
  { rewrite Ec in Nq. apply (has_char_app_false NUL (u +++ ":")). rewrite app_assoc_s. exact Nq. }
  unfold prepare in Ep. destruct (parse_qubes_rpc_command (q_cmdline q) true) as [c|] eqn:Pc; [|discriminate].
  assert (Cp : pr_cmd p = c /\ pr_user p = Some (match cf_user (pr_config p) with Some u' => u' | None => u end) \/ pc_username c <> Some u).
  { destruct (option_map (String.eqb u) (pc_username c)) as [[]|] eqn:Eu.
    - left. destruct (pc_username c) as [u0|]; [|discriminate]. cbn [option_map] in Eu. injection Eu as Eu. apply String.eqb_eq in Eu. subst u0.
      destruct (pc_descriptor c) as [d|]; [destruct (pc_name c) as [n|]|].
      + unfold load_service_config_v2 in Ep. destruct (load_service_config_raw _ _ _ _ _) as [cf|]; [|discriminate].
        destruct (cf_user cf) as [u'|] eqn:Ecu.
        * destruct (negb _); [discriminate|]. destruct (cf_exit_on_stdin_eof cf); [discriminate|]. destruct (cf_exit_on_stdout_eof cf); [discriminate|].
          injection Ep as ->. cbn [pr_cmd pr_user pr_config]. rewrite Ecu. auto.
        * injection Ep as ->. cbn [pr_cmd pr_user pr_config]. rewrite Ecu. auto.
      + injection Ep as ->. auto.
      + injection Ep as ->. auto.
    - right. destruct (pc_username c) as [u0|]; [|discriminate]. cbn [option_map] in Eu. intros X. injection X as ->. rewrite String.eqb_refl in Eu. discriminate.
    - right. destruct (pc_username c); [discriminate|]. congruence. }
  rewrite Ec in Pc. assert (Lt : zlen text + 1 <= 2147483647).
  { rewrite Ec in Lq. unfold zlen in *. rewrite !length_app_s in Lq. lia. }
  destruct (fork_server_same u text c Nt Nu Lt Pc) as [F1 F2].
  destruct Cp as [[Cp1 Cp2]|Cp]; [|congruence].
  exists u, c. rewrite Cp1 in Us. assert (Ng : pc_nogui c = false) by (now destruct (pc_nogui c)).
  rewrite Ng in F2.
  split; [auto|]. split; [auto|]. split; [auto|]. split; [auto|]. split; [auto|]. split; [auto|].
  split; [now destruct (cf_exit_on_stdin_eof _)|]. split; [now destruct (cf_exit_on_stdout_eof _)|auto].
Qed.

(** ** Examples and counterexamples *)
(** the history of a list of events *)
Fixpoint play (en : bool) (evs : list event) (h : list (event * list output)) (s : agent) : list (event * list output) * agent :=
  match evs with
  | [] => (h, s)
  | ev :: evs' => let (s', out) := step en ev s in play en evs' (h ++ [(ev, out)]) s'
  end.
Lemma play_history en evs : forall h s, history en h s ->
  forallb (fun x => negb (dies (snd x))) (fst (play en evs h s)) = true ->
  history en (fst (play en evs h s)) (snd (play en evs h s)).
Proof.
  induction evs as [|ev evs IH]; intros h s H Hd; cbn [play] in *; [exact H|].
  destruct (step en ev s) as [s' out] eqn:St.
  apply IH; [|exact Hd]. econstructor; [exact H|exact St|].
  assert (X : forall evs h s, forallb (fun x => negb (dies (snd x))) (fst (play en evs h s)) = true -> forallb (fun x => negb (dies (snd x))) h = true).
  { clear. induction evs as [|ev evs IH]; intros h s H; cbn [play] in *; [exact H|].
    destruct (step en ev s) as [s' out]. apply IH in H. rewrite forallb_app in H. now apply andb_prop in H as [H _]. }
  apply X in Hd. rewrite forallb_app in Hd. apply andb_prop in Hd as [_ Hd]. cbn [forallb snd] in Hd. destruct (dies out); [discriminate Hd|reflexivity].
Qed.

Definition byte4 (n : nat) : string := String (ascii_of_nat n) (String NUL (String NUL (str1 NUL))).
Definition command_message (d p : nat) (cmdline : string) : string := byte4 d +++ byte4 p +++ cmdline +++ str1 NUL.
Definition files_with (config : string) : files :=
  mkFiles (fun path => if String.eqb path "/etc/qubes/rpc-config/q.S" then LFound (KFile false) else LAbsent)
    (fun _ => Some config) "/etc/qubes/rpc-config".
(** a request, with the number of the process that serves it *)
Definition asked (pid : Z) (forked : option Z) (d p : nat) (cmdline : string) : event :=
  let b := command_message d p cmdline in
  Message (mkEnv (files_with "wait-for-session=1") forked (mkDo None pid) false) 512 (zlen b) b.
Definition two_users : list event :=
  [asked 11 None 1 1 "root:ls"; asked 12 (Some 99) 1 2 "alice:QUBESRPC q.S dom1"; asked 13 (Some 98) 1 3 "bob:QUBESRPC q.S dom1";
   asked 14 None 1 4 "alice:nogui:QUBESRPC q.S dom1"; Reaped 11 (fun _ => mkDo None 0);
   Reaped 99 (fun i => mkDo None (20 + Z.of_nat i)); Reaped 21 (fun _ => mkDo None 0)].
Definition two_users_history := fst (play false two_users [] start).
Example C69_example :
  history false two_users_history (snd (play false two_users [] start)) /\
  map (fun x => carried_out (snd x)) two_users_history =
    map (fun x => map (fun n => nth n (all_received two_users_history) (mkReq 0 0 0 "", None)) x)
      [[0%nat]; []; []; [3%nat]; []; [1%nat; 2%nat]; []] /\
  map (fun x => waiting_process (firstn x two_users_history)) (seq 0 8) = [None; None; Some 99; Some 99; Some 99; Some 99; None; None].
Proof.
  split; [apply play_history; [constructor|vm_compute; reflexivity]|]. split; vm_compute; reflexivity.
Qed.
Example C70_example :
  map (fun x => reported (snd x)) two_users_history = [[]; []; []; []; [(1, 1)]; []; [(1, 3)]] /\
  live_connections two_users_history = [mkLive (HProc 14) 1 4; mkLive (HProc 20) 1 2].
Proof. split; vm_compute; reflexivity. Qed.

(** decidable forms of the hypotheses of C70 *)
Definition handle_eqb (a b : handle) : bool :=
  match a, b with HProc x, HProc y => x =? y | HSock x, HSock y => x =? y | _, _ => false end.
Fixpoint nodupb (l : list handle) : bool :=
  match l with [] => true | x :: l' => negb (existsb (handle_eqb x) l') && nodupb l' end.
Definition okb (x : handle) : bool := match x with HProc p => p >? 0 | HSock f => f >=? 0 end.
Definition prefix_okb (h1 : list (event * list output)) (x : event * list output) : bool :=
  let live := live_after (fst x) (snd x) (live_connections h1) in
  nodupb (map l_handle live) && forallb okb (map l_handle live) &&
  match waiting_process (h1 ++ [x]) with Some w => (w >? 0) && negb (existsb (handle_eqb (HProc w)) (map l_handle live)) | None => true end &&
  match fst x with Reaped pid _ => pid >? 0 | _ => true end.
Fixpoint all_prefixes (h1 h : list (event * list output)) : bool :=
  match h with [] => true | x :: h' => prefix_okb h1 x && all_prefixes (h1 ++ [x]) h' end.
Lemma handle_eqb_eq a b : handle_eqb a b = true <-> a = b.
Proof. destruct a, b; cbn [handle_eqb]; split; intros H; try discriminate; try (f_equal; lia); injection H as <-; apply Z.eqb_refl. Qed.
Lemma existsb_in x l : existsb (handle_eqb x) l = false -> ~ In x l.
Proof.
  intros H I. assert (T : existsb (handle_eqb x) l = true); [|congruence].
  apply existsb_exists. exists x. split; [auto|]. now apply handle_eqb_eq.
Qed.
Lemma nodupb_ok l : nodupb l = true -> NoDup l.
Proof.
  induction l as [|x l IH]; [constructor|]. cbn [nodupb]. intros H. apply andb_prop in H as [H1 H2]. constructor; [|auto].
  apply existsb_in. now destruct (existsb _ _).
Qed.
Lemma prefixes_ok h0 h : all_prefixes h0 h = true ->
  forall h1 ev out h2, h = h1 ++ (ev, out) :: h2 -> prefix_okb (h0 ++ h1) (ev, out) = true.
Proof.
  revert h0. induction h as [|x h IH]; intros h0 H h1 ev out h2 E; [destruct h1; discriminate|].
  cbn [all_prefixes] in H. apply andb_prop in H as [H1 H2]. destruct h1 as [|y h1].
  - injection E as -> _. now rewrite app_nil_r.
  - injection E as -> E. specialize (IH _ H2 _ _ _ _ E). rewrite <- app_assoc in IH. exact IH.
Qed.
Lemma system_ok_dec h : all_prefixes [] h = true -> system_ok h.
Proof.
  intros H h1 ev out h2 E. pose proof (prefixes_ok _ _ H _ _ _ _ E) as P. cbn [app] in P. unfold prefix_okb in P. cbn [fst snd] in P.
  cbv zeta in *. apply andb_prop in P as [P P4]. apply andb_prop in P as [P P3]. apply andb_prop in P as [P1 P2].
  split; [now apply nodupb_ok|]. split; [|split].
  - intros c Hc. rewrite forallb_forall in P2. specialize (P2 _ (in_map l_handle _ _ Hc)).
    destruct (l_handle c); cbn [okb handle_ok] in *; lia.
  - intros w Hw. rewrite Hw in P3. apply andb_prop in P3 as [P3 P3']. split; [lia|]. apply existsb_in. now destruct (existsb _ _).
  - intros pid envs ->. lia.
Qed.
Example C70_hypotheses : system_ok two_users_history /\ few_connections two_users_history.
Proof.
  split; [apply system_ok_dec; vm_compute; reflexivity|].
  intros h1 h2 E. assert (L : forall h, (List.length (live_connections h) <= List.length (all_opened h))%nat).
  { clear. intros h. induction h as [|[ev out] h IH] using rev_ind; [cbn; lia|]. rewrite live_snoc. unfold all_opened, live_after in *.
    rewrite flat_map_snoc, !app_length. cbn [snd]. pose proof (Permutation_length (filter_split (ends ev) (live_connections h))) as P.
    rewrite app_length in P. lia. }
  specialize (L h1). assert (Lo : (List.length (all_opened h1) <= List.length (all_opened two_users_history))%nat).
  { rewrite E. unfold all_opened. rewrite flat_map_app, app_length. lia. }
  assert (V : List.length (all_opened two_users_history) = 4%nat) by (vm_compute; reflexivity). lia.
Qed.

(** F39: the session waited for is that of the first user: the call of the other is
    held back although no process waits for its session *)
Theorem C69_own_session_refuted : exists h s, history false h s /\
  exists q p, In (q, Some p) (all_received h) /\ may_wait (Some p) /\ pr_user p = Some "bob" /\
    ~ In (q, Some p) (all_carried_out h) /\
    forall ev out pid u src, In (ev, out) h -> In (WaitStarted pid u src) out -> u = Some "alice".
Proof.
  set (h := fst (play false (firstn 3 two_users) [] start)).
  exists h, (snd (play false (firstn 3 two_users) [] start)).
  split; [apply play_history; [constructor|vm_compute; reflexivity]|].
  destruct (nth 2 (all_received h) (mkReq 0 0 0 "", None)) as [q [p|]] eqn:E; [|vm_compute in E; discriminate].
  exists q, p. split; [rewrite <- E; apply nth_In; vm_compute; lia|].
  assert (V : q = mkReq 512 1 3 "bob:QUBESRPC q.S dom1" /\ pr_user p = Some "bob" /\ pc_descriptor (pr_cmd p) = Some "q.S+" /\
    pc_nogui (pr_cmd p) = false /\ cf_wait_for_session (pr_config p) = true).
  { vm_compute in E. injection E as <- <-. vm_compute. repeat split. }
  destruct V as (Vq & Vu & Vd & Vn & Vw).
  split; [exists p; repeat split; auto; congruence|]. split; [auto|]. split.
  - rewrite Vq. intros X. apply (in_map fst) in X. vm_compute in X. destruct X as [X|[]]. discriminate X.
  - intros ev out pid u src I1 I2. apply in_split in I1 as (a & b & Eh).
    assert (I : In (WaitStarted pid u src) (flat_map snd h)).
    { rewrite Eh, flat_map_app. apply in_or_app. right. cbn [flat_map snd]. apply in_or_app. now left. }
    vm_compute in I. destruct I as [I|[I|[]]]; [discriminate I|]. injection I as _ <- _. reflexivity.
Qed.

(** F35: where a fork failed, the entry is never released; after 256 of those the end
    of a connection is not reported any more *)
Definition failed_forks : list event := map (fun n => asked (-1) None 1 n "root:ls") (seq 0 256) ++ [asked 500 None 2 7 "root:ls"].
Theorem C70_failed_fork_refuted : exists h s, history false h s /\
  (forall c, In c (live_connections h) -> l_handle c = HProc (-1) \/ c = mkLive (HProc 500) 2 7) /\
  In (mkLive (HProc 500) 2 7) (live_connections h) /\
  forall envs, step false (Reaped 500 envs) s = (s, []).
Proof.
  exists (fst (play false failed_forks [] start)), (snd (play false failed_forks [] start)).
  split; [apply play_history; [constructor|vm_compute; reflexivity]|].
  split; [|split].
  - assert (V : forallb (fun c => handle_eqb (l_handle c) (HProc (-1)) || (handle_eqb (l_handle c) (HProc 500) && (l_domain c =? 2) && (l_port c =? 7)))
      (live_connections (fst (play false failed_forks [] start))) = true) by (vm_compute; reflexivity).
    rewrite forallb_forall in V. intros c Hc. apply V in Hc. apply orb_prop in Hc as [Hc|Hc].
    + left. now apply handle_eqb_eq.
    + right. apply andb_prop in Hc as [Hc H3]. apply andb_prop in Hc as [H1 H2]. apply handle_eqb_eq in H1.
      destruct c as [a d p]. cbn [l_handle l_domain l_port] in *. f_equal; [auto|lia|lia].
  - assert (V : exists l, live_connections (fst (play false failed_forks [] start)) = l ++ [mkLive (HProc 500) 2 7]).
    { exists (firstn 256 (live_connections (fst (play false failed_forks [] start)))). vm_compute. reflexivity. }
    destruct V as [l ->]. apply in_or_app. right. now left.
  - intros envs.
    assert (V : a_wait (snd (play false failed_forks [] start)) = None /\ release_pid 500 (a_conns (snd (play false failed_forks [] start))) = (a_conns (snd (play false failed_forks [] start)), [])).
    { split; vm_compute; reflexivity. }
    destruct V as [V1 V2]. cbn [step]. unfold reap. rewrite V1. unfold set_conns. rewrite V2. cbn [fst snd].
    destruct (snd (play false failed_forks [] start)); reflexivity.
Qed.
(** the end of a 257th connection is not reported *)
Definition many_connections : list event := map (fun n => asked (Z.of_nat n) None 1 (n mod 250) "root:ls") (seq 1 257).
Theorem C70_too_many_refuted : exists h s, history false h s /\ system_ok h /\
  In (mkLive (HProc 257) 1 7) (live_connections h) /\ forall envs, step false (Reaped 257 envs) s = (s, []).
Proof.
  exists (fst (play false many_connections [] start)), (snd (play false many_connections [] start)).
  split; [apply play_history; [constructor|vm_compute; reflexivity]|].
  split; [apply system_ok_dec; vm_compute; reflexivity|]. split.
  - assert (V : exists l, live_connections (fst (play false many_connections [] start)) = l ++ [mkLive (HProc 257) 1 7]).
    { exists (firstn 256 (live_connections (fst (play false many_connections [] start)))). vm_compute. reflexivity. }
    destruct V as [l ->]. apply in_or_app. right. now left.
  - intros envs.
    assert (V : a_wait (snd (play false many_connections [] start)) = None /\ release_pid 257 (a_conns (snd (play false many_connections [] start))) = (a_conns (snd (play false many_connections [] start)), [])).
    { split; vm_compute; reflexivity. }
    destruct V as [V1 V2]. cbn [step]. unfold reap. rewrite V1. unfold set_conns. rewrite V2. cbn [fst snd].
    destruct (snd (play false many_connections [] start)); reflexivity.
Qed.

Definition client_call : string := (* a client that claims to be another one *)
  "$adminvm" +++ nuls 56 +++ "vault" +++ nuls 59 +++ "SOCKET3" +++ nuls 25 +++ "q.S+a" +++ str1 NUL.
Example C71_example :
  exists body, handle_trigger_io 14 531 166 client_call = [Forwarded 531 166 body] /\
    handle_message_from_agent 4 531 166 body = ServiceCall (Some "_adminvm") "vault" "q.S+a" "SOCKET14".
Proof. eexists. split; vm_compute; reflexivity. Qed.
Definition served (n : Z) : event :=
  let b := command_message 1 2 "user:QUBESRPC q.S+a dom1" in
  Message (mkEnv (files_with "force-user='root'") None (mkDo (Some 7) n) false) 512 (zlen b) b.
Example C72_example : exists h s q p, history true h s /\ exists ev out, In (ev, out) h /\ In (HandedOver 7 q p "QUBESRPC q.S+a dom1") out /\
  pr_user p = Some "root".
Proof.
  exists (fst (play true [served 5] [] start)), (snd (play true [served 5] [] start)).
  eexists _, _. split; [apply play_history; [constructor|vm_compute; reflexivity]|].
  eexists _, _. split; [left; reflexivity|]. split; [left; vm_compute; reflexivity|]. vm_compute. reflexivity.
Qed.

Print Assumptions C69_exactly_once.
Print Assumptions C69_session_end.
Print Assumptions C69_at_once.
Print Assumptions C69_waits.
Print Assumptions C70_ends_reported.
Print Assumptions C70_balance.
Print Assumptions C71_answer_to_caller.
Print Assumptions C71_forwarded.
Print Assumptions C72_fork_server.
