(** C96: a command runs as the user named, or not at all *)
From Coq Require Import String Ascii List Bool Arith ZArith Lia.
From Verif Require Import Base Sanitize Exec SpecExec ExecCProofs LookupProofs EnvProofs TriggerProofs Login SpecLogin.
From Verif Require Agent Toml Spawn SpecSpawn SpawnProofs Props_Spawn Props_Exec.
Import ListNotations.
Open Scope string_scope.
Open Scope list_scope.
Open Scope Z_scope.

Lemma basename_spec s : last_component s (basename s).
Proof.
  unfold basename. destruct (split_all "/" s) as [|x l _] eqn:E using rev_ind.
  - exfalso. exact (split_all_ne _ _ E).
  - rewrite last_last. assert (Hx : lacks "/" x) by (apply (split_all_each "/" s); rewrite E; apply in_or_app; right; left; reflexivity).
    rewrite <- (join_split_all "/" s), E. destruct l as [|y l].
    + apply lc_only. exact Hx.
    + rewrite join_snoc by discriminate. apply (lc_in (join (str1 "/") (y :: l))). exact Hx.
Qed.
Lemma print_decimal fuel : forall n, (0 < n < fuel)%nat -> decimal (Agent.print_nat fuel n) (Z.of_nat n).
Proof.
  induction fuel as [|fuel IH]; intros n H; [lia|]. cbn [Agent.print_nat].
  assert (D : forall k, (k < 10)%nat -> digit_of (Agent.decimal_digit k) (Z.of_nat k)).
  { intros k Hk. assert (K : Z.of_nat (nat_of_ascii (Agent.decimal_digit k)) = 48 + Z.of_nat k) by (do 10 (destruct k as [|k]; [reflexivity|]); lia).
    replace (Z.of_nat k) with (Z.of_nat (nat_of_ascii (Agent.decimal_digit k)) - 48) by lia. constructor. lia. }
  destruct (n <? 10)%nat eqn:E.
  - apply Nat.ltb_lt in E. apply dec_first; [apply D; exact E|lia].
  - apply Nat.ltb_ge in E.
    replace (Z.of_nat n) with (10 * Z.of_nat (n / 10) + Z.of_nat (n mod 10)) by (pose proof (Nat.div_mod n 10); lia).
    apply dec_next; [apply IH; split; [apply Nat.div_str_pos; lia|apply Nat.div_lt_upper_bound; lia]|].
    apply D. apply Nat.mod_upper_bound. lia.
Qed.

(** ** The environment *)
Lemma putenv_value name v env : value (putenv name v env) name (Some v).
Proof.
  unfold putenv. split; [apply in_or_app; right; left; reflexivity|].
  intros e He V. apply in_app_or in He as [He|[He|[]]]; [|congruence].
  apply filter_In in He as [_ He]. destruct V as (r & ->). rewrite starts_app in He. discriminate.
Qed.
Lemma putenv_other name v env n x : value env n x -> (forall r, ~ is_var n (name +++ "=" +++ r)) -> (forall r, ~ is_var name (n +++ "=" +++ r)) ->
  value (putenv name v env) n x.
Proof.
  intros H N M. unfold putenv. destruct x as [x|].
  - destruct H as [H1 H2]. split.
    + apply in_or_app. left. apply filter_In. split; [exact H1|]. destruct (starts (name +++ "=") (n +++ "=" +++ x)) eqn:E; [|reflexivity].
      exfalso. apply (M x). apply starts_spec in E. exact E.
    + intros e He V. apply in_app_or in He as [He|[He|[]]]; [apply filter_In in He as [He _]; auto|]. subst e. destruct (N v V).
  - intros e He V. apply in_app_or in He as [He|[He|[]]]; [apply filter_In in He as [He _]; exact (H e He V)|]. subst e. exact (N v V).
Qed.
Ltac no_var := intros r (q & E); discriminate E.
Lemma add_var_some w name v o e : add_var w name v o = Some e ->
  exists e0, o = Some e0 /\ zlen (name +++ "=" +++ v) < 64 /\ e = putenv name v e0.
Proof.
  unfold add_var, ENV_BUF. destruct o as [e0|]; [|discriminate]. cbv zeta. destruct (Z.leb_spec 64 (zlen (name +++ "=" +++ v))); [discriminate|].
  destruct (w_put w _); [|discriminate]. intros E. exists e0. split; [reflexivity|]. split; [assumption|congruence].
Qed.
Lemma session_env_some w a env : (0 < w_ppid w)%nat -> session_env w a = Some env ->
  session_of env a (Z.of_nat (w_ppid w)) /\ short_fields a.
Proof.
  intros Hp. unfold session_env. set (pid := Agent.print_nat _ _).
  intros E.
  apply add_var_some in E as (e1 & E & L1 & ->). apply add_var_some in E as (e2 & E & L2 & ->). apply add_var_some in E as (e3 & E & L3 & ->).
  apply add_var_some in E as (e4 & E & L4 & ->). apply add_var_some in E as (e5 & _ & _ & ->).
  split.
  - constructor.
    + repeat (apply putenv_other; [|no_var|no_var]). apply putenv_value.
    + repeat (apply putenv_other; [|no_var|no_var]). apply putenv_value.
    + repeat (apply putenv_other; [|no_var|no_var]). apply putenv_value.
    + apply putenv_value.
    + exists pid. split; [apply print_decimal; lia|]. repeat (apply putenv_other; [|no_var|no_var]). apply putenv_value.
  - unfold zlen in *. rewrite !length_app_s in *. cbn [String.length] in *. unfold short_fields, size. lia.
Qed.
Ltac side := first [solve [cbn [In]; auto 8] |
  match goal with |- context[String.length (String ?c ?s)] => let n := eval vm_compute in (String.length (String c s)) in change (String.length (String c s)) with n end; lia].
Lemma session_env_permitted w user a : permitted w user a -> short_fields a -> Z.of_nat (w_ppid w) < 2147483648 ->
  exists env, session_env w a = Some env.
Proof.
  intros P (S1 & S2 & S3) Hp. unfold session_env.
  assert (Lp : (String.length (Agent.print_nat (S (w_ppid w)) (w_ppid w)) <= 10)%nat).
  { apply print_nat_length; [lia|]. change (10 ^ Z.of_nat 10) with 10000000000. lia. }
  assert (A : forall name v env, In name ["QREXEC_AGENT_PID"; "HOME"; "SHELL"; "USER"; "LOGNAME"] -> size name + size v < 63 ->
              add_var w name v (Some env) = Some (putenv name v env)).
  { intros name v env I L. unfold add_var, ENV_BUF, zlen. cbv zeta. rewrite !length_app_s. unfold size in L.
    destruct (Z.leb_spec 64 (Z.of_nat (String.length name + (String.length "=" + String.length v)))) as [Q|_]; [change (String.length "=") with 1%nat in Q; lia|]. rewrite (pm_put _ _ _ P) by exact I. reflexivity. }
  unfold size in *.
  rewrite (A "QREXEC_AGENT_PID") by side. rewrite (A "HOME") by side. rewrite (A "SHELL") by side.
  rewrite (A "USER") by side. rewrite (A "LOGNAME") by side. eauto.
Qed.

(** ** Who a command runs as *)

(** [exec_qubes_rpc2] leaves the variables of the session alone *)
Lemma kept_value env name v : value env name (Some v) -> (forall r, ~ reserved (name +++ "=" +++ r)) -> value (kept env) name (Some v).
Proof.
  intros [H1 H2] N. unfold kept. split.
  - apply filter_In. split; [exact H1|]. assert (should_strip_env_var (name +++ "=" +++ v) = false) as -> by (apply strip_false, N). reflexivity.
  - intros e He V. apply filter_In in He as [He _]. auto.
Qed.
Lemma kept_session env a pid : session_of env a pid -> session_of (kept env) a pid.
Proof.
  intros [H1 H2 H3 H4 (s & D & H5)]. constructor; try (apply kept_value; [assumption|intros r ((q & E) & _); discriminate E]).
  exists s. split; [exact D|]. apply kept_value; [exact H5|]. intros r (_ & _ & N). apply N. exists r. reflexivity.
Qed.
Lemma shell_env program cmd envp path argv env : exec_qubes_rpc2 program cmd envp true = Execve path argv env -> path = "/bin/sh" /\ env = kept envp.
Proof.
  unfold exec_qubes_rpc2. cbv zeta. rewrite fold_kept by (cbn; lia). cbn [app negb].
  destruct (9 <? _)%nat; [discriminate|]. destruct (starts "/" program); [|discriminate]. cbn [negb].
  destruct (tokens cmd) as [|t1 [|t2 [|t3 [|t4 [|t5 l]]]]]; try discriminate; intros E; split; congruence.
Qed.

(** qrexec-agent runs as root: what runs has the ids and the groups of the user named, who
    was let in, and the environment of a session of that user *)
Theorem C96_runs_as_named w prog cmd user who path argv env : w_euid w = 0 -> (0 < w_ppid w)%nat ->
  do_exec w prog cmd user = Runs who path argv env ->
  exists a, w_accounts w user = Some a /\ usable a /\ who = Becomes (ac_uid a) (ac_gid a) (ac_name a) /\
    w_auth w = true /\ w_groups w = true /\ w_cred w = true /\ w_session w = true /\ w_setgid w = true /\ w_setuid w = true /\
    session_of env a (Z.of_nat (w_ppid w)) /\
    match prog with
    | None => path = ac_shell a /\ exists b, last_component (ac_shell a) b /\ argv = ["-" +++ b; "-c"; cmd]
    | Some p => exists envp, exec_qubes_rpc2 p cmd envp true = Execve path argv env /\ session_of envp a (Z.of_nat (w_ppid w))
    end.
Proof.
  intros H0 Hp. unfold do_exec. rewrite H0. change (negb (0 =? 0)) with false. cbv iota.
  destruct (w_accounts w user) as [a|]; [|discriminate].
  destruct (String.eqb_spec (ac_name a) "") as [|N1]; [discriminate|]. destruct (String.eqb_spec (ac_dir a) "") as [|N2]; [discriminate|].
  destruct (ac_passwd a) eqn:N3; [|discriminate]. cbn [negb andb].
  destruct (w_auth w) eqn:E1; [|discriminate]. destruct (w_groups w) eqn:E2; [|discriminate]. destruct (w_cred w) eqn:E3; [|discriminate]. destruct (w_session w) eqn:E4; [|discriminate]. cbn [negb].
  destruct (session_env w a) as [envp|] eqn:Es; [|discriminate]. apply session_env_some in Es as [Es _]; [|exact Hp].
  destruct (w_fork w) eqn:E5; [|discriminate]. destruct (w_setgid w) eqn:E6; [|discriminate]. destruct (w_setuid w) eqn:E7; [|discriminate]. cbn [negb]. cbv zeta.
  intros E. exists a. split; [reflexivity|]. split; [repeat split; assumption|].
  destruct prog as [p|].
  - unfold as_user in E. destruct (exec_qubes_rpc2 p cmd envp true) as [path' argv' env'| |] eqn:Ex; try discriminate E.
    assert (who = Becomes (ac_uid a) (ac_gid a) (ac_name a) /\ path' = path /\ argv' = argv /\ env' = env) as (-> & -> & -> & ->) by (split; [|split; [|split]]; congruence).
    do 7 (split; [reflexivity|]). split; [|exists envp; auto].
    apply shell_env in Ex as [_ ->]. apply kept_session. exact Es.
  - assert (who = Becomes (ac_uid a) (ac_gid a) (ac_name a) /\ path = ac_shell a /\ argv = ["-" +++ basename (ac_shell a); "-c"; cmd] /\ envp = env) as (-> & -> & -> & ->) by (split; [|split; [|split]]; congruence).
    do 7 (split; [reflexivity|]). split; [exact Es|]. split; [reflexivity|]. exists (basename (ac_shell a)). split; [apply basename_spec|reflexivity].
Qed.
Lemma exit_125 program cmd envp sh code : exec_qubes_rpc2 program cmd envp sh = ExecExit code -> code = 125.
Proof.
  unfold exec_qubes_rpc2. cbv zeta. rewrite fold_kept by (cbn; lia).
  destruct (9 <? _)%nat; [congruence|]. destruct (negb (starts "/" program)); [congruence|].
  destruct (tokens cmd) as [|t1 [|t2 [|t3 [|t4 [|t5 l]]]]]; try congruence;
    (destruct sh; cbn [negb]; [discriminate|]; match goal with |- match ?x with _ => _ end = _ -> _ => destruct x; discriminate end).
Qed.
(** otherwise nothing runs, and the status says that there was a problem *)
Theorem C96_or_not_at_all w cmd user prog :
  (exists who path argv env, do_exec w prog cmd user = Runs who path argv env) \/ do_exec w prog cmd user = NotRun 125.
Proof.
  assert (A : forall who p envp sh, (exists who' path argv env, as_user who (exec_qubes_rpc2 p cmd envp sh) = Runs who' path argv env) \/ as_user who (exec_qubes_rpc2 p cmd envp sh) = NotRun 125).
  { intros who p envp sh. destruct (exec_qubes_rpc2 p cmd envp sh) as [path argv env|code|] eqn:E; cbn [as_user]; [left; eauto| |destruct (Props_Exec.C52_no_abort _ _ _ _ E)].
    right. f_equal. exact (exit_125 _ _ _ _ _ E). }
  unfold do_exec. destruct (negb (w_euid w =? 0)).
  - destruct (w_self w) as [a|]; [|auto]. destruct (negb _); [auto|]. destruct prog; [apply A|left; eauto].
  - destruct (w_accounts w user) as [a|]; [|auto]. destruct (negb _); [auto|].
    destruct (negb (w_auth w)); [auto|]. destruct (negb (w_groups w)); [auto|]. destruct (negb (w_cred w)); [auto|]. destruct (negb (w_session w)); [auto|].
    destruct (session_env w a) as [envp|]; [|auto]. destruct (negb (w_fork w)); [auto|]. destruct (negb (w_setgid w)); [auto|]. destruct (negb (w_setuid w)); [auto|].
    cbv zeta. destruct prog; [apply A|left; eauto].
Qed.

(** every user who is let in can run commands and services, if the fields of the account
    are not too long *)
Theorem C96_runs_partial w user a prog cmd : w_euid w = 0 -> Z.of_nat (w_ppid w) < 2147483648 -> permitted w user a -> short_fields a ->
  (forall p, prog = Some p -> begins "/" p /\ exists full remote target, call_words cmd full remote target) ->
  exists path argv env, do_exec w prog cmd user = Runs (Becomes (ac_uid a) (ac_gid a) (ac_name a)) path argv env.
Proof.
  intros H0 Hp P S Hc. destruct (session_env_permitted w user a P S Hp) as (envp & Es).
  destruct P as [P1 (P2 & P3 & P4) P5 P6 P7 P8 P9 P10 P11 _]. unfold do_exec. rewrite H0. change (negb (0 =? 0)) with false. cbv iota. rewrite P1.
  apply String.eqb_neq in P2, P3. rewrite P2, P3, P4, P5, P6, P7, P8, Es, P9, P10, P11. cbn [negb andb]. cbv zeta.
  destruct prog as [p|]; [|eauto]. destruct (Hc p eq_refl) as (B & full & remote & target & W).
  assert (Ha : exists arg, argument_of full arg).
  { destruct (split1 "+" full) as [[x y]|] eqn:E.
    - apply split1_spec in E as [-> E]. exists (Some y). apply ao_some. exact E.
    - exists None. apply ao_none. apply split1_None. exact E. }
  destruct Ha as (arg & Ha). destruct (Props_Exec.C52_shell p cmd envp full remote target arg B W Ha) as (argv & rest & E & _).
  rewrite E. cbn [as_user]. eauto.
Qed.
(** a user whose home directory has a long name cannot run anything *)
Theorem C96_long_home_refuted w user a prog cmd : w_euid w = 0 -> w_accounts w user = Some a -> 58 < size (ac_dir a) ->
  do_exec w prog cmd user = NotRun 125.
Proof.
  intros H0 Ha L. destruct (C96_or_not_at_all w cmd user prog) as [(who & path & argv & env & E)|E]; [|exact E]. exfalso.
  unfold do_exec in E. rewrite H0 in E. change (negb (0 =? 0)) with false in E. cbv iota in E. rewrite Ha in E.
  destruct (negb _) in E; [discriminate E|]. destruct (negb (w_auth w)) in E; [discriminate E|]. destruct (negb (w_groups w)) in E; [discriminate E|].
  destruct (negb (w_cred w)) in E; [discriminate E|]. destruct (negb (w_session w)) in E; [discriminate E|].
  destruct (session_env w a) as [envp|] eqn:Es; [|discriminate E]. unfold session_env in Es.
  apply add_var_some in Es as (e1 & Es & _). apply add_var_some in Es as (e2 & Es & _). apply add_var_some in Es as (e3 & Es & _).
  apply add_var_some in Es as (e4 & _ & L4 & _). unfold zlen, size in *. rewrite !length_app_s in L4. cbn [String.length] in L4. lia.
Qed.
(** run by another user (as in tests), qrexec-agent serves that user only *)
Theorem C96_not_root w prog cmd user who path argv env : w_euid w <> 0 -> do_exec w prog cmd user = Runs who path argv env ->
  who = Same /\ (exists a, w_self w = Some a /\ ac_name a = user) /\
  match prog with
  | Some p => exec_qubes_rpc2 p cmd (w_environ w) false = Execve path argv env
  | None => path = "/bin/sh" /\ argv = ["sh"; "-c"; cmd] /\ env = w_environ w
  end.
Proof.
  intros H0. unfold do_exec. destruct (Z.eqb_spec (w_euid w) 0); [contradiction|]. cbn [negb]. destruct (w_self w) as [a|]; [|discriminate].
  destruct (String.eqb_spec (ac_name a) user) as [E|]; [|discriminate]. cbn [negb]. intros R.
  destruct prog as [p|]; [|split; [congruence|]; split; [eauto|]; repeat split; congruence].
  unfold as_user in R. destruct (exec_qubes_rpc2 p cmd (w_environ w) false) eqn:Ex; try discriminate R. split; [congruence|]. split; [eauto|]. congruence.
Qed.
(** the status of a command: its exit code, or 128 and the signal that ended it *)
Theorem C96_status : (forall z, parent_status (Exited z) true = z) /\ (forall n, parent_status (Signalled n) true = 128 + n) /\
  parent_status NotWaited true = 1 /\ (forall st, parent_status st false = 125).
Proof. split; [reflexivity|]. split; [|split; reflexivity]. intros n. unfold parent_status. cbn [negb]. apply Z.add_comm. Qed.

(** ** Which user *)

(** the command line of the agent names the user; the configuration of the service may name
    another one, and no other user is used *)
Theorem C96_which_user m dirs k line prog command user p : SpecSpawn.services_in m dirs -> SpecSpawn.works k ->
  Spawn.agent_serve m k 512 line = Spawn.Serves (Spawn.OnProcess prog command user) p ->
  exists named rest, line = named +++ ":" +++ rest /\ lacks ":" named /\
    (user = Some named \/
     exists c cf nogui, line_means true line (Some named) nogui command (Some c) /\
       SpecSpawn.configured m c (Some named) cf user /\ user = Toml.cf_user cf /\ user <> None).
Proof.
  intros HP HW E. destruct (proj1 (Props_Spawn.C95_started m dirs k line HP HW) _ _ E) as (command' & c & greet & user' & A & C).
  assert (command' = command /\ user' = user) as [-> ->] by (inversion C; auto). clear C.
  assert (U : forall u g text c, line_means true line u g text c -> exists named rest, u = Some named /\ line = named +++ ":" +++ rest /\ lacks ":" named).
  { intros u g text c' H. inversion H as [rest t c2 UP|rest t UP]; inversion UP; subst; eauto. }
  inversion A as [u g text c' cf u' HL HN HC HS E1 E2 E3 E4|u text c' HL HD|u g text HL E1 E2 E3 E4]; subst; [|discriminate|];
    change (negb false) with true in HL; destruct (U _ _ _ _ HL) as (named & rest & -> & El & Hn); exists named, rest; (split; [exact El|]); (split; [exact Hn|]); [|auto].
  unfold SpecSpawn.configured, Toml.load_service_config_v2 in HC. destruct (Toml.load_service_config_raw _ _ _ _ _) as [cf'|] eqn:Er; [|discriminate HC].
  destruct (Toml.cf_user cf') as [u|] eqn:Eu.
  - right. exists c', cf, g. split; [exact HL|].
    assert (Q : cf' = cf /\ user = Some u).
    { destruct (negb _); [discriminate HC|]. destruct (Toml.cf_exit_on_stdin_eof cf'); [discriminate HC|]. destruct (Toml.cf_exit_on_stdout_eof cf'); [discriminate HC|]. split; congruence. }
    destruct Q as [-> ->]. split; [|split; [congruence|discriminate]].
    unfold SpecSpawn.configured, Toml.load_service_config_v2. rewrite Er, Eu. exact HC.
  - left. congruence.
Qed.
(** a fork server runs all as the user it belongs to, in the shell that user's session has *)
Theorem C96_fork_server environ prog cmd who path argv env : fork_server_exec environ prog cmd = Runs who path argv env ->
  who = Same /\
  match prog with
  | Some p => exec_qubes_rpc2 p cmd environ false = Execve path argv env
  | None => env = environ /\ (exists b, last_component path b /\ argv = [b; "-c"; cmd]) /\
      (forall s, value environ "SHELL" (Some s) -> path = s) /\ (value environ "SHELL" None -> path = "/bin/sh")
  end.
Proof.
  unfold fork_server_exec, as_user. destruct prog as [p|].
  - destruct (exec_qubes_rpc2 p cmd environ false); intros E; try discriminate E. split; congruence.
  - cbv zeta. intros E.
    assert (path = match getenv environ "SHELL" with Some s => s | None => "/bin/sh" end) as -> by congruence.
    split; [congruence|]. split; [congruence|]. split; [exists (basename (match getenv environ "SHELL" with Some s => s | None => "/bin/sh" end)); split; [apply basename_spec|congruence]|].
    clear E. unfold getenv. split.
    + intros s [H1 H2]. destruct (find (starts ("SHELL" +++ "=")) environ) as [e|] eqn:F.
      * apply find_some in F as [F1 F2]. apply starts_spec in F2. rewrite (H2 e F1 F2). reflexivity.
      * exfalso. pose proof (find_none _ _ F _ H1) as K. cbv beta in K.
        change ("SHELL" +++ "=" +++ s) with (("SHELL" +++ "=") +++ s) in K. rewrite starts_app in K. discriminate K.
    + intros H. destruct (find (starts ("SHELL" +++ "=")) environ) as [e|] eqn:F; [|reflexivity].
      exfalso. apply find_some in F as [F1 F2]. apply starts_spec in F2. exact (H e F1 F2).
Qed.
(** in dom0 no user is changed to, whatever the configuration of the service says *)
Theorem C96_dom0_user environ prog cmd user who path argv env : dom0_exec environ prog cmd user = Runs who path argv env ->
  who = Same /\
  match prog with
  | Some p => exec_qubes_rpc2 p cmd environ false = Execve path argv env
  | None => path = "/bin/bash" /\ argv = ["bash"; "-c"; cmd] /\ env = environ
  end.
Proof. unfold dom0_exec, as_user. destruct prog as [p|]; [destruct (exec_qubes_rpc2 p cmd environ false)|]; intros E; try discriminate E; repeat split; congruence. Qed.
Theorem C96_dom0_force_user_refuted : exists m k line p environ path argv env,
  SpecSpawn.works k /\ Spawn.run_qrexec_to_dom0 m k line = Spawn.Serves (Spawn.OnProcess (Some "/etc/qubes-rpc/s") "s work" (Some "root")) p /\
  dom0_exec environ (Some "/etc/qubes-rpc/s") "s work" (Some "root") = Runs Same path argv env.
Proof.
  exists (Spawn.mkMachine (Agent.mkFiles (fun p => if String.eqb p "/etc/qubes-rpc/s" then LFound (KFile true) else
            if String.eqb p "/etc/qubes/rpc-config/s" then LFound (KFile false) else LAbsent)
            (fun _ => Some "force-user = 'root'") "/etc/qubes/rpc-config") "/etc/qubes-rpc" true true true true), (Spawn.mkLink true true 100), "QUBESRPC s work".
  eexists. exists []. do 3 eexists. split; [split; reflexivity|]. split; vm_compute; reflexivity.
Qed.

(** ** Examples *)
Definition ex_user : account := mkAcc "user" true 1000 1000 "/home/user" "/bin/bash".
Definition ex_world : world :=
  mkWorld 0 None (fun n => if String.eqb n "user" then Some ex_user else None) true true true true (fun _ => true) ["HOME=/"; "LANG=C"] 321 true true true [].
Example C96_example :
  permitted ex_world "user" ex_user /\ short_fields ex_user /\
  do_exec ex_world None "ls -l" "user" =
    Runs (Becomes 1000 1000 "user") "/bin/bash" ["-bash"; "-c"; "ls -l"]
      ["LANG=C"; "QREXEC_AGENT_PID=321"; "HOME=/home/user"; "SHELL=/bin/bash"; "USER=user"; "LOGNAME=user"] /\
  do_exec ex_world None "ls -l" "root" = NotRun 125 /\
  fork_server_exec ["SHELL=/bin/zsh"] None "ls" = Runs Same "/bin/zsh" ["zsh"; "-c"; "ls"] ["SHELL=/bin/zsh"] /\
  exists argv env, do_exec ex_world (Some "/etc/qubes-rpc/q") "q+a work" "user" = Runs (Becomes 1000 1000 "user") "/bin/sh" argv env /\
    In "USER=user" env.
Proof.
  split; [constructor; try reflexivity; repeat split; discriminate|]. split; [cbv; repeat split; discriminate|].
  split; [vm_compute; reflexivity|]. split; [vm_compute; reflexivity|]. split; [vm_compute; reflexivity|].
  do 2 eexists. split; [vm_compute; reflexivity|]. cbn. auto 8.
Qed.
