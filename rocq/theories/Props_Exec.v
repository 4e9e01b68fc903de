(** C49, C50, C52, C64, C65, C66: running services (libqrexec/exec.c) *)
From Coq Require Import String Ascii List Bool Arith ZArith Lia.
From Verif Require Import Base SysInfo Token Rule Policy SpecPolicy SpecDaemon DaemonPolicy SpecCall Sanitize DaemonAgent
  Exec SpecExec SpecLookup ExecCProofs LookupProofs EnvProofs.
Import ListNotations.
Open Scope string_scope.
Open Scope list_scope.
Open Scope Z_scope.

(** * C49: command lines *)

(** The result says what the line means, and every meaningful line is accepted. *)
Theorem C49_command_lines line strip p :
  parse_qubes_rpc_command line strip = Some p <->
  exists c, line_means strip line (pc_username p) (pc_nogui p) (pc_command p) c /\
    pc_descriptor p = option_map c_full c /\ pc_name p = option_map c_name c /\
    pc_arg p = match c with Some c => c_arg c | None => None end /\
    pc_source p = option_map c_source c.
Proof.
  rewrite parse_iff. split.
  - intros (u & g & text & c & H & ->). exists c. destruct c; cbn; auto.
  - intros (c & H & H1 & H2 & H3 & H4).
    exists (pc_username p), (pc_nogui p), (pc_command p), c. split; [exact H|].
    destruct p as [u cmd g d n a s]; cbn in *. destruct c as [c|]; cbn in *; subst; reflexivity.
Qed.
Theorem C49_other_lines_refused line strip :
  parse_qubes_rpc_command line strip = None <->
  forall user nogui command c, ~ line_means strip line user nogui command c.
Proof.
  destruct (parse_qubes_rpc_command line strip) as [p|] eqn:E.
  - split; [discriminate|]. intros H. apply C49_command_lines in E as (c & Hc & _). destruct (H _ _ _ _ Hc).
  - split; auto. intros _ u g text c H.
    assert (parse_qubes_rpc_command line strip = Some (to_cmd u g text c)) by (apply parse_iff; eauto 8). congruence.
Qed.
(** A line has one meaning only. *)
Theorem C49_unambiguous strip line u g t c u' g' t' c' :
  line_means strip line u g t c -> line_means strip line u' g' t' c' -> u = u' /\ g = g' /\ t = t' /\ c = c'.
Proof.
  intros H1 H2.
  assert (E1 : parse_qubes_rpc_command line strip = Some (to_cmd u g t c)) by (apply parse_iff; eauto 8).
  assert (E2 : parse_qubes_rpc_command line strip = Some (to_cmd u' g' t' c')) by (apply parse_iff; eauto 8).
  rewrite E1 in E2. injection E2 as E2.
  destruct c as [[f n a s]|], c' as [[f' n' a' s']|]; cbn in E2; injection E2; intros; subst; auto; discriminate.
Qed.

Definition the_dirs := ["/run/qubes-rpc"; "/usr/local/etc/qubes-rpc"; "/etc/qubes-rpc"].
Definition the_path := "/run/qubes-rpc:/usr/local/etc/qubes-rpc:/etc/qubes-rpc".
Lemma the_path_ok : search_path the_path the_dirs.
Proof.
  split; [reflexivity|]. intros d [<-|[<-|[<-|[]]]]; split; try discriminate; reflexivity.
Qed.

(** The search stays in the configured directories: what is used is an entry with
    the name of the service, with or without argument, of one of them. *)
Theorem C49_search_stays_inside_partial fs path dirs sockets send text c command p :
  search_path path dirs -> call_text text c -> lacks "/" (c_full c) ->
  (let s := find_qrexec_service fs path sockets send (c_full c) (c_name c) (c_arg c) command in
   s = RunProgram p \/ exists f, s = ConnectSocket p f) ->
  exists d n, In d dirs /\ p = d +++ "/" +++ n /\ lacks "/" n /\ n <> "" /\ (n = c_full c \/ n = c_name c).
Proof.
  intros HP HC HL. cbv zeta. intros Hcase.
  pose proof (service_sound fs path dirs sockets send c command _ HP eq_refl) as H.
  assert (K : exists th, implementation fs dirs c p th).
  { destruct Hcase as [E|[f E]]; rewrite E in H; destruct H as (p' & th & HI & HR); inversion HR; subst; eauto. }
  destruct K as [th HI]. clear Hcase H HP.
  assert (B : exists d n, In d dirs /\ p = in_dir d n /\ (n = c_full c \/ n = c_name c)).
  { destruct HI as [(_ & _ & b & d & a & -> & _ & -> & _)|_ (_ & _ & b & d & a & -> & _ & -> & _)];
      exists d; eexists; (split; [apply in_or_app; right; left; reflexivity|]); eauto. }
  destruct B as (d & n & Hd & -> & Hn). exists d, n. split; [exact Hd|]. split; [reflexivity|].
  inversion HC as [desc name arg full source rest Hsp H1 H2 H3 H4 H5 H6 E1 E2]. subst c. cbn [c_full c_name] in *.
  assert (F : exists r, full = name +++ "+" +++ r).
  { destruct Hsp as [m Hm|m x Hm]; [exists ""|exists x]; reflexivity. }
  destruct F as [r ->].
  assert (L : lacks "/" name).
  { unfold lacks in *. rewrite has_char_app in HL. apply orb_false_iff in HL. tauto. }
  assert (N : name <> "") by (intros ->; change (size "") with 0 in H3; lia).
  split; [|split; [|exact Hn]].
  - destruct Hn as [->| ->]; auto.
  - destruct Hn as [->| ->]; [destruct name; discriminate|exact N].
Qed.
(** ... but an entry may be the directory itself or its parent: a call of the
    service .. is taken to be implemented by the parent of the first directory.
    (Running it fails, with the wrong exit code.) *)
Theorem C49_dotdot_refuted : exists fs,
  (forall p, fs p = LFound (KFile true) -> p = "/run/qubes-rpc/..") /\
  call_text "..+ work" (mkCall "..+" ".." (Some "") "work") /\
  find_qrexec_service fs the_path true true "..+" ".." (Some "") "..+ work" = RunProgram "/run/qubes-rpc/..".
Proof.
  exists (fun p => if String.eqb p "/run/qubes-rpc/.." then LFound (KFile true) else LAbsent).
  split; [|split].
  - intros p. destruct (String.eqb_spec p "/run/qubes-rpc/.."); [auto|discriminate].
  - apply parse_call_iff. vm_compute. reflexivity.
  - vm_compute. reflexivity.
Qed.
Example C49_example :
  parse_qubes_rpc_command "root:nogui:QUBESRPC qubes.Copy+a+b work name vault" true =
    Some (mkCmd (Some "root") "qubes.Copy+a+b work name vault" true (Some "qubes.Copy+a+b") (Some "qubes.Copy") (Some "a+b") (Some "work")) /\
  parse_qubes_rpc_command "QUBESRPC qubes.Copy work" false =
    Some (mkCmd None "qubes.Copy work" false (Some "qubes.Copy+") (Some "qubes.Copy") None (Some "work")) /\
  parse_qubes_rpc_command "user:ls -l" true = Some (mkCmd (Some "user") "ls -l" false None None None None) /\
  parse_qubes_rpc_command "QUBESRPC  qubes.Copy work" false = None /\
  parse_qubes_rpc_command "QUBESRPC +x work" false = None /\
  parse_qubes_rpc_command "QUBESRPC qubes.Copy" false = None /\
  parse_qubes_rpc_command "QUBESRPCx" false = None /\
  parse_qubes_rpc_command "no colon" true = None.
Proof. repeat split; vm_compute; reflexivity. Qed.
(** the length limits are sharp *)
Fixpoint letters (n : nat) : string := match n with O => "" | S m => String "a" (letters m) end.
Lemma letters_lacks c n : c <> "a"%char -> lacks c (letters n).
Proof. intros H. induction n; [reflexivity|]. unfold lacks in *. cbn. destruct (Ascii.eqb_spec c "a"); [contradiction|auto]. Qed.
Lemma letters_size n : size (letters n) = Z.of_nat n.
Proof. unfold size. induction n; cbn [letters String.length]; lia. Qed.
Theorem C49_name_limit n :
  (exists p, parse_qubes_rpc_command ("QUBESRPC " +++ letters n +++ " work") false = Some p) <-> 1 <= Z.of_nat n <= 255.
Proof.
  split.
  - intros [p H]. apply C49_command_lines in H as (c & H & _).
    inversion H as [rest text c' HU HG HC E1 E2|rest text HU HG HN E1 E2].
    + inversion HU; subst rest. apply gui_part_iff in HG as [_ E].
      change (starts "nogui:" ("QUBESRPC " +++ letters n +++ " work")) with false in E. cbv iota in E.
      apply (app_inj_l_s "QUBESRPC ") in E.
      clear HU H. inversion HC as [desc name arg full source tail Hsp K1 K2 K3 K4 K5 K6 E3 E4].
      assert (D : Some (desc, source +++ tail) = Some (letters n, "work")).
      { rewrite <- (split1_at " " desc (source +++ tail)) by exact K1.
        rewrite <- (split1_at " " (letters n) "work") by (apply letters_lacks; discriminate).
        f_equal. rewrite E in E3. exact E3. }
      injection D as -> _. inversion Hsp as [m Hm|m x Hm E5].
      * subst name. rewrite letters_size in K3. exact K3.
      * exfalso. assert (L : lacks "+" (letters n)) by (apply letters_lacks; discriminate).
        rewrite <- E5 in L. unfold lacks in L. rewrite has_char_app in L. cbn in L. rewrite orb_true_r in L. discriminate.
    + inversion HU; subst rest. apply gui_part_iff in HG as [_ E].
      change (starts "nogui:" ("QUBESRPC " +++ letters n +++ " work")) with false in E. cbv iota in E.
      exfalso. apply HN. rewrite E. exists (" " +++ letters n +++ " work"). reflexivity.
  - intros Hn.
    assert (L : forall c, c <> "a"%char -> lacks c (letters n)) by (intros; apply letters_lacks; auto).
    exists (to_cmd None false (letters n +++ " work") (Some (mkCall (letters n +++ "+") (letters n) None "work"))).
    apply parse_iff. do 4 eexists. split; [|reflexivity].
    apply lm_call with ("QUBESRPC " +++ letters n +++ " work").
    + constructor.
    + constructor. intros [r H]. discriminate.
    + change (letters n +++ " work") with (letters n +++ " " +++ "work" +++ "").
      apply ct with (desc := letters n); auto.
      * constructor. apply L. discriminate.
      * apply L. discriminate.
      * rewrite letters_size. lia.
      * rewrite letters_size. lia.
      * reflexivity.
      * discriminate.
      * left. reflexivity.
Qed.

(** * C50: port numbers *)
Theorem C50_ports p : validate_port p = true <-> exists n, 1 <= n <= 65535 /\ decimal p n.
Proof. exact (validate_port_iff p). Qed.
Example C50_example : validate_port "80" = true /\ decimal "80" 80 /\ validate_port "65535" = true /\
  validate_port "65536" = false /\ validate_port "080" = false /\ validate_port "0" = false /\ validate_port "" = false.
Proof.
  repeat split; try (vm_compute; reflexivity).
  change "80" with ("8" +++ "0"). change 80 with (10 * 8 + 0). apply dec_next.
  - apply dec_first; [|discriminate]. apply (dg "8"%char). cbn. lia.
  - apply (dg "0"%char). cbn. lia.
Qed.

(** * C52: the environment of a service *)

(** Run directly: the variables of the call are the ones for this call, the rest is
    the environment of the caller without anything reserved. *)
Theorem C52_direct program cmd envp full remote a arg :
  begins "/" program -> call_words cmd full remote a -> argument_of full arg ->
  exists rest mine,
    exec_qubes_rpc2 program cmd envp false = Execve program (program :: service_args arg) (rest ++ mine) /\
    without reserved envp rest /\ (forall e, In e mine -> reserved e) /\
    call_env (rest ++ mine) full remote arg a.
Proof.
  intros Hp Hc Ha. exists (kept envp), (added full remote arg a).
  split; [apply exec_direct; auto|]. split; [apply kept_without|]. split; [apply added_reserved|apply added_env].
Qed.
(** Run through a login shell: whatever the profile does to the environment, the
    shell runs the same program with the same arguments and the same variables of
    the call, and leaves the rest alone. *)
Theorem C52_shell program cmd envp full remote a arg :
  begins "/" program -> call_words cmd full remote a -> argument_of full arg ->
  exists argv rest,
    exec_qubes_rpc2 program cmd envp true = Execve "/bin/sh" argv rest /\
    without reserved envp rest /\
    forall profile, exists env,
      sh_login argv profile = Some (program, program :: service_args arg, env) /\
      call_env env full remote arg a /\
      forall e, (forall n, In n reserved_names -> ~ is_var n e) -> (In e env <-> In e profile).
Proof.
  intros Hp Hc Ha. eexists. exists (kept envp). split; [apply exec_shell; eauto|].
  split; [apply kept_without|]. intros profile. eexists. split; [apply run_script|]. apply shell_env.
Qed.
(** Nothing else is ever run, and the environment array is never overrun. *)
Theorem C52_nothing_else program cmd envp sh path argv env :
  exec_qubes_rpc2 program cmd envp sh = Execve path argv env ->
  begins "/" program /\ ((exists f r, words cmd [f; r]) \/ exists f r ty t, words cmd [f; r; ty; t]).
Proof. exact (exec_refused program cmd envp sh path argv env). Qed.
Theorem C52_no_abort program cmd envp sh : exec_qubes_rpc2 program cmd envp sh <> ExecAbort.
Proof. exact (exec_never_aborts program cmd envp sh). Qed.
Example C52_example :
  exec_qubes_rpc2 "/etc/qubes-rpc/qubes.Gpg" "qubes.Gpg+k work" ["HOME=/root"; "QREXEC_REMOTE_DOMAIN=dom0"; "QREXEC_AGENT_PID=7"] false =
    Execve "/etc/qubes-rpc/qubes.Gpg" ["/etc/qubes-rpc/qubes.Gpg"; "k"]
      ["HOME=/root"; "QREXEC_AGENT_PID=7"; "QREXEC_REQUESTED_TARGET_TYPE="; "QREXEC_SERVICE_FULL_NAME=qubes.Gpg+k";
       "QREXEC_REMOTE_DOMAIN=work"; "QREXEC_SERVICE_ARGUMENT=k"] /\
  call_words "qubes.Gpg+k  work" "qubes.Gpg+k" "work" AskedNothing /\ argument_of "qubes.Gpg+k" (Some "k") /\
  sh_login ["/bin/sh"; "-lc"; shell_script true false true true; "sh"; "/p"; "s+$(x)"; "work"; "$(x)"; "t"]
    ["QREXEC_REMOTE_DOMAIN=dom0"; "A=1"] =
    Some ("/p", ["/p"; "$(x)"],
      ["A=1"; "QREXEC_SERVICE_FULL_NAME=s+$(x)"; "QREXEC_REMOTE_DOMAIN=work"; "QREXEC_REQUESTED_TARGET_TYPE=keyword";
       "QREXEC_REQUESTED_TARGET_KEYWORD=t"; "QREXEC_SERVICE_ARGUMENT=$(x)"]).
Proof.
  split; [vm_compute; reflexivity|]. split; [constructor; apply tokens_iff; vm_compute; reflexivity|].
  split; [|vm_compute; reflexivity].
  change "qubes.Gpg+k" with ("qubes.Gpg" +++ "+" +++ "k"). constructor. reflexivity.
Qed.
(** A kind of target other than name and keyword is dropped by the shell but kept
    without it (qrexec-daemon sends only those two). *)
Example C52_unknown_kind : exists argv env,
  exec_qubes_rpc2 "/p" "s work uuid t" [] false =
    Execve "/p" ["/p"] ["QREXEC_REQUESTED_TARGET_TYPE=uuid"; "QREXEC_SERVICE_FULL_NAME=s"; "QREXEC_REMOTE_DOMAIN=work"] /\
  exec_qubes_rpc2 "/p" "s work uuid t" [] true = Execve "/bin/sh" argv env /\
  exists env', sh_login argv [] = Some ("/p", ["/p"], env') /\ value env' "QREXEC_REQUESTED_TARGET_TYPE" (Some "").
Proof.
  do 2 eexists. split; [vm_compute; reflexivity|]. split; [vm_compute; reflexivity|].
  eexists. split; [vm_compute; reflexivity|]. apply value_some; [cbn; tauto|].
  intros e He Hi. cbn [In] in He. repeat (destruct He as [<-|He]; [first [reflexivity|exfalso; novar Hi]|]). contradiction.
Qed.

(** * C64: which implementation is used *)
Theorem C64_sound fs path dirs sockets send c command s :
  search_path path dirs ->
  find_qrexec_service fs path sockets send (c_full c) (c_name c) (c_arg c) command = s ->
  s <> ServiceAbsent -> s <> ServiceError ->
  exists p th, implementation fs dirs c p th /\ reached sockets send command p th (c_arg c) s.
Proof.
  intros HP E N1 N2. pose proof (service_sound fs path dirs sockets send c command s HP E) as H.
  destruct s; auto; contradiction.
Qed.
Theorem C64_complete fs path dirs sockets send c command p th s :
  search_path path dirs -> fits dirs (c_full c) -> fits dirs (c_name c) -> link_fits th ->
  implementation fs dirs c p th -> reached sockets send command p th (c_arg c) s ->
  find_qrexec_service fs path sockets send (c_full c) (c_name c) (c_arg c) command = s.
Proof. exact (service_complete fs path dirs sockets send c command p th s). Qed.
Theorem C64_absent fs path dirs sockets send c command :
  search_path path dirs -> fits dirs (c_full c) -> fits dirs (c_name c) ->
  (find_qrexec_service fs path sockets send (c_full c) (c_name c) (c_arg c) command = ServiceAbsent <->
   nowhere fs dirs (c_full c) /\ nowhere fs dirs (c_name c)).
Proof.
  intros HP F1 F2. split.
  - intros E. exact (service_sound fs path dirs sockets send c command _ HP E).
  - intros [H1 H2]. eapply service_absent; eauto.
Qed.
Definition ex_fs : filesystem := fun p =>
  if String.eqb p "/etc/qubes-rpc/qubes.Gpg" then LFound (KFile true)
  else if String.eqb p "/usr/local/etc/qubes-rpc/qubes.Gpg+k" then LLink (Some "/x") (StatOk KSocket)
  else if String.eqb p "/etc/qubes-rpc/qubes.ConnectTCP" then LLink (Some "/dev/tcp/127.0.0.1") StatAbsent
  else LAbsent.
Example C64_example :
  find_qrexec_service ex_fs the_path true true "qubes.Gpg+k" "qubes.Gpg" (Some "k") "qubes.Gpg+k work" =
    ConnectSocket "/usr/local/etc/qubes-rpc/qubes.Gpg+k" (Some ("qubes.Gpg+k work" +++ str1 NUL)) /\
  find_qrexec_service ex_fs the_path true true "qubes.Gpg+l" "qubes.Gpg" (Some "l") "qubes.Gpg+l work" =
    RunProgram "/etc/qubes-rpc/qubes.Gpg" /\
  find_qrexec_service ex_fs the_path true false "qubes.ConnectTCP+80" "qubes.ConnectTCP" (Some "80") "qubes.ConnectTCP+80 work" =
    ConnectTcp "127.0.0.1" "80" None /\
  find_qrexec_service ex_fs the_path true true "x+" "x" None "x work" = ServiceAbsent /\
  implementation ex_fs the_dirs (mkCall "qubes.Gpg+k" "qubes.Gpg" (Some "k") "work")
    "/usr/local/etc/qubes-rpc/qubes.Gpg+k" (Is KSocket) /\
  fits the_dirs "qubes.Gpg+k".
Proof.
  do 4 (split; [vm_compute; reflexivity|]). split.
  - apply im_exact. split; [vm_compute; discriminate|]. split; [discriminate|].
    exists ["/run/qubes-rpc"], "/usr/local/etc/qubes-rpc", ["/etc/qubes-rpc"]. split; [reflexivity|].
    split; [intros d [<-|[]]; apply en_absent; reflexivity|]. split; [reflexivity|].
    apply en_link with "/x"; [reflexivity|]. intros [H|[r H]]; discriminate.
  - intros d [<-|[<-|[<-|[]]]]; vm_compute; reflexivity.
Qed.
(** A dangling link does not stop the search, although the documentation of the
    function says that it is an error. *)
Example C64_dangling_link_skipped : exists fs,
  fs "/run/qubes-rpc/x" = LLink (Some "/gone") StatAbsent /\
  find_qrexec_service fs the_path true true "x+" "x" None "x work" = RunProgram "/etc/qubes-rpc/x".
Proof.
  exists (fun p => if String.eqb p "/run/qubes-rpc/x" then LLink (Some "/gone") StatAbsent
                   else if String.eqb p "/etc/qubes-rpc/x" then LFound (KFile true) else LAbsent).
  split; vm_compute; reflexivity.
Qed.

(** * C65: TCP services connect only where configured *)
Theorem C65_only_configured fs path dirs sockets send c command h p f :
  search_path path dirs ->
  find_qrexec_service fs path sockets send (c_full c) (c_name c) (c_arg c) command = ConnectTcp h p f ->
  port_number p /\ exists entry_path target, implementation fs dirs c entry_path (Tcp target) /\ tcp_to target (c_arg c) h p.
Proof.
  intros HP E. pose proof (service_sound fs path dirs sockets send c command _ HP E) as H. cbn in H.
  destruct H as (q & th & HI & HR). inversion HR; subst. eauto.
Qed.
(** a link with host and port leaves the caller no choice, one with a host only the
    choice of the port *)
Theorem C65_fixed_host h p a h' p' : lacks "/" h -> h <> "" ->
  (tcp_to ("/dev/tcp/" +++ h +++ "/" +++ p) a h' p' -> h' = h /\ p' = p /\ no_argument a) /\
  (tcp_to ("/dev/tcp/" +++ h) a h' p' -> h' = h /\ a = Some p').
Proof.
  intros Hh Hn. split; intros H.
  - remember ("/dev/tcp/" +++ h +++ "/" +++ p) as t eqn:E. destruct H as [x y b Hx Hb|x y Hx Hxn Hyn|x y Hy Hx].
    + apply (app_inj_l_s "/dev/tcp/") in E.
      assert (D : Some (x, y) = Some (h, p)).
      { rewrite <- (split1_at "/" x y) by exact Hx. rewrite <- (split1_at "/" h p) by exact Hh. f_equal. exact E. }
      injection D as -> ->. auto.
    + apply (app_inj_l_s "/dev/tcp/") in E. exfalso. rewrite E in Hx.
      unfold lacks in Hx. rewrite has_char_app in Hx. cbn in Hx. rewrite orb_true_r in Hx. discriminate.
    + discriminate.
  - remember ("/dev/tcp/" +++ h) as t eqn:E. destruct H as [x y b Hx Hb|x y Hx Hxn Hyn|x y Hy Hx].
    + apply (app_inj_l_s "/dev/tcp/") in E. exfalso. rewrite <- E in Hh.
      unfold lacks in Hh. rewrite has_char_app in Hh. cbn in Hh. rewrite orb_true_r in Hh. discriminate.
    + apply (app_inj_l_s "/dev/tcp/") in E. auto.
    + discriminate.
Qed.
Example C65_example :
  tcp_to "/dev/tcp" (Some "fe80++1+443") "fe80::1" "443" /\ port_number "443" /\
  tcp_address "/dev/tcp/10.0.0.1/22" (Some "x") = None /\
  tcp_address "/dev/tcp" (Some "10.0.0.1+22") = Some ("10.0.0.1", "22").
Proof.
  split; [|split; [apply validate_port_iff; vm_compute; reflexivity|split; vm_compute; reflexivity]].
  change (Some "fe80++1+443") with (Some ("fe80++1" +++ "+" +++ "443")).
  change "fe80::1" with (plus_to_colon "fe80++1"). constructor; reflexivity.
Qed.

(** * C66: the service learns who called and what was called *)
Definition word (s : string) : Prop := s <> "" /\ lacks " " s.
(** a call the receiving side can take: one word, a name of at most 255 bytes *)
Definition callable (full : string) : Prop :=
  word full /\ size full <= 65000 /\ exists name arg, full = name +++ "+" +++ arg /\ lacks "+" name /\ 1 <= size name <= 255.

Lemma callable_text full caller rest : callable full -> word caller -> end_of_word rest ->
  exists c, call_text (full +++ " " +++ caller +++ rest) c /\ c_full c = full /\ c_source c = caller /\
    argument_of full (c_arg c).
Proof.
  intros ((Hn & Hw) & Hs & name & arg & -> & Hl & Hz) (Cn & Cw) He.
  exists (mkCall (name +++ "+" +++ arg) name (Some arg) caller). split; [|split; [reflexivity|split; [reflexivity|]]].
  - apply ct; auto. constructor. exact Hl.
  - cbn. constructor. exact Hl.
Qed.

Theorem C66_in_a_qube_partial caller service g u auto cmd w :
  performed caller service g (RunInVM u auto cmd w) ->
  lacks ":" (gc_user g) -> callable (told_service g service) -> word (told_caller g caller) ->
  exists p arg,
    parse_qubes_rpc_command cmd true = Some p /\ pc_username p = Some (gc_user g) /\
    pc_descriptor p = Some (told_service g service) /\ pc_source p = Some (told_caller g caller) /\
    argument_of (told_service g service) arg /\
    forall program envp, begins "/" program ->
    exists argv rest, exec_qubes_rpc2 program (pc_command p) envp true = Execve "/bin/sh" argv rest /\
    forall profile, exists env,
      sh_login argv profile = Some (program, program :: service_args arg, env) /\
      call_env env (told_service g service) (told_caller g caller) arg AskedNothing.
Proof.
  intros H Hu Hc Hw. inversion H as [| |u' Hm Hg E]; subst.
  assert (X : exists c, call_text (told_service g service +++ " " +++ told_caller g caller) c /\
     c_full c = told_service g service /\ c_source c = told_caller g caller /\ argument_of (told_service g service) (c_arg c)).
  { destruct (callable_text (told_service g service) (told_caller g caller) "" Hc Hw (or_introl eq_refl)) as (c & Ht & R).
    rewrite app_nil_s in Ht. eauto. }
  destruct X as (c & Ht & Hf & Hs & Ha).
  exists (to_cmd (Some (gc_user g)) false (told_service g service +++ " " +++ told_caller g caller) (Some c)), (c_arg c).
  split; [|cbn; rewrite Hf, Hs; do 4 (split; [auto|])].
  - apply parse_iff. do 4 eexists. split; [|reflexivity].
    apply lm_call with ("QUBESRPC " +++ (told_service g service +++ " " +++ told_caller g caller)); auto.
    + constructor. exact Hu.
    + constructor. intros [r Hr]. discriminate.
  - intros program envp Hp.
    assert (CW : call_words (told_service g service +++ " " +++ told_caller g caller)
              (told_service g service) (told_caller g caller) AskedNothing).
    { constructor. destruct Hc as ((N & L) & _). destruct Hw as (N' & L').
      apply tokens_iff. rewrite tokens_word; auto; [|right; eexists; reflexivity].
      change (" " +++ told_caller g caller) with (String " " (told_caller g caller)). rewrite tokens_blank.
      rewrite <- (app_nil_s (told_caller g caller)) at 1. rewrite tokens_word; auto. left. reflexivity. }
    destruct (C52_shell program _ envp _ _ _ _ Hp CW Ha) as (argv & rest & E & _ & P).
    exists argv, rest. split; [exact E|]. intros profile. destruct (P profile) as (env & P1 & P2 & _). eauto.
Qed.

Theorem C66_in_dom0_partial caller service g remote cmd :
  performed caller service g (RunInDom0 remote cmd) ->
  callable (told_service g service) -> word (told_caller g caller) ->
  (forall t, gc_requested g = "@" +++ t \/ gc_requested g = t -> word t) ->
  exists p arg a,
    parse_qubes_rpc_command cmd false = Some p /\ pc_descriptor p = Some (told_service g service) /\
    pc_source p = Some (told_caller g caller) /\ remote = told_caller g caller /\
    argument_of (told_service g service) arg /\
    (starts "@" (gc_requested g) = false /\ a = AskedName (gc_requested g) \/ exists kw, gc_requested g = "@" +++ kw /\ a = AskedKeyword kw) /\
    forall program envp, begins "/" program ->
    exists env, exec_qubes_rpc2 program (pc_command p) envp false = Execve program (program :: service_args arg) env /\
      call_env env (told_service g service) (told_caller g caller) arg a.
Proof.
  intros H Hc Hw Ht.
  assert (K : forall kind t, word t -> (kind = "keyword" \/ kind = "name") ->
    let text := told_service g service +++ " " +++ told_caller g caller +++ " " +++ kind +++ " " +++ t in
    words text [told_service g service; told_caller g caller; kind; t] /\
    exists c, call_text text c /\ c_full c = told_service g service /\ c_source c = told_caller g caller /\
      argument_of (told_service g service) (c_arg c)).
  { intros kind t (Tn & Tl) Hk. split.
    - destruct Hc as ((N & L) & _). destruct Hw as (N' & L'). apply tokens_iff.
      assert (Kn : kind <> "" /\ lacks " " kind) by (destruct Hk as [->| ->]; split; try discriminate; reflexivity).
      destruct Kn as [Kn Kl].
      rewrite tokens_word; auto; [|right; eexists; reflexivity].
      change (" " +++ ?x) with (String " " x). rewrite tokens_blank.
      rewrite tokens_word; auto; [|right; eexists; reflexivity].
      change (" " +++ ?x) with (String " " x). rewrite tokens_blank.
      rewrite tokens_word; auto; [|right; eexists; reflexivity].
      change (" " +++ ?x) with (String " " x). rewrite tokens_blank.
      rewrite <- (app_nil_s t) at 1. rewrite tokens_word; auto. left. reflexivity.
    - apply (callable_text (told_service g service) (told_caller g caller) (" " +++ kind +++ " " +++ t)); auto.
      right. eexists. reflexivity. }
  assert (Main : forall kind t a, word t -> (kind = "keyword" /\ a = AskedKeyword t \/ kind = "name" /\ a = AskedName t) ->
    exists p arg,
    parse_qubes_rpc_command ("QUBESRPC " +++ told_service g service +++ " " +++ told_caller g caller +++ " " +++ kind +++ " " +++ t) false = Some p /\
    pc_descriptor p = Some (told_service g service) /\ pc_source p = Some (told_caller g caller) /\
    argument_of (told_service g service) arg /\
    forall program envp, begins "/" program ->
    exists env, exec_qubes_rpc2 program (pc_command p) envp false = Execve program (program :: service_args arg) env /\
      call_env env (told_service g service) (told_caller g caller) arg a).
  { intros kind t a Tw Hk. destruct (K kind t Tw) as [W (c & Hct & Hf & Hs & Ha)]; [tauto|].
    exists (to_cmd None false (told_service g service +++ " " +++ told_caller g caller +++ " " +++ kind +++ " " +++ t) (Some c)), (c_arg c).
    split; [|cbn; rewrite Hf, Hs; do 3 (split; [auto|])].
    - apply parse_iff. do 4 eexists. split; [|reflexivity]. eapply lm_call; [constructor| |exact Hct].
      constructor. intros [r Hr]. discriminate.
    - intros program envp Hp.
      assert (CW : call_words (told_service g service +++ " " +++ told_caller g caller +++ " " +++ kind +++ " " +++ t)
              (told_service g service) (told_caller g caller) a).
      { destruct Hk as [[-> ->]|[-> ->]]; constructor; exact W. }
      destruct (C52_direct program _ envp _ _ _ _ Hp CW Ha) as (rest & mine & E & _ & _ & P). eauto. }
  inversion H as [kw Hm Hr E|Hm Hr E|]; subst.
  - destruct (Main "keyword" kw (AskedKeyword kw)) as (p & arg & M1 & M2 & M3 & M4 & M5); [apply Ht; auto|auto|].
    exists p, arg, (AskedKeyword kw). do 5 (split; [auto|]). split; [right; eauto|exact M5].
  - destruct (Main "name" (gc_requested g) (AskedName (gc_requested g))) as (p & arg & M1 & M2 & M3 & M4 & M5); [apply Ht; auto|auto|].
    exists p, arg, (AskedName (gc_requested g)). do 5 (split; [auto|]). split; [left; auto|exact M5].
Qed.
Definition ex_granted : granted_call := mkGranted "DEFAULT" "vault" (Some "uuid:1") "vault" true None None.
Example C66_example :
  performed "work" "qubes.Gpg" ex_granted (RunInVM "uuid:1" true "DEFAULT:QUBESRPC qubes.Gpg+ work" true) /\
  lacks ":" (gc_user ex_granted) /\ callable (told_service ex_granted "qubes.Gpg") /\ word (told_caller ex_granted "work").
Proof.
  split; [|split; [reflexivity|split; [|split; [discriminate|reflexivity]]]].
  - apply (pf_qube "work" "qubes.Gpg" ex_granted "uuid:1"); [|reflexivity]. intros [H|[H|H]]; discriminate.
  - split; [split; [discriminate|reflexivity]|]. split; [vm_compute; discriminate|].
    exists "qubes.Gpg", "". split; [reflexivity|]. split; [reflexivity|]. vm_compute. split; discriminate.
Qed.
(** A colon in a user name of the policy (user=a:b is accepted) makes the agent run
    the rest of the line as a shell command of user a instead of the service. *)
Theorem C66_colon_in_user_refuted :
  exists g cmd p, performed "work" "qubes.Gpg" g (RunInVM "uuid:1" true cmd true) /\ gc_user g = "root:reboot;" /\
    parse_qubes_rpc_command cmd true = Some p /\ pc_username p = Some "root" /\ pc_descriptor p = None /\
    pc_command p = "reboot;:QUBESRPC qubes.Gpg+ work".
Proof.
  exists (mkGranted "root:reboot;" "vault" (Some "uuid:1") "vault" true None None),
    "root:reboot;:QUBESRPC qubes.Gpg+ work",
    (mkCmd (Some "root") "reboot;:QUBESRPC qubes.Gpg+ work" false None None None None).
  split; [|split; [reflexivity|split; [vm_compute; reflexivity|split; [reflexivity|split; reflexivity]]]].
  apply (pf_qube "work" "qubes.Gpg" (mkGranted "root:reboot;" "vault" (Some "uuid:1") "vault" true None None) "uuid:1"); [|reflexivity].
  intros [H|[H|H]]; discriminate.
Qed.
