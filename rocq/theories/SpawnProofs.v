(** Lemmas for Props_Spawn *)
From Coq Require Import String Ascii List Bool Arith ZArith Lia.
From Verif Require Import Base Io Stream SpecStream ProcessIo SpecPio PioProofs Props_Pio Spawn SpecSpawn.
From Verif Require Props_Ends.
From Verif Require Exec SpecExec SpecLookup Props_Exec LookupProofs Toml Agent.
Import ListNotations.
Open Scope string_scope.
Open Scope list_scope.
Open Scope Z_scope.

Definition cmd_is (p : Exec.parsed_command) (c : option SpecExec.call) : Prop :=
  Exec.pc_descriptor p = option_map SpecExec.c_full c /\ Exec.pc_name p = option_map SpecExec.c_name c /\
  Exec.pc_arg p = match c with Some c => SpecExec.c_arg c | None => None end.

Lemma cmd_is_fun p c c' : cmd_is p c -> cmd_is p c' ->
  match c, c' with Some c, Some c' => SpecExec.c_full c = SpecExec.c_full c' /\ SpecExec.c_name c = SpecExec.c_name c' /\ SpecExec.c_arg c = SpecExec.c_arg c'
  | None, None => True | _, _ => False end.
Proof.
  unfold cmd_is. destruct c as [[]|], c' as [[]|]; cbn; intros (A & B & C) (A' & B' & C'); try congruence; auto.
  repeat split; congruence.
Qed.

Lemma execute_sound m dirs p c st : services_in m dirs -> cmd_is (Agent.pr_cmd p) c -> execute_parsed m p = inl st ->
  can_start m dirs (Exec.pc_command (Agent.pr_cmd p)) (Toml.cf_send_service_descriptor (Agent.pr_config p)) (Agent.pr_user p) c st.
Proof.
  intros HP (C1 & C2 & C3) E. unfold execute_parsed, do_fork_exec in E. rewrite C1, C2 in E.
  destruct c as [c|]; cbn [option_map] in E.
  - unfold the_service in E. rewrite C3 in E.
    destruct (Exec.find_qrexec_service _ _ _ _ _ _ _ _) as [path f|h q f|path| |] eqn:Ef in E; try discriminate E;
      destruct (Props_Exec.C64_sound _ _ _ _ _ _ _ _ HP Ef ltac:(discriminate) ltac:(discriminate)) as (p' & th & HI & HR); inversion HR; subst.
    + destruct (m_connects m) eqn:K; [|discriminate E].
      assert (st = OnSocket (Exec.ConnectSocket path (if Toml.cf_send_service_descriptor (Agent.pr_config p) then Some (Exec.pc_command (Agent.pr_cmd p) +++ str1 NUL) else None))) as -> by congruence.
      econstructor; eassumption.
    + destruct (m_connects m) eqn:K; [|discriminate E].
      assert (st = OnSocket (Exec.ConnectTcp h q (if Toml.cf_send_service_descriptor (Agent.pr_config p) then Some (Exec.pc_command (Agent.pr_cmd p) +++ str1 NUL) else None))) as -> by congruence.
      econstructor; eassumption.
    + destruct (m_forks m) eqn:K; [|discriminate E]. injection E as <-. econstructor; eassumption.
  - destruct (m_forks m) eqn:K; [|discriminate E]. injection E as <-. constructor. exact K.
Qed.
Lemma execute_complete m dirs p c st : services_in m dirs -> cmd_is (Agent.pr_cmd p) c ->
  (forall c', c = Some c' -> short_paths m dirs c') ->
  can_start m dirs (Exec.pc_command (Agent.pr_cmd p)) (Toml.cf_send_service_descriptor (Agent.pr_config p)) (Agent.pr_user p) c st ->
  execute_parsed m p = inl st.
Proof.
  intros HP (C1 & C2 & C3) HS H. unfold execute_parsed, do_fork_exec. rewrite C1, C2.
  inversion H as [c' path HI K E1 E2|c' path HI K E1 E2|c' path t h q HI HT HQ K E1 E2|K E1 E2]; subst; cbn [option_map]; [..|rewrite K; reflexivity];
    destruct (HS _ eq_refl) as (S1 & S2 & S3); unfold the_service; rewrite C3; cbv iota beta.
  - rewrite (Props_Exec.C64_complete (Agent.f_fs (m_files m)) (m_services m) dirs true _ c' _ path (SpecLookup.Is (Exec.KFile true)) (Exec.RunProgram path) HP S1 S2 I HI); [|constructor].
    rewrite K. reflexivity.
  - erewrite (Props_Exec.C64_complete (Agent.f_fs (m_files m)) (m_services m) dirs true _ c' _ path (SpecLookup.Is Exec.KSocket) _ HP S1 S2 I HI); [|constructor; reflexivity].
    rewrite K. reflexivity.
  - erewrite (Props_Exec.C64_complete (Agent.f_fs (m_files m)) (m_services m) dirs true _ c' _ path _ _ HP S1 S2 (S3 _ _ HI) HI); [|econstructor; [reflexivity|eassumption..]].
    rewrite K. reflexivity.
Qed.
Lemma execute_absent m dirs p c : services_in m dirs -> cmd_is (Agent.pr_cmd p) c ->
  (execute_parsed m p = inr (-1) -> exists c', c = Some c' /\ not_installed m dirs c') /\
  (forall c', c = Some c' -> short_paths m dirs c' -> not_installed m dirs c' -> execute_parsed m p = inr (-1)).
Proof.
  intros HP (C1 & C2 & C3). unfold execute_parsed, do_fork_exec. rewrite C1, C2.
  destruct c as [c|]; cbn [option_map].
  - unfold the_service. rewrite C3. split.
    + destruct (Exec.find_qrexec_service _ _ _ _ _ _ _ _) as [path f|h q f|path| |] eqn:Ef; try (destruct (m_connects m); discriminate); try (destruct (m_forks m); discriminate); try discriminate.
      intros _. exists c. split; [reflexivity|]. exact (LookupProofs.service_sound _ _ _ _ _ _ _ _ HP Ef).
    + intros c' E (S1 & S2 & S3) HN. assert (c' = c) as -> by congruence.
      apply (proj2 (Props_Exec.C64_absent (files_of m) (m_services m) dirs true (Toml.cf_send_service_descriptor (Agent.pr_config p)) c (Exec.pc_command (Agent.pr_cmd p)) HP S1 S2)) in HN.
      unfold files_of in HN. rewrite HN. reflexivity.
  - split; [|congruence]. destruct (m_forks m); discriminate.
Qed.

(** ** Command lines *)
Definition prep_is (p : Agent.prepared) (command : string) (c : option SpecExec.call) (greet : bool) (user : option string) : Prop :=
  cmd_is (Agent.pr_cmd p) c /\ Exec.pc_command (Agent.pr_cmd p) = command /\
  Toml.cf_send_service_descriptor (Agent.pr_config p) = greet /\ Agent.pr_user p = user.

Lemma parse_means line strip cmd : Exec.parse_qubes_rpc_command line strip = Some cmd ->
  exists c, cmd_is cmd c /\ SpecExec.line_means strip line (Exec.pc_username cmd) (Exec.pc_nogui cmd) (Exec.pc_command cmd) c.
Proof. intros E. apply Props_Exec.C49_command_lines in E as (c & H & H1 & H2 & H3 & _). exists c. unfold cmd_is. auto. Qed.
Lemma means_parse line strip u g text c : SpecExec.line_means strip line u g text c ->
  exists cmd, Exec.parse_qubes_rpc_command line strip = Some cmd /\ cmd_is cmd c /\
    Exec.pc_username cmd = u /\ Exec.pc_nogui cmd = g /\ Exec.pc_command cmd = text.
Proof.
  intros H. destruct (Exec.parse_qubes_rpc_command line strip) as [cmd|] eqn:E.
  - exists cmd. split; [reflexivity|]. apply parse_means in E as (c' & Hc & H').
    destruct (Props_Exec.C49_unambiguous _ _ _ _ _ _ _ _ _ _ H H') as (-> & -> & -> & ->). auto.
  - exfalso. exact (proj1 (Props_Exec.C49_other_lines_refused line strip) E _ _ _ _ H).
Qed.

Lemma agent_asks_sound m line p : Agent.prepare (m_files m) line = Some p ->
  exists command c greet user, asks m false line command c greet user /\ prep_is p command c greet user.
Proof.
  unfold Agent.prepare. destruct (Exec.parse_qubes_rpc_command line true) as [cmd|] eqn:E; [|discriminate].
  apply parse_means in E as (c & (C1 & C2 & C3) & H). rewrite C1, C2.
  destruct c as [c|]; cbn [option_map].
  - destruct (Toml.load_service_config_v2 _ _ _ _ _ _) as [[cf u]|] eqn:Ec; [|discriminate]. intros E. injection E as <-.
    exists (Exec.pc_command cmd), (Some c), (Toml.cf_send_service_descriptor cf), u.
    split; [|unfold prep_is, cmd_is; cbn; auto]. eapply as_call; try eassumption; try discriminate. reflexivity.
  - intros E. injection E as <-. exists (Exec.pc_command cmd), None, true, (Exec.pc_username cmd).
    split; [|unfold prep_is, cmd_is; cbn; auto]. eapply as_shell; eassumption.
Qed.
Lemma agent_asks_complete m line command c greet user : asks m false line command c greet user ->
  exists p, Agent.prepare (m_files m) line = Some p /\ prep_is p command c greet user.
Proof.
  intros H. inversion H as [u g text c' cf u' HL HN HC HW E1 E2 E3 E4|u text c' HL HD E1 E2 E3 E4|u g text HL E1 E2 E3 E4]; subst; [|discriminate HD|];
    destruct (means_parse _ _ _ _ _ _ HL) as (cmd & E & (C1 & C2 & C3) & <- & <- & <-); change (negb false) with true in E; unfold Agent.prepare; rewrite E, C1, C2; cbn [option_map].
  - unfold configured, files_of in HC. rewrite HC. eexists. split; [reflexivity|]. unfold prep_is, cmd_is. cbn. auto.
  - eexists. split; [reflexivity|]. unfold prep_is, cmd_is. cbn. auto.
Qed.
Lemma dom0_asks_sound m line cmd p : Exec.parse_qubes_rpc_command line false = Some cmd -> dom0_prepare m cmd = Some p ->
  exists command c greet user, asks m true line command c greet user /\ prep_is p command c greet user.
Proof.
  intros E. apply parse_means in E as (c & (C1 & C2 & C3) & H). unfold dom0_prepare. cbv zeta.
  destruct (Exec.pc_nogui cmd) eqn:G.
  - intros E. injection E as <-. exists (Exec.pc_command cmd), c, true, (Exec.pc_username cmd).
    split; [|unfold prep_is, cmd_is; cbn; auto]. destruct c as [c|]; [apply as_nogui; [exact H|reflexivity]|eapply as_shell; exact H].
  - rewrite C1, C2. destruct c as [c|]; cbn [option_map].
    + destruct (Toml.load_service_config_v2 _ _ _ _ _ _) as [[cf u]|] eqn:Ec; [|discriminate].
      destruct (negb (Toml.cf_wait_for_session cf) || m_session m)%bool eqn:W; [|discriminate]. intros E. injection E as <-.
      exists (Exec.pc_command cmd), (Some c), (Toml.cf_send_service_descriptor cf), u.
      split; [|unfold prep_is, cmd_is; cbn; auto]. eapply as_call; try eassumption; try reflexivity.
      intros _ K. rewrite K in W. exact W.
    + intros E. injection E as <-. exists (Exec.pc_command cmd), None, true, (Exec.pc_username cmd).
      split; [|unfold prep_is, cmd_is; cbn; auto]. eapply as_shell; eassumption.
Qed.
Lemma dom0_asks_complete m line command c greet user : asks m true line command c greet user ->
  exists cmd p, Exec.parse_qubes_rpc_command line false = Some cmd /\ dom0_prepare m cmd = Some p /\ prep_is p command c greet user.
Proof.
  intros H. inversion H as [u g text c' cf u' HL HN HC HW E1 E2 E3 E4|u text c' HL HD E1 E2 E3 E4|u g text HL E1 E2 E3 E4]; subst;
    destruct (means_parse _ _ _ _ _ _ HL) as (cmd & E & (C1 & C2 & C3) & Eu & Eg & Et); change (negb true) with false in E; exists cmd;
    unfold dom0_prepare; cbv zeta; rewrite Eg, Eu.
  - cbn [andb] in HN. rewrite HN, C1, C2. cbn [option_map]. unfold configured, files_of in HC. rewrite HC.
    replace (negb (Toml.cf_wait_for_session cf) || m_session m)%bool with true.
    + eexists. split; [exact E|]. split; [reflexivity|]. unfold prep_is, cmd_is. cbn. auto.
    + destruct (Toml.cf_wait_for_session cf) eqn:W; [|reflexivity]. rewrite HW; auto.
  - eexists. split; [exact E|]. split; [reflexivity|]. unfold prep_is, cmd_is. cbn. auto.
  - rewrite C1, C2. cbn [option_map]. destruct g; eexists; (split; [exact E|]); (split; [reflexivity|]); unfold prep_is, cmd_is; cbn; auto.
Qed.
Lemma asks_fun m d line command c greet user command' c' greet' user' :
  asks m d line command c greet user -> asks m d line command' c' greet' user' ->
  command = command' /\ c = c' /\ greet = greet' /\ user = user'.
Proof.
  intros H H'. inversion H as [u1 g1 t1 c1 cf1 v1 HL1 HN1 HC1 HW1|u1 t1 c1 HL1 HD1|u1 g1 t1 HL1]; subst;
    inversion H' as [u2 g2 t2 c2 cf2 v2 HL2 HN2 HC2 HW2|u2 t2 c2 HL2 HD2|u2 g2 t2 HL2]; subst;
    destruct (Props_Exec.C49_unambiguous _ _ _ _ _ _ _ _ _ _ HL1 HL2) as (-> & E & -> & Ec); try discriminate Ec.
  - assert (c2 = c1) as -> by congruence. unfold configured in *. rewrite HC1 in HC2. injection HC2 as -> ->. auto.
  - subst. discriminate.
  - subst. discriminate.
  - assert (c2 = c1) as -> by congruence. auto.
  - auto.
Qed.

(** ** The caller *)
Lemma run_done_client c es : forall s s', pio_run c es s = PDone s' -> service c = false ->
  (0 <= rx_status (p_rx s'))%Z \/ rx_in (p_rx s') = [] \/ ~ no_poll_error es.
Proof.
  induction es as [|e es IH]; intros s s' H Hs; [discriminate H|]. cbn [pio_run] in H.
  destruct (pio_step c e s) as [s1|s1|s1|] eqn:E; cbn [pbind] in H; try discriminate H.
  - destruct (IH _ _ H Hs) as [X|[X|X]]; auto. right. right. intros K. apply X. inversion K; assumption.
  - assert (s1 = s') as -> by congruence. destruct (Props_Ends.C76_not_before _ _ _ _ E) as [(_ & _ & X)|[(_ & X & _)|X]]; auto.
    right. right. intros K. inversion K; contradiction.
Qed.
