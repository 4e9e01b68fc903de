(** C114: a call to dom0: both ends *)
From Coq Require Import String Ascii List Bool Arith ZArith Lia.
From Verif Require Import Base SysInfo Token Rule Policy PolicyExec SpecPolicy Sanitize PolicyDaemon DaemonPolicy DaemonAgent SpecDaemon SpecAgent SpecCall
  SanitizeProofs AgentProofs DaemonProofs CallProofs Props_Daemon Exec SpecExec SpecEndToEnd Props_EndToEnd.
From Verif Require Import DaemonState ExecuteVm SpecVm SpecMeet Props_Meet Props_WholeCall Dom0Call.
From Verif Require Props_Exec Agent Spawn Props_Spawn TriggerProofs Props_Vm StateProofs.
Import ListNotations.
Open Scope string_scope.
Open Scope list_scope.
Open Scope Z_scope.

(** The identifier of a call as it is sent: 32 bytes, the last of them NUL, that hold [id] *)
Definition holds_identifier (field id : string) : Prop :=
  String.length field = 32%nat /\ cstr field = id /\ exists body, field = body +++ str1 NUL.
(** The daemon has no call with this identifier that waits for its answer *)
Definition not_waiting (s : daemon) (id : string) : Prop := find_request (d_pending s) (d_limit s) id = None.

Lemma body_dom0 du sa fa field id ok outs sa' st : holds_identifier field id ->
  handle_cmdline_body du sa fa 514 40 (Some (le32 0 +++ le32 0 +++ field)) ok = (sa', outs, st) ->
  (outs = [] /\ (not_waiting sa id \/ ok = false \/ allocate_vchan_port sa 0 = None)) \/
  exists p, outs = [PortToClient fa 0 p; ToAgent 514 40 0 p field] /\ 513 <= p < 769.
Proof.
  intros (Hl & Hc & body & E). unfold handle_cmdline_body. cbv zeta.
  change (40 <=? sizeof_exec_params) with false. change (40 >? MAX_QREXEC_CMD_LEN) with false. cbv iota.
  rewrite sdrop_le32, sdrop8_le32, !Props_Vm.u32_le32 by lia. rewrite E at 1 2. rewrite last_nul, String.eqb_refl. cbn [negb].
  change (514 =? MSG_SERVICE_CONNECT) with true. cbv iota. rewrite Hc. unfold not_waiting.
  destruct (find_request (d_pending sa) (d_limit sa) id) as [i|] eqn:Ef; [|intros H; apply StateProofs.pair_eq in H as [H _]; apply StateProofs.pair_eq in H as [_ <-]; auto].
  change (0 =? 0) with true. cbv iota. change (to_int 0) with 0.
  set (s1 := set_pending sa _ _).
  assert (Ea : allocate_vchan_port s1 0 = None -> allocate_vchan_port sa 0 = None).
  { rewrite !StateProofs.alloc_unfold. change (d_remote s1) with (d_remote sa). change (d_used s1) with (d_used sa).
    generalize (fst (StateProofs.stride (d_remote sa) 0)), (snd (StateProofs.stride (d_remote sa) 0)). intros x y.
    destruct (scan_ports _ x y _); congruence. }
  destruct (allocate_vchan_port s1 0) as [[p s2]|] eqn:Es.
  2:{ intros H; apply StateProofs.pair_eq in H as [H _]; apply StateProofs.pair_eq in H as [_ <-]. left. split; [reflexivity|]. right; right. exact (Ea eq_refl). }
  assert (Hp : 513 <= p < 769) by (apply StateProofs.alloc_some in Es as (n & Hn & -> & _); lia).
  destruct ok; intros H; apply StateProofs.pair_eq in H as [H _]; apply StateProofs.pair_eq in H as [_ <-]; [right|left; auto].
  exists p. split; [reflexivity|exact Hp].
Qed.

(** What the daemon of the caller makes of the message *)
Lemma daemon_dom0 du sa fa field id ok outs sa' : holds_identifier field id ->
  dstep du sa (FromClient fa (message_of (command_message 514 0 field)) ok) = Some (sa', outs) ->
  (outs = [] /\ (d_clients sa fa <> CLIENT_CMDLINE \/ not_waiting sa id \/ ok = false \/ allocate_vchan_port sa 0 = None)) \/
  exists p, outs = [PortToClient fa 0 p; ToAgent 514 40 0 p field] /\ 513 <= p < 769.
Proof.
  intros Hf. pose proof Hf as (Hl & Hc & _). unfold message_of, command_message.
  rewrite Hl. change (8 + Z.of_nat 32) with 40. rewrite sdrop_le32, sdrop8_le32, !Props_Vm.u32_le32 by lia. cbn [dstep]. intros S.
  assert (S' : handle_message_from_client du sa fa (ClientMessage 514 40 (le32 0 +++ le32 0 +++ field)) ok = (sa', outs)) by congruence. clear S.
  unfold handle_message_from_client in S'.
  destruct (d_clients sa fa).
  - apply StateProofs.pair_eq in S' as [_ <-]. left. split; [reflexivity|left; discriminate].
  - change (514 =? MSG_HELLO) with false in S'. cbn [andb negb] in S'. apply StateProofs.pair_eq in S' as [_ <-]. left. split; [reflexivity|left; discriminate].
  - change ((514 =? MSG_EXEC_CMDLINE) || (514 =? MSG_JUST_EXEC) || (514 =? MSG_SERVICE_CONNECT)) with true in S'. cbv iota in S'.
    assert (Er : received 40 (le32 0 +++ le32 0 +++ field) = Some (le32 0 +++ le32 0 +++ field)).
    { unfold received. assert (L : String.length (le32 0 +++ le32 0 +++ field) = 40%nat) by (rewrite !length_app_s, !le32_length, Hl; reflexivity).
      rewrite L. change (Z.of_nat 40 >=? 40) with true. cbv iota. f_equal. apply stake_short. rewrite L. reflexivity. }
    rewrite Er in S'. destruct (handle_cmdline_body _ _ _ _ _ _ _) as [[s1 o1] st] eqn:E. apply StateProofs.pair_eq in S' as [_ <-].
    apply (body_dom0 _ _ _ _ _ _ _ _ _ Hf) in E as [[-> E]|E]; [left; split; [reflexivity|tauto]|right; exact E].
  - apply StateProofs.pair_eq in S' as [_ <-]. left. split; [reflexivity|left; discriminate].
Qed.

(** The program that serves the call in dom0, and the daemon of the qube number [a] that made it: once the
    daemon has answered, the program goes on with a connection to that qube, over the port that the daemon
    has given to this call; and the agent of the qube is told that port, and number 0, for the call with
    that identifier. Otherwise the daemon tells its agent nothing. *)
Theorem C114_same_connection du a dir e field id answer m k line tr r sa fa ok sa' outs :
  0 <= a < 2147483648 -> holds_identifier field id ->
  run_to_dom0 dir e a field answer m k line = (tr, r) ->
  forall sent, sends tr = [sent] ->
  dstep du sa (FromClient fa (message_of sent) ok) = Some (sa', outs) -> answer = written_to_client a 514 outs ->
  (exists port, 513 <= port < 769 /\ r = GoesOn a port (Spawn.run_qrexec_to_dom0 m (k a port) line) /\
     outs = [PortToClient fa 0 port; ToAgent 514 40 0 port field]) \/
  (r = Stops 125 /\ outs = [] /\ (d_clients sa fa <> CLIENT_CMDLINE \/ not_waiting sa id \/ ok = false \/ allocate_vchan_port sa 0 = None)).
Proof.
  intros Ha Hf Hr sent Hs Sd An. unfold run_to_dom0 in Hr.
  destruct (connect_unix_socket dir (string_of_id a) e); apply StateProofs.pair_eq in Hr as [Et <-]; subst tr; cbn [sends flat_map List.app] in Hs; [|discriminate Hs|discriminate Hs].
  assert (Es : sent = command_message 514 0 field) by congruence. subst sent.
  apply (daemon_dom0 _ _ _ _ _ _ _ _ Hf) in Sd as [[-> Sd]|(p & -> & Hp)].
  - right. subst answer. cbn [written_to_client negotiate_answer]. auto.
  - left. exists p. split; [exact Hp|]. split; [|reflexivity]. subst answer.
    assert (N : negotiate_answer 514 (written_to_client a 514 [PortToClient fa 0 p; ToAgent 514 40 0 p field]) = Agreed a p).
    { unfold written_to_client, negotiate_answer.
      assert (L : String.length (le32 514 +++ le32 8 +++ le32 a +++ le32 p) = 16%nat) by (rewrite !length_app_s, !le32_length; reflexivity).
      rewrite L. change (16 <? 8)%nat with false. change (16 <? 16)%nat with false. cbv iota.
      change (sdrop 12 (le32 514 +++ le32 8 +++ le32 a +++ le32 p)) with (sdrop 4 (sdrop 8 (le32 514 +++ le32 8 +++ le32 a +++ le32 p))).
      rewrite sdrop_le32, sdrop8_le32, sdrop_le32, !Props_Vm.u32_le32 by lia. rewrite <- (app_nil_s (le32 p)), Props_Vm.u32_le32 by lia.
      change (negb (514 =? 514)) with false. change (negb (8 =? 8)) with false. cbv iota.
      unfold to_int. destruct (Z.ltb_spec a 2147483648); [|lia]. destruct (Z.ltb_spec p 2147483648); [|lia]. reflexivity. }
    rewrite N. reflexivity.
Qed.

(** A call of a program in the qube [remote], number [a], that the policy decides to serve in dom0 *)
Theorem C114_both_ends fd type len data type' len' body rs target service rules i agent remote w evs status out caller' line
  a du dir e field answer m k tr r sent sa fa ok sa' outs :
  (* the program has asked its agent for a service, over descriptor fd *)
  well_set_up rules i -> spelled "" remote -> remote <> "" -> moderate service -> Z.of_nat fd < 2147483648 ->
  Agent.handle_trigger_io fd type len data = [Agent.Forwarded type' len' body] ->
  handle_message_from_agent 4 type' len' body = ServiceCall rs target service (Agent.socket_ident fd) ->
  (* its daemon has asked the policy daemon, and then it runs a command in dom0 *)
  handle_client_connection (Ok rules) (Some i) agent (request_text remote rs target service) = (w, evs) -> status <> 0%nat ->
  execute_service_child remote service (answered w) (status, out) = RunInDom0 caller' line ->
  (* which asks the daemon for a connection for that identifier, and gets an answer *)
  0 <= a < 2147483648 -> holds_identifier field (Agent.socket_ident fd) ->
  run_to_dom0 dir e a field answer m k line = (tr, r) -> sends tr = [sent] ->
  dstep du sa (FromClient fa (message_of sent) ok) = Some (sa', outs) -> answer = written_to_client a 514 outs ->
  outs <> [] ->
  exists q g caller arg asked port,
    call_of i remote target service (claimed rs) q /\ decided_for rules agent q g /\ means_dom0 (gc_target g) /\
    caller_named i remote (claimed rs) caller /\ argument_of (told_service g service) arg /\ asked_for (tok_str (q_target q)) asked /\
    starts_in_dom0 line (told_service g service) caller arg asked /\ 513 <= port < 769 /\
    r = GoesOn a port (Spawn.run_qrexec_to_dom0 m (k a port) line) /\
    outs = [PortToClient fa 0 port; ToAgent 514 40 0 port field] /\
    forall en x st, exists more, snd (Agent.step en (Agent.Message x 514 40 (le32 0 +++ le32 port +++ field)) st) =
      (if Agent.m_ebadf x then [] else Agent.ParamsTo (Z.of_nat fd) 0 port :: more) /\ (more = [] \/ more = [Agent.NoSlot 0 port]).
Proof.
  intros W Sp Nr Mo Sm Tr M H St Ho Ha Hf Hx Hs Sd An Ne.
  destruct (C111_service_knows _ _ _ _ _ _ _ _ _ _ _ _ _ _ _ out W Sp Nr Mo M H St) as [(s & D)|(q & g & caller & arg & C & D & N & A & R)]; [rewrite Ho in D; discriminate|].
  rewrite Ho in R. destruct R as [(Md & cmd & asked & E & B & X)|(_ & u & cmd & _ & E & _)]; [|discriminate E].
  assert (cmd = line) by congruence. subst cmd.
  destruct (C114_same_connection _ _ _ _ _ _ _ _ _ _ _ _ _ _ _ _ _ Ha Hf Hx _ Hs Sd An) as [(port & Hp & Er & Eo)|(_ & Eo & _)]; [|contradiction].
  exists q, g, caller, arg, asked, port. do 7 (split; [assumption|]). do 3 (split; [assumption|]).
  intros en x st. apply connect_params; [lia|lia|exact Sm|exact (proj1 (proj2 Hf))].
Qed.

(** It is as the code has it: the identifier is copied as the daemon (or qrexec-client) holds it *)
Theorem C114_identifier_sent id : has_char NUL id = false -> (String.length id <= 31)%nat -> holds_identifier (ident_field id) id.
Proof.
  intros Hn Hl. destruct (ident_field_spec id Hn Hl) as (k & E & L & C). split; [exact L|]. split; [exact C|]. eauto.
Qed.

(** A program that does not reach the daemon, or gets no answer, starts nothing and ends with 125; an answer
    to a message of another type kills it *)
Theorem C114_nothing_without_the_daemon dir e a field answer m k line tr r :
  run_to_dom0 dir e a field answer m k line = (tr, r) ->
  (forall d p o, r = GoesOn d p o -> exists more, answer = Some (le32 514 +++ le32 8 +++ more) /\ (8 <= String.length more)%nat) /\
  (forall st, r = Stops st -> st = 125) /\
  (r = Aborted -> exists b, answer = Some b /\ (8 <= String.length b)%nat /\ forall more, b <> le32 514 +++ more).
Proof.
  unfold run_to_dom0. destruct (connect_unix_socket dir (string_of_id a) e); intros H; apply StateProofs.pair_eq in H as [_ <-];
    try (split; [discriminate|split; [intros st E; congruence|discriminate]]).
  destruct answer as [b|]; [|cbn [negotiate_answer]; split; [discriminate|split; [intros st E; congruence|discriminate]]].
  unfold negotiate_answer. destruct (String.length b <? 8)%nat eqn:L8; [split; [discriminate|split; [intros st E; congruence|discriminate]]|]. apply Nat.ltb_ge in L8.
  destruct (Z.eqb_spec (u32 b) 514) as [E|E]; cbn [negb].
  2:{ split; [discriminate|]. split; [discriminate|]. intros _. exists b. split; [reflexivity|]. split; [exact L8|]. intros more ->. apply E. now rewrite Props_Vm.u32_le32 by lia. }
  destruct (Z.eqb_spec (u32 (sdrop 4 b)) 8) as [E8|E8]; cbn [negb]; [|split; [discriminate|split; [intros st X; congruence|discriminate]]].
  destruct (String.length b <? 16)%nat eqn:L16; [split; [discriminate|split; [intros st X; congruence|discriminate]]|]. apply Nat.ltb_ge in L16.
  split; [|split; [discriminate|discriminate]]. intros d p o _. exists (sdrop 8 b).
  assert (T : String.length (sdrop 8 b) = (String.length b - 8)%nat).
  { assert (D : forall n s, String.length (sdrop n s) = (String.length s - n)%nat) by (clear; induction n as [|n IH]; intros [|c s]; cbn [sdrop String.length]; try lia; rewrite IH; lia). apply D. }
  split; [|lia]. f_equal. rewrite <- (Props_Vm.le32_u32 b) at 1 by lia. rewrite E. f_equal.
  assert (D4 : (4 <= String.length (sdrop 4 b))%nat) by (destruct b as [|c1 [|c2 [|c3 [|c4 b]]]]; cbn [sdrop String.length] in *; lia).
  rewrite <- (Props_Vm.le32_u32 (sdrop 4 b)) at 1 by exact D4. rewrite E8. f_equal.
  destruct b as [|c1 [|c2 [|c3 [|c4 b]]]]; reflexivity.
Qed.

(** the hypotheses are met: a program in the qube "work" (number 5) asks for qubes.Gpg in dom0, over
    descriptor 11; the rules allow it *)
Definition ex_dom0_rules : list rule := Props_Policy.rules_of ["qubes.Gpg * work @adminvm allow"; "* * @anyvm @anyvm deny"].
Lemma ex_dom0_set_up : well_set_up ex_dom0_rules Props_Policy.ex_info.
Proof.
  destruct ex_set_up as [_ _ Wi Wt]. constructor; [| |exact Wi|exact Wt].
  - intros r I. split; [exact (Props_Policy.rules_of_wf _ _ I)|]. cbn in I. intros X. repeat (destruct I as [I|I]; [subst r; cbn in X; now destruct X|]). destruct I.
  - intros r u I E. cbn in I. repeat (destruct I as [I|I]; [subst r; cbn in E; discriminate E|]). destruct I.
Qed.
Definition ex_dom0_data : string := padded 64 "" +++ padded 64 "dom0" +++ padded 32 "" +++ "qubes.Gpg" +++ str1 NUL.
Example C114_met : exists body' w tr r sent sa' outs,
  well_set_up ex_dom0_rules Props_Policy.ex_info /\ spelled "" "work" /\ moderate "qubes.Gpg" /\
  Agent.handle_trigger_io 11 531 170 ex_dom0_data = [Agent.Forwarded 531 170 body'] /\
  handle_message_from_agent 4 531 170 body' = ServiceCall (Some "") "dom0" "qubes.Gpg" "SOCKET11" /\
  fst (handle_client_connection (Ok ex_dom0_rules) (Some Props_Policy.ex_info) None (request_text "work" (Some "") "dom0" "qubes.Gpg")) = w /\
  execute_service_child "work" "qubes.Gpg" (answered w) (1%nat, "") = RunInDom0 "work" "QUBESRPC qubes.Gpg+ work name dom0" /\
  holds_identifier (ident_field "SOCKET11") "SOCKET11" /\
  run_to_dom0 "/run/qubes" Props_Vm.ex_sock 5 (ident_field "SOCKET11") (Some (le32 514 +++ le32 8 +++ le32 5 +++ le32 513))
    (Props_Spawn.ex_machine true) (fun _ _ => Props_Spawn.ex_link 100) "QUBESRPC qubes.Gpg+ work name dom0" = (tr, r) /\
  sends tr = [sent] /\
  dstep "user" ex_a (FromClient 7 (message_of sent) true) = Some (sa', outs) /\
  Some (le32 514 +++ le32 8 +++ le32 5 +++ le32 513) = written_to_client 5 514 outs /\
  outs = [PortToClient 7 0 513; ToAgent 514 40 0 513 (ident_field "SOCKET11")] /\
  (exists o, r = GoesOn 5 513 o).
Proof.
  do 7 eexists. split; [exact ex_dom0_set_up|]. split; [apply cleaned_self; apply (c_sanitize_cleaned "" "work")|].
  split; [split; [vm_compute; discriminate|exists "qubes.Gpg", "+"; split; [constructor; reflexivity|vm_compute; discriminate]]|].
  split; [vm_compute; reflexivity|]. split; [vm_compute; reflexivity|]. split; [vm_compute; reflexivity|]. split; [vm_compute; reflexivity|].
  split; [apply C114_identifier_sent; [reflexivity|vm_compute; repeat constructor]|].
  split; [vm_compute; reflexivity|]. split; [vm_compute; reflexivity|]. split; [cbv; reflexivity|]. split; [vm_compute; reflexivity|].
  split; [vm_compute; reflexivity|]. eexists. reflexivity.
Qed.
