(** C112: a call between two qubes: both ends get to know each other *)
From Coq Require Import String Ascii List Bool Arith ZArith Lia.
From Verif Require Import Base SysInfo Token Rule Policy PolicyExec SpecPolicy Sanitize PolicyDaemon DaemonPolicy DaemonAgent SpecDaemon SpecAgent SpecCall
  SanitizeProofs AgentProofs DaemonProofs CallProofs Props_Daemon Exec SpecExec SpecEndToEnd Props_EndToEnd.
From Verif Require Import DaemonState ExecuteVm SpecVm SpecMeet Props_Meet.
From Verif Require Props_Exec Agent Toml TriggerProofs MainProofs Props_Vm StateProofs.
Import ListNotations.
Open Scope string_scope.
Open Scope list_scope.
Open Scope Z_scope.

(** the user a call is run as in a qube whose default user is [du] *)
Definition run_as (du : string) (g : granted_call) : string := if String.eqb (gc_user g) "DEFAULT" then du else gc_user g.

Lemma cstr_stake n : forall s, (String.length (cstr s) <= n)%nat -> cstr (stake n s) = cstr s.
Proof.
  induction n as [|n IH]; intros s H.
  - destruct s as [|c s]; [reflexivity|]. cbn [cstr stake] in *. destruct (Ascii.eqb c NUL); [reflexivity|]. cbn [String.length] in H. lia.
  - destruct s as [|c s]; [reflexivity|]. cbn [cstr stake] in *. destruct (Ascii.eqb c NUL); [reflexivity|]. cbn [String.length] in H. f_equal. apply IH. lia.
Qed.
Lemma first_colon a b r : lacks ":" a -> a +++ ":" +++ b = "DEFAULT:" +++ r -> a = "DEFAULT" /\ b = r.
Proof.
  intros L E. assert (A : split1 ":" (a +++ ":" +++ b) = Some (a, b)) by (apply split1_spec; split; [reflexivity|exact L]).
  rewrite E in A. assert (B : split1 ":" ("DEFAULT:" +++ r) = Some ("DEFAULT", r)) by (apply split1_spec; split; [reflexivity|reflexivity]).
  rewrite A in B. split; congruence.
Qed.
(** the caller's agent: its client gets the number of the other qube and the port *)
Lemma connect_params fd b port text en e st : 0 <= b < 2147483648 -> 0 <= port < 2147483648 -> Z.of_nat fd < 2147483648 -> cstr text = Agent.socket_ident fd ->
  exists out, snd (Agent.step en (Agent.Message e 514 40 (le32 b +++ le32 port +++ text)) st) =
    (if Agent.m_ebadf e then [] else Agent.ParamsTo (Z.of_nat fd) b port :: out) /\ (out = [] \/ out = [Agent.NoSlot b port]).
Proof.
  intros Hb Hp Sm C. unfold Agent.step, Agent.handle_server_cmd.
  change ((514 =? Agent.MSG_EXEC_CMDLINE) || (514 =? Agent.MSG_JUST_EXEC) || (514 =? Agent.MSG_SERVICE_CONNECT))%bool with true.
  change (514 =? Agent.MSG_SERVICE_CONNECT) with true. change ((40 <=? 8) || (40 >? 2147483647))%bool with false. cbv iota.
  rewrite sdrop8_le32, sdrop_le32, !Props_Vm.u32_le32 by lia.
  change (Z.to_nat (40 - 9)) with 31%nat. rewrite cstr_stake by (rewrite C; pose proof (TriggerProofs.ident_length fd Sm); lia).
  rewrite C. unfold Agent.set_conns, Agent.service_connect. rewrite TriggerProofs.scan_ident. destruct (Agent.m_ebadf e).
  - exists []. cbn [snd]. auto.
  - pose proof (MainProofs.register_out (-1) (Z.of_nat fd) b port (Agent.a_conns st)) as Ro.
    destruct (Agent.register _ _ _ _ _) as [c o]. cbn [snd] in *. exists o. auto.
Qed.

Theorem C112_both_ends fd type len data type' len' body rs target service rules i agent remote w evs status out u auto cmd
  a b du du' ww tr first second sa fa ok sa' outs_a sb fb sb' outs_b :
  (* in qube [remote], number a: a program has asked its agent for a service, over descriptor fd *)
  well_set_up rules i -> spelled "" remote -> remote <> "" -> moderate service -> Z.of_nat fd < 2147483648 ->
  Agent.handle_trigger_io fd type len data = [Agent.Forwarded type' len' body] ->
  handle_message_from_agent 4 type' len' body = ServiceCall rs target service (Agent.socket_ident fd) ->
  (* its daemon asks the policy daemon, and then it runs a command in the qube [u] *)
  handle_client_connection (Ok rules) (Some i) agent (request_text remote rs target service) = (w, evs) -> status <> 0%nat ->
  execute_service_child remote service (answered w) (status, out) = RunInVM u auto cmd true ->
  0 <= a < 2147483648 -> 0 <= b < 2147483648 ->
  qrexec_execute_vm ww u auto a cmd (Agent.socket_ident fd) false false true = (tr, Returns true) -> sends tr = [first; second] ->
  (* the daemon of the qube number b, with the default user du, gets the first message; that of [remote] the second *)
  lacks ":" du -> no_nul du -> size du < 65536 ->
  dstep du sb (FromClient fb (message_of first) true) = Some (sb', outs_b) -> w_answer ww = written_to_client b 512 outs_b ->
  dstep du' sa (FromClient fa (message_of second) ok) = Some (sa', outs_a) ->
  exists q g caller arg port lenb text cmdb,
    call_of i remote target service (claimed rs) q /\ decided_for rules agent q g /\ gc_uuid g = Some u /\ auto = gc_autostart g /\
    caller_named i remote (claimed rs) caller /\ argument_of (told_service g service) arg /\ 513 <= port < 769 /\
    outs_b = [PortToClient fb a port; ToAgent 512 lenb a port text] /\
    (forall en e st, Agent.step en (Agent.Message e 512 lenb (le32 a +++ le32 port +++ text)) st =
       Agent.exec_init en (Agent.m_files e) (Agent.m_forked e) (Agent.m_do e) (Agent.mkReq 512 a port cmdb) st) /\
    starts_in_qube cmdb (run_as du g) (told_service g service) caller arg /\
    (outs_a = [] \/ exists text_a, outs_a = [ToAgent 514 40 b port text_a] /\
       forall en e st, exists out, snd (Agent.step en (Agent.Message e 514 40 (le32 b +++ le32 port +++ text_a)) st) =
         (if Agent.m_ebadf e then [] else Agent.ParamsTo (Z.of_nat fd) b port :: out) /\ (out = [] \/ out = [Agent.NoSlot b port])).
Proof.
  intros W Sp Nr Mo Sm Tr M H St Ho Ha Hb Hx Hs Lu Nu Zu Sb Hw Sa. pose proof W as [Wr Wu (Wi & Wf & Ps) Wt].
  assert (Pu : plain_users rules) by (intros r u' I U; exact (proj1 (Wu r u' I U))).
  destruct (C57_only_authorised_calls_run _ _ _ _ _ _ _ _ _ _ _ _ _ _ _ out (fun r I => proj1 (Wr r I)) Wi Wf (fun r I => proj2 (Wr r I)) Ps Pu Sp M H St) as [(s & D)|(q & g & C & D & P)]; [rewrite Ho in D; discriminate|].
  rewrite Ho in P. destruct (decided_fine _ _ _ _ _ _ _ _ _ _ _ _ _ _ W Sp Nr Mo M C D) as [F _]. pose proof F as [Ca Cn Cw Rq [Uc Un] [Nt Nc]].
  assert (Ec : cmd = gc_user g +++ ":QUBESRPC " +++ told_service g service +++ " " +++ told_caller g remote /\ gc_uuid g = Some u /\ auto = gc_autostart g /\ ~ means_dom0 (gc_target g)) by (inversion P; subst; auto).
  destruct Ec as (Ec & Eu & Ea & Nm).
  assert (Lc : (0 < String.length cmd)%nat) by (rewrite Ec, length_app_s; cbn [String.append String.length]; lia).
  assert (Sc : size cmd <= 65535).
  { unfold qrexec_execute_vm in Hx. cbv zeta in Hx. destruct (_ || _) eqn:E in Hx; [discriminate|]. apply orb_false_iff in E as [_ E]. rewrite Z.gtb_ltb in E. apply Z.ltb_ge in E. unfold MAX_QREXEC_CMD_LEN in E. unfold size. lia. }
  destruct (C81_same_connection du du' a b ww u auto cmd (Agent.socket_ident fd) false false true tr sa fa ok sa' outs_a sb fb sb' outs_b first second
    Ha Hb (TriggerProofs.ident_no_nul fd) ltac:(pose proof (TriggerProofs.ident_length fd Sm); lia) Lc Hx Hs Sb Hw Sa) as (port & text & Hp & Ob & Tx & Oa & _).
  set (g' := mkGranted (run_as du g) (gc_target g) (gc_uuid g) (gc_requested g) (gc_autostart g) (gc_service g) (gc_source g)).
  set (cmdb := run_as du g +++ ":QUBESRPC " +++ told_service g service +++ " " +++ told_caller g remote).
  assert (Et : text = cmdb +++ str1 NUL).
  { unfold cmdb, run_as. destruct (String.eqb_spec (gc_user g) "DEFAULT") as [E|E].
    - destruct Tx as [[_ N]|(r & E1 & ->)].
      + exfalso. apply (N ("QUBESRPC " +++ told_service g service +++ " " +++ told_caller g remote)). rewrite Ec, E. reflexivity.
      + rewrite Ec in E1. apply (first_colon (gc_user g) ("QUBESRPC " +++ told_service g service +++ " " +++ told_caller g remote)) in E1 as [_ <-]; [|exact Uc]. rewrite !app_assoc_s. reflexivity.
    - destruct Tx as [[-> _]|(r & E1 & _)]; [rewrite Ec; reflexivity|].
      rewrite Ec in E1. apply (first_colon (gc_user g) ("QUBESRPC " +++ told_service g service +++ " " +++ told_caller g remote)) in E1 as [E1 _]; [contradiction|exact Uc]. }
  assert (Fr : lacks ":" (run_as du g) /\ no_nul (run_as du g)) by (unfold run_as; destruct (String.eqb (gc_user g) "DEFAULT"); auto).
  assert (F' : fine_call i remote (claimed rs) service g') by (constructor; [exact Ca|exact Cn|exact Cw|exact Rq|exact Fr|exact (conj Nt Nc)]).
  destruct (starts_qube i (claimed rs) remote service g' u auto cmdb true F') as (arg & A & X).
  { rewrite Ea. apply (pf_qube remote service g' u); [exact Nm|exact Eu]. }
  assert (Zb : size cmdb <= 2147483638).
  { assert (Z1 : size cmdb <= size cmd + size du).
    { unfold cmdb, run_as, size. rewrite Ec, !length_app_s. destruct (String.eqb (gc_user g) "DEFAULT"); lia. }
    unfold size in *. lia. }
  exists q, g, (told_caller g remote), arg, port, (8 + Z.of_nat (String.length text)), text, cmdb.
  do 6 (split; [assumption|]). split; [exact Hp|]. split; [exact Ob|]. split; [|split; [exact X|]].
  - intros en e st. pose proof X as (p & K & _). specialize (K en e 512 (le32 a +++ le32 port) st (or_introl eq_refl) eq_refl Zb).
    rewrite app_assoc_s, <- Et in K. unfold Agent.step.
    assert (Ln : 8 + Z.of_nat (String.length text) = 9 + size cmdb) by (rewrite Et, length_app_s; unfold size; cbn [str1 String.length]; lia).
    rewrite Ln, K. rewrite sdrop_le32, (Props_Vm.u32_le32 a) by lia. rewrite <- (app_nil_s (le32 port)), Props_Vm.u32_le32 by lia. reflexivity.
  - destruct Oa as [->|(text_a & -> & Ct)]; [left; reflexivity|right]. exists text_a. split; [reflexivity|]. intros en e st. apply connect_params; [exact Hb|lia|exact Sm|exact Ct].
Qed.

(** the hypotheses are met: a program in the qube "work" (number 5) asks for qubes.Gpg in
    "vault" (number 17) over descriptor 11; the rules run it there as gpg *)
Definition ex_data : string := padded 64 "" +++ padded 64 "vault" +++ padded 32 "" +++ "qubes.Gpg" +++ str1 NUL.
Definition ex_a : daemon :=
  let d := ex_running (init 5 4) 7 in set_pending d (set_nth 0 (mkSlot 4000 "SOCKET11" R_PENDING) (d_pending d)) 1.
Example C112_met : exists body' w tr first second sb' outs_b sa' outs_a,
  well_set_up Props_Policy.ex_rules Props_Policy.ex_info /\ spelled "" "work" /\ moderate "qubes.Gpg" /\
  Agent.handle_trigger_io 11 531 170 ex_data = [Agent.Forwarded 531 170 body'] /\
  handle_message_from_agent 4 531 170 body' = ServiceCall (Some "") "vault" "qubes.Gpg" "SOCKET11" /\
  fst (handle_client_connection (Ok Props_Policy.ex_rules) (Some Props_Policy.ex_info) None (request_text "work" (Some "") "vault" "qubes.Gpg")) = w /\
  execute_service_child "work" "qubes.Gpg" (answered w) (1%nat, "") = RunInVM "uuid:u-vault" true "gpg:QUBESRPC qubes.Gpg+ work" true /\
  qrexec_execute_vm ex_w "uuid:u-vault" true 5 "gpg:QUBESRPC qubes.Gpg+ work" "SOCKET11" false false true = (tr, Returns true) /\
  sends tr = [first; second] /\
  dstep "user" (ex_running (init 17 4) 8) (FromClient 8 (message_of first) true) = Some (sb', outs_b) /\
  w_answer ex_w = written_to_client 17 512 outs_b /\
  dstep "user" ex_a (FromClient 7 (message_of second) true) = Some (sa', outs_a) /\
  outs_b = [PortToClient 8 5 513; ToAgent 512 (8 + 29) 5 513 ("gpg:QUBESRPC qubes.Gpg+ work" +++ str1 NUL)] /\
  outs_a = [ToAgent 514 40 17 513 (ident_field "SOCKET11")] /\
  (run_as "user" (mkGranted "gpg" "uuid:u-vault" (Some "uuid:u-vault") "vault" true None None) = "gpg" /\
   run_as "user" (mkGranted "DEFAULT" "uuid:u-vault" (Some "uuid:u-vault") "vault" true None None) = "user").
Proof.
  do 9 eexists. split; [exact ex_set_up|]. split; [apply cleaned_self; apply (c_sanitize_cleaned "" "work")|].
  split; [split; [vm_compute; discriminate|exists "qubes.Gpg", "+"; split; [constructor; reflexivity|vm_compute; discriminate]]|].
  split; [vm_compute; reflexivity|]. split; [vm_compute; reflexivity|]. split; [vm_compute; reflexivity|]. split; [vm_compute; reflexivity|].
  split; [vm_compute; reflexivity|]. split; [vm_compute; reflexivity|]. split; [cbv; reflexivity|]. split; [vm_compute; reflexivity|].
  split; [cbv; reflexivity|]. split; [vm_compute; reflexivity|]. split; [vm_compute; reflexivity|]. split; reflexivity.
Qed.
