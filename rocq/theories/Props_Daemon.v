(** Properties C16, C17, C36-C39, C43, C44, C51, C57-C59: names, the policy
    socket, policy.EvalSimple and EvalGUI, qrexec-policy-exec, agent messages, and
    a call from the agent's message to the command that runs *)
From Coq Require Import String Ascii List Bool Arith ZArith Lia.
From Verif Require Import Base SysInfo Token Rule Policy PolicyExec SpecPolicy
  TokenProofs MatchProofs EvalProofs AskProofs ExecProofs Props_Policy
  Sanitize PolicyDaemon DaemonPolicy DaemonAgent SpecDaemon SpecAgent SpecCall
  SanitizeProofs DaemonProofs EvalSvc AgentProofs CallProofs ExecTool.
Import ListNotations.
Open Scope string_scope.
Open Scope nat_scope.
Open Scope list_scope.

(** ** C39 Sanitisers *)
Theorem C39_python_sanitisers s :
  (exists r, sanitize_domain_name s false = Ok r /\ cleaned "@" s r) /\
  (exists r, sanitize_service_name s false = Ok r /\ cleaned "@+" s r).
Proof.
  split; eexists; (split; [reflexivity|]).
  - exact (py_map_cleaned "" s).
  - exact (py_map_cleaned "+" s).
Qed.
(** the C sanitiser works on the C string in a buffer and leaves the rest alone *)
Theorem C39_c_sanitiser buffer extra :
  cleaned extra (cstr buffer) (cstr (c_sanitize_name buffer extra)) /\
  exists rest, buffer = cstr buffer +++ rest /\
    c_sanitize_name buffer extra = cstr (c_sanitize_name buffer extra) +++ rest.
Proof.
  split; [apply c_sanitize_cleaned|].
  destruct (c_sanitize_rest buffer extra) as (a & b & E & E2 & E3 & _). exists b. split; auto. congruence.
Qed.
Theorem C39_cleaning extra s r : cleaned extra s r ->
  spelled extra r /\ String.length r = String.length s /\ cleaned extra r r /\
  (r = s <-> spelled extra s) /\
  (forall n c, String.get n s = Some c ->
     String.get n r = Some (if has_char c (name_alphabet +++ extra) then c else "_"%char)).
Proof.
  intros H. pose proof (cleaned_spelled _ _ _ H) as Sp.
  split; [exact Sp|]. split; [eapply cleaned_length; eauto|]. split; [apply cleaned_self; auto|]. split.
  - split; [intros ->; exact Sp|]. intros K. apply cleaned_self in K. eapply cleaned_fun; eauto.
  - intros n c. eapply cleaned_nth; eauto.
Qed.
(** strict mode refuses exactly the names that would change *)
Theorem C39_strict s :
  (forall r, sanitize_domain_name s true = Ok r <-> spelled "@" s /\ r = s) /\
  (forall r, sanitize_service_name s true = Ok r <-> spelled "@+" s /\ r = s).
Proof.
  assert (G : forall extra r, py_sanitize_name s extra true = Ok r <-> spelled ("@" +++ extra) s /\ r = s).
  { intros extra r. unfold py_sanitize_name. cbn [andb]. pose proof (py_map_cleaned extra s) as C.
    destruct (String.eqb_spec s (smap (py_sanitize_char extra) s)) as [E|E]; cbn [negb].
    - rewrite <- E in *. split.
      + intros H. apply ok_inj in H. subst r. split; auto. eapply cleaned_spelled; eauto.
      + intros [_ ->]. reflexivity.
    - split; [discriminate|]. intros [Sp ->]. exfalso. apply E. apply cleaned_self in Sp. eapply cleaned_fun; eauto. }
  split; intros r; apply G.
Qed.
(** what the qrexec daemon keeps in service names, the Python sanitiser of service
    names keeps too, unchanged *)
Theorem C39_services_agree_partial s used : service_name s used ->
  sanitize_service_name used true = Ok used.
Proof.
  intros (_ & _ & C). apply (proj2 (C39_strict used)). split; auto. apply cleaned_spelled in C.
  intros c Hc. specialize (C c Hc). rewrite has_char_app in *. apply orb_true_iff in C as [C|C]; apply orb_true_iff; auto.
  right. change "@+" with ("@" +++ "+"). rewrite has_char_app, C. apply orb_true_r.
Qed.
(** missing: the daemon allows a colon in targets, which the Python sanitiser of
    qube names refuses; and it removes the at sign from services, which Python
    allows *)
Theorem C39_agree_refuted :
  sanitize_domain_name "uuid:1234" true = Err EValue /\ c_sanitize_name "uuid:1234" "@:" = "uuid:1234" /\
  sanitize_service_name "a@b" true = Ok "a@b" /\ validate_service_name "a@b" = Some "a_b".
Proof. vm_compute. auto. Qed.
Example C39_example :
  sanitize_domain_name "wo rk/x" false = Ok "wo_rk_x" /\ sanitize_service_name "qubes.Open+a b" false = Ok "qubes.Open+a_b" /\
  sanitize_domain_name "wo rk" true = Err EValue /\ sanitize_domain_name "@dispvm" true = Ok "@dispvm" /\
  c_sanitize_name ("a b" +++ str1 NUL +++ "/") "" = "a_b" +++ str1 NUL +++ "/" /\ service_name "qubes.Gpg" "qubes.Gpg".
Proof. repeat (split; [reflexivity|]). apply (service_name_spec "qubes.Gpg" "qubes.Gpg"). reflexivity. Qed.

(** ** C36 The policy socket *)
Theorem C36_answers_valid_requests policy sysinfo agent text w evs :
  handle_client_connection policy sysinfo agent text = (Some w, evs) <->
  exists l source target service reqsrc,
    carries text l /\ valid_request l /\
    has_field l "source" source /\ has_field l "intended_target" target /\
    has_field l "service_and_arg" service /\ optional_field l "requested_source" reqsrc /\
    handle_request policy sysinfo agent source target service
      (switched_on l "just_evaluate") (switched_on l "assume_yes_for_ask") reqsrc = (Ok w, evs) /\
    ascii_text w.
Proof. exact (policy_socket policy sysinfo agent text w evs). Qed.
Theorem C36_invalid_ignored policy sysinfo agent text :
  (forall l, carries text l -> ~ valid_request l) ->
  handle_client_connection policy sysinfo agent text = (None, []).
Proof. exact (policy_socket_invalid policy sysinfo agent text). Qed.
Theorem C36_one_reading text l l' : carries text l -> valid_request l -> carries text l' -> valid_request l' -> l = l'.
Proof. exact (carries_unique text l l'). Qed.

Definition ex_text : string := "source=work" +++ nl +++ "intended_target=vault" +++ nl +++ "service_and_arg=qubes.Gpg" +++ nl +++ nl.
Example C36_example :
  fst (handle_client_connection (Ok ex_rules) (Some ex_info) None ex_text) =
    Some ("user=gpg" +++ nl +++ "result=allow" +++ nl +++ "target=vault" +++ nl +++ "target_uuid=uuid:u-vault" +++ nl
          +++ "autostart=True" +++ nl +++ "requested_target=vault") /\
  (* lines repeated, unknown, or missing *)
  fst (handle_client_connection (Ok ex_rules) (Some ex_info) None ("source=work" +++ nl +++ ex_text)) = None /\
  fst (handle_client_connection (Ok ex_rules) (Some ex_info) None ("x=y" +++ nl +++ ex_text)) = None /\
  fst (handle_client_connection (Ok ex_rules) (Some ex_info) None ("source=work" +++ nl)) = None /\
  (* the same request without an empty line, and without the end of its last line *)
  fst (handle_client_connection (Ok ex_rules) (Some ex_info) None
    ("source=vault" +++ nl +++ "intended_target=work" +++ nl +++ "service_and_arg=qubes.Gp")) = Some "result=deny" /\
  (exists l, carries ex_text l /\ valid_request l).
Proof.
  repeat (split; [vm_compute; reflexivity|]).
  exists (request_fields "work" None "vault" "qubes.Gpg"). split.
  - exact (request_carries "work" None "vault" "qubes.Gpg").
  - apply request_valid. intros s [->|[->|[->|E]]]; [| | |discriminate]; (split; [reflexivity|apply ascii7_spec; reflexivity]).
Qed.

(** ** C17 The request of the daemon *)
Definition fields_sent (source : string) (rs : option string) (target service : string) : list field :=
  ("source", source) :: (match rs with Some r => [("requested_source", r)] | None => [] end)
  ++ [("intended_target", target); ("service_and_arg", service)].

Theorem C17_request_understood source rs target service :
  (forall s, s = source \/ s = target \/ s = service \/ rs = Some s -> one_line s /\ ascii_text s) ->
  carries (request_text source rs target service) (fields_sent source rs target service) /\
  valid_request (fields_sent source rs target service) /\
  (forall l, carries (request_text source rs target service) l -> valid_request l ->
     l = fields_sent source rs target service).
Proof.
  intros H. split; [apply request_carries|]. split; [apply request_valid; auto|].
  intros l C V. eapply carries_unique; eauto. apply request_carries. apply request_valid; auto.
Qed.

Lemma message_spelled v type body rs target service ident :
  service_message v type body rs target service ident ->
  spelled "@:" target /\ spelled "+" service /\ (forall r, rs = Some r -> spelled "@:" r).
Proof.
  intros M. inversion M; subst; (split; [eapply cleaned_spelled; eauto|]);
    (split; [match goal with H : service_name _ _ |- _ => destruct H as (_ & _ & H); eapply cleaned_spelled; exact H end|]);
    intros r0 E; try discriminate; inversion E; subst; eapply cleaned_spelled; eauto.
Qed.
Lemma message_plain v type len body rs target service ident :
  handle_message_from_agent v type len body = ServiceCall rs target service ident ->
  forall s, s = target \/ s = service \/ rs = Some s -> plain_text s /\ ascii_text s.
Proof.
  intros H s Hs. apply service_message_spec in H as [_ M]. apply message_spelled in M as (M1 & M2 & M3).
  destruct Hs as [->|[->|Hs]].
  - split; [split; [eapply spelled_one_line; [|exact M1]; reflexivity|eapply spelled_no_nul; [|exact M1]; reflexivity]|].
    eapply spelled_ascii; [|exact M1]. apply ascii7_spec. reflexivity.
  - split; [split; [eapply spelled_one_line; [|exact M2]; reflexivity|eapply spelled_no_nul; [|exact M2]; reflexivity]|].
    eapply spelled_ascii; [|exact M2]. apply ascii7_spec. reflexivity.
  - apply M3 in Hs.
    split; [split; [eapply spelled_one_line; [|exact Hs]; reflexivity|eapply spelled_no_nul; [|exact Hs]; reflexivity]|].
    eapply spelled_ascii; [|exact Hs]. apply ascii7_spec. reflexivity.
Qed.
(** nothing a qube can send makes the daemon write anything else *)
Theorem C17_no_injection v type len body rs target service ident remote :
  handle_message_from_agent v type len body = ServiceCall rs target service ident ->
  one_line remote -> ascii_text remote ->
  forall l, carries (request_text remote rs target service) l -> valid_request l ->
  l = fields_sent remote rs target service.
Proof.
  intros H N A. apply C17_request_understood. intros s [->|Hs]; auto.
  destruct (message_plain _ _ _ _ _ _ _ _ H s) as [[Q _] Q']; auto.
Qed.
Example C17_example : handle_client_connection (Ok ex_rules) (Some ex_info) None
    (request_text "work" None "vault" "qubes.Gpg") = handle_client_connection (Ok ex_rules) (Some ex_info) None ex_text /\
  request_text "sys-net" (Some "far") "work" "x+y" =
    "source=sys-net" +++ nl +++ "requested_source=far" +++ nl +++ "intended_target=work" +++ nl +++ "service_and_arg=x+y" +++ nl +++ nl.
Proof. split; vm_compute; reflexivity. Qed.

(** ** C16 The answer of the policy daemon, C57 the whole way *)
(** the text of an allow decision and what the daemon makes of it, with or
    without a final newline *)
Theorem C16_allow_understood q a s : wf_info (q_info q) -> allow_execute q a = Ok s ->
  exists g, granted q (a_user a) (a_target a) (a_autostart a) g /\
    (tidy g -> forall t, t = s \/ t = s +++ nl ->
     parse_policy_response (Some t) None =
       (RESPONSE_ALLOW, mkReply (Some (gc_user g)) (gc_uuid g) (Some (gc_target g)) (Some (gc_requested g))
                          (gc_service g) (Some (gc_autostart g)) (gc_source g))).
Proof.
  intros W H. destruct (allow_execute_granted _ _ _ W H) as (g & G & ->). exists g. split; auto.
  intros T t [->| ->]; apply parse_granted; auto.
Qed.
Theorem C16_deny_understood t : t = "result=deny" \/ t = "result=deny" +++ nl ->
  fst (parse_policy_response (Some t) None) = RESPONSE_DENY.
Proof. intros [->| ->]; reflexivity. Qed.
(** every answer the policy gives to a call with plain texts is one of the two *)
Theorem C16_every_answer rules i agent source target service reqsrc s evs :
  (forall r, In r rules -> wf_rule r) -> wf_info i -> wf_refs i -> starts "@" source = false ->
  (forall r, In r rules -> ~ uuid_dispvm (r_target r)) ->
  plain_system i -> plain_users rules ->
  plain_text source -> plain_text reqsrc -> plain_text service ->
  handle_request (Ok rules) (Some i) agent source target service false false reqsrc = (Ok s, evs) ->
  (s = "result=deny" /\ fst (parse_policy_response (Some s) None) = RESPONSE_DENY) \/
  exists q g, call_of i source target service reqsrc q /\ decided_for rules agent q g /\
    parse_policy_response (Some s) None =
       (RESPONSE_ALLOW, mkReply (Some (gc_user g)) (gc_uuid g) (Some (gc_target g)) (Some (gc_requested g))
                          (gc_service g) (Some (gc_autostart g)) (gc_source g)).
Proof.
  intros Wr Wi Wf Hs Nu Ps Pu P1 P2 P3 H.
  destruct (answer_decided _ _ _ _ _ _ _ _ _ Wr Wi Wf Hs Nu Ps Pu P1 P2 P3 H) as [->|(q & g & C & D & -> & Ti & Pf)].
  - left. split; reflexivity.
  - right. exists q, g. split; auto. split; auto. apply (parse_granted g Ti).
Qed.
(** an answer that allows nothing cannot be taken for one that does: a text is
    read as allow only if one of its lines says so and none says result=deny *)
Lemma parse_lines_allow ls res r x r' : parse_lines ls res r = (Some (Some x), r') ->
  res = Some x /\ ~ In "result=allow" ls /\ ~ In "result=deny" ls \/
  res = None /\ In (if x then "result=allow" else "result=deny") ls /\
    ~ In (if x then "result=deny" else "result=allow") ls.
Proof.
  revert res r. induction ls as [|l ls IH]; intros res r H.
  - cbn in H. inversion H; subst. left. auto.
  - cbn [parse_lines] in H. destruct (parse_line l res r) as [[res1 r1]|] eqn:E; [|discriminate].
    unfold parse_line in E. destruct r as [u tu t rt sv au ps].
    destruct (starts "result=" l) eqn:Es.
    + destruct res; [discriminate|]. apply starts_split in Es as [v ->].
      change (dropk "result=" ("result=" +++ v)) with v in E.
      destruct (String.eqb_spec v "allow"); [|destruct (String.eqb_spec v "deny"); [|discriminate]]; subst v;
        inversion E; subst; apply IH in H as [(H & N1 & N2)|(H & _)]; try discriminate; inversion H; subst;
        right; (split; [reflexivity|]); cbn [In]; (split; [left; reflexivity|]);
        intros [K|K]; [discriminate|tauto|discriminate|tauto].
    + assert (res1 = res).
      { repeat match type of E with
               | (if ?b then _ else _) = _ => destruct b
               | match ?o with Some _ => _ | None => _ end = _ => destruct o
               | _ => discriminate E
               end; congruence. }
      subst res1. assert (N : forall z, l <> "result=" +++ z).
      { intros z ->. rewrite starts_app in Es. discriminate. }
      apply IH in H as [(H & N1 & N2)|(H & I1 & N1)].
      * left. split; auto. split; intros [K|K]; try tauto; [exact (N "allow" K)|exact (N "deny" K)].
      * right. split; auto. split; [right; auto|]. intros [K|K]; [|tauto]. destruct x; [exact (N "deny" K)|exact (N "allow" K)].
Qed.
Theorem C16_allow_needs_allow t ps0 r : parse_policy_response (Some t) ps0 = (RESPONSE_ALLOW, r) ->
  In "result=allow" (split_all NL (strip_nl t)) /\ ~ In "result=deny" (split_all NL (strip_nl t)).
Proof.
  unfold parse_policy_response. destruct (String.eqb t ""); [discriminate|]. destruct (has_char NUL t); [discriminate|].
  destruct (parse_lines _ _ _) as [[[[|]|]|] r'] eqn:E; try discriminate.
  - intros _. apply parse_lines_allow in E as [(K & _)|(_ & E1 & E2)]; [discriminate|auto].
  - destruct (p_user r'), (p_target r'), (p_requested r'), (p_autostart r'); discriminate.
Qed.

(** C57: whatever an agent sends, a process is run only if the policy decides for
    exactly that call, and then it is the decided service, for the decided target,
    user and caller *)
Theorem C57_only_authorised_calls_run v type len body rs target service ident
  rules i agent remote w evs status out :
  (forall r, In r rules -> wf_rule r) -> wf_info i -> wf_refs i ->
  (forall r, In r rules -> ~ uuid_dispvm (r_target r)) ->
  plain_system i -> plain_users rules ->
  spelled "" remote ->
  handle_message_from_agent v type len body = ServiceCall rs target service ident ->
  handle_client_connection (Ok rules) (Some i) agent (request_text remote rs target service) = (w, evs) ->
  status <> 0 ->
  let o := execute_service_child remote service (answered w) (status, out) in
  (exists st, o = ChildExits st) \/
  exists q g, call_of i remote target service (claimed rs) q /\ decided_for rules agent q g /\
    performed remote service g o.
Proof.
  intros Wr Wi Wf Nu Ps Pu Sp M H St. eapply call_decided; eauto.
  - destruct (starts "@" remote) eqn:E; auto. exfalso. apply starts_split in E as [x ->].
    specialize (Sp "@"%char). cbn in Sp. specialize (Sp eq_refl). discriminate Sp.
  - intros s [->|Hs]; [|eapply message_plain; eauto].
    split; [split; [eapply spelled_one_line; [|exact Sp]; reflexivity|eapply spelled_no_nul; [|exact Sp]; reflexivity]|].
    eapply spelled_ascii; [|exact Sp]. apply ascii7_spec. reflexivity.
Qed.
(** and a decision in favour of the call is carried out *)
Theorem C57_authorised_calls_run v type len body rs target service ident
  rules i agent remote s evs fallback :
  (forall r, In r rules -> wf_rule r) -> wf_info i -> wf_refs i ->
  (forall r, In r rules -> ~ uuid_dispvm (r_target r)) ->
  plain_system i -> plain_users rules ->
  spelled "" remote ->
  handle_message_from_agent v type len body = ServiceCall rs target service ident ->
  handle_request (Ok rules) (Some i) agent remote target service false false (claimed rs) = (Ok s, evs) ->
  String.length s < 4096 -> ascii_text s ->
  handle_client_connection (Ok rules) (Some i) agent (request_text remote rs target service) = (Some s, evs) /\
  let o := execute_service_child remote service (answered (Some s)) fallback in
  (s = "result=deny" /\ o = ChildExits 126) \/
  exists q g, call_of i remote target service (claimed rs) q /\ decided_for rules agent q g /\
    performed remote service g o.
Proof.
  intros Wr Wi Wf Nu Ps Pu Sp M H L A. eapply decided_runs; eauto.
  - destruct (starts "@" remote) eqn:E; auto. exfalso. apply starts_split in E as [x ->].
    specialize (Sp "@"%char). cbn in Sp. specialize (Sp eq_refl). discriminate Sp.
  - intros x [->|Hs]; [|eapply message_plain; eauto].
    split; [split; [eapply spelled_one_line; [|exact Sp]; reflexivity|eapply spelled_no_nul; [|exact Sp]; reflexivity]|].
    eapply spelled_ascii; [|exact Sp]. apply ascii7_spec. reflexivity.
Qed.

(** a concrete message of an agent, and what becomes of it *)
Definition padded (n : nat) (s : string) : string := s +++ nuls (n - String.length s).
Definition ex_body : string := padded 64 "vault" +++ padded 32 "SOCKET11" +++ "qubes.Gpg" +++ str1 NUL.
Lemma ex_plain : plain_system ex_info.
Proof.
  intros n d H. apply dget_In in H. cbn in H.
  repeat (destruct H as [H|H]; [inversion H; subst; cbn;
    split; [split; reflexivity|]; split; intros z E; inversion E; split; reflexivity|]). destruct H.
Qed.
Lemma ex_users : plain_users ex_rules.
Proof.
  intros r u H E. cbn in H.
  repeat (destruct H as [H|H]; [subst r; cbn in E; inversion E; split; reflexivity|]). destruct H.
Qed.
Example C57_example :
  (forall r, In r ex_rules -> wf_rule r) /\ wf_info ex_info /\ wf_refs ex_info /\
  (forall r, In r ex_rules -> ~ uuid_dispvm (r_target r)) /\ plain_system ex_info /\ plain_users ex_rules /\
  spelled "" "work" /\
  handle_message_from_agent 3 530 (Z.of_nat (String.length ex_body)) ex_body = ServiceCall None "vault" "qubes.Gpg" "SOCKET11" /\
  (let w := fst (handle_client_connection (Ok ex_rules) (Some ex_info) None (request_text "work" None "vault" "qubes.Gpg")) in
   execute_service_child "work" "qubes.Gpg" (answered w) (1, "") = RunInVM "uuid:u-vault" true "gpg:QUBESRPC qubes.Gpg+ work" true) /\
  (let w := fst (handle_client_connection (Ok ex_rules) (Some ex_info) None (request_text "vault" None "work" "qubes.Gpg")) in
   execute_service_child "vault" "qubes.Gpg" (answered w) (1, "") = ChildExits 126).
Proof.
  split; [apply rules_of_wf|]. split; [exact ex_wf|]. split; [exact ex_refs|].
  split. { intros r H K. cbn in H. repeat (destruct H as [H|H]; [subst r; exact K|]). destruct H. }
  split; [exact ex_plain|]. split; [exact ex_users|].
  split. { apply cleaned_self. apply (c_sanitize_cleaned "" "work"). }
  split; [vm_compute; reflexivity|]. split; vm_compute; reflexivity.
Qed.

(** ** C58 The fallback when qrexec-policy-daemon is not available *)
Theorem C58_fallback_partial rules i agent source target service evs p disp :
  (forall r, In r rules -> wf_rule r) -> wf_info i -> wf_refs i -> starts "@" source = false ->
  (forall r, In r rules -> ~ uuid_dispvm (r_target r)) ->
  plain_system i -> plain_users rules ->
  (forall s, s = source \/ s = target \/ s = service -> plain_text s) ->
  qrexec_policy_exec (Ok rules) (Some i) agent [] false false [source; target; service] disp = (p, evs) ->
  let o := execute_service_child source service NoDaemon (run_of p) in
  (exists st, o = ChildExits st) \/
  exists q g, call_of i source target service "" q /\ decided_for rules agent q g /\
    performed source service g o.
Proof. exact (fallback_decided rules i agent source target service evs p disp). Qed.
(** missing: calls on behalf of a remote qube. The fallback is not told about the
    remote qube: the call is decided as a call of the relay itself. Below, the
    policy denies the call of qube far and the daemon obeys; with the policy
    daemon down the same call runs. *)
Definition ex_remote_rules : list rule := rules_of ["x * far vault deny"; "x * sys-net vault allow"].
Theorem C58_fallback_refuted :
  let text := request_text "sys-net" (Some "far") "vault" "x" in
  let w := fst (handle_client_connection (Ok ex_remote_rules) (Some ex_info) None text) in
  let fb := run_of (fst (qrexec_policy_exec (Ok ex_remote_rules) (Some ex_info) None [] false false ["sys-net"; "vault"; "x"] "")) in
  execute_service_child "sys-net" "x" (answered w) fb = ChildExits 126 /\
  execute_service_child "sys-net" "x" NoDaemon fb = RunInVM "uuid:u-vault" true "DEFAULT:QUBESRPC x+ sys-net" true.
Proof. vm_compute. auto. Qed.
Example C58_example :
  (forall s, s = "work" \/ s = "vault" \/ s = "qubes.Gpg" -> plain_text s) /\
  execute_service_child "work" "qubes.Gpg" NoDaemon
    (run_of (fst (qrexec_policy_exec (Ok ex_rules) (Some ex_info) None [] false false ["work"; "vault"; "qubes.Gpg"] ""))) =
    RunInVM "uuid:u-vault" true "gpg:QUBESRPC qubes.Gpg+ work" true.
Proof. split; [intros s [->|[->| ->]]; split; reflexivity|vm_compute; reflexivity]. Qed.

(** ** C38 Exit status of qrexec-policy-exec *)
Theorem C38_exit_status policy sysinfo agent je ay args disp source target service :
  args = [source; target; service] \/ (je = true /\ exists d ident, args = [d; source; target; service; ident]) ->
  forall p evs, qrexec_policy_exec policy sysinfo agent [] je ay args disp = (p, evs) ->
  exists st, exit_status p = Some st /\
  (st = 0 <-> exists s evs', handle_request policy sysinfo agent source target service je ay "" = (Ok s, evs') /\
                             s <> "result=deny").
Proof. exact (exit_status_spec policy sysinfo agent je ay args disp source target service). Qed.
(** the exit status does not depend on the texts in the answer *)
Example C38_example :
  fst (qrexec_policy_exec (Ok ex_rules) (Some ex_info) None [] false false ["work"; "vault"; "qubes.Gpg"] "") =
    Prints ("user=gpg" +++ nl +++ "result=allow" +++ nl +++ "target=vault" +++ nl +++ "target_uuid=uuid:u-vault" +++ nl
          +++ "autostart=True" +++ nl +++ "requested_target=vault" +++ nl) 0 /\
  fst (qrexec_policy_exec (Ok ex_rules) (Some ex_info) None [] false false ["vault"; "work"; "x" +++ nl +++ "result=allow" +++ nl] "") =
    Prints ("result=deny" +++ nl) 1 /\
  fst (qrexec_policy_exec (Ok ex_rules) (Some ex_info) None [] true false ["1"; "work"; "vault"; "qubes.Gpg"; "2"] "") = Exits 0.
Proof. vm_compute. auto. Qed.
(** the option --path of the program always makes it fail *)
Theorem C38_path_option_dies policy sysinfo agent path paths je ay args disp :
  qrexec_policy_exec policy sysinfo agent (path :: paths) je ay args disp = (Dies, []).
Proof. reflexivity. Qed.

(** ** C59 The deprecated mode that runs qrexec-client *)
Theorem C59_deprecated_mode_partial rules i agent ay source target service domain_id ident disp p evs :
  (forall r, In r rules -> wf_rule r) -> wf_info i -> wf_refs i -> starts "@" source = false ->
  (forall r, In r rules -> ~ uuid_dispvm (r_target r)) ->
  plain_system i -> plain_users rules ->
  (forall s, s = source \/ s = target \/ s = service -> plain_text s) ->
  ay = false ->
  qrexec_policy_exec (Ok rules) (Some i) agent [] false ay [domain_id; source; target; service; ident] disp = (p, evs) ->
  match p with
  | RunsClient create argv =>
      exists q g, call_of i source target service "" q /\ decided_for rules agent q g /\
        client_run domain_id source target service ident disp g create argv
  | Prints _ _ => False
  | Exits st => st = 1
  | Dies => True
  end.
Proof. exact (deprecated_decided rules i agent ay source target service domain_id ident disp p evs). Qed.
(** missing: the service to run in the relay of a remote qube is ignored, and the
    service meant for the remote qube is run in the relay *)
Theorem C59_remote_refuted :
  let rules := rules_of ["x * work far allow"] in
  let w := fst (handle_client_connection (Ok rules) (Some ex_info) None (request_text "work" None "far" "x+y")) in
  execute_service_child "work" "x+y" (answered w) (1, "") =
    RunInVM "uuid:u-net" true "DEFAULT:QUBESRPC qubesair.SSHProxy+far+x+y work" true /\
  fst (qrexec_policy_exec (Ok rules) (Some ex_info) None [] false false ["7"; "work"; "far"; "x+y"; "id"] "") =
    RunsClient None ["/usr/lib/qubes/qrexec-client"; "-Ed"; "uuid:u-net"; "-c"; "id,work,7"; "--"; "DEFAULT:QUBESRPC x+y work"].
Proof. vm_compute. auto. Qed.
Example C59_example :
  fst (qrexec_policy_exec (Ok ex_rules) (Some ex_info) None [] false false ["7"; "work"; "vault"; "qubes.Gpg"; "id"] "") =
    RunsClient None ["/usr/lib/qubes/qrexec-client"; "-Ed"; "uuid:u-vault"; "-c"; "id,work,7"; "--"; "gpg:QUBESRPC qubes.Gpg work"] /\
  fst (qrexec_policy_exec (Ok ex_rules) (Some ex_info) None [] false false ["7"; "work"; "@default"; "qubes.OpenURL+mailto"; "id"] "disp1") =
    RunsClient (Some "@dispvm:uuid:u-dvm") ["/usr/lib/qubes/qrexec-client"; "-EWkd"; "disp1"; "-c"; "id,work,7"; "--";
      "DEFAULT:QUBESRPC qubes.OpenURL+mailto work"].
Proof. vm_compute. auto. Qed.

(** ** C37 policy.EvalSimple and policy.EvalGUI *)
Theorem C37_evaluation_service policy sysinfo agent gui svc first pieces w evs :
  has_char " " svc = false -> has_char "+" svc = false ->
  header_complete first -> Forall (fun c => c <> "") pieces ->
  handle_qrexec_connection policy sysinfo agent gui svc first pieces = (Some w, evs) <->
  exists i remote queried source target s,
    sysinfo = Some i /\ eval_request svc first pieces remote queried source target /\
    (gui = true -> tagged i source ("guivm-" +++ remote) /\ tagged i target ("guivm-" +++ remote)) /\
    handle_request policy (Some i) agent source target queried true true "" = (Ok s, evs) /\ w = s +++ nl.
Proof. exact (eval_connection policy sysinfo agent gui svc first pieces w evs). Qed.
Theorem C37_quiet policy sysinfo agent gui svc first pieces w evs :
  has_char " " svc = false -> has_char "+" svc = false ->
  header_complete first -> Forall (fun c => c <> "") pieces ->
  handle_qrexec_connection policy sysinfo agent gui svc first pieces = (Some w, evs) ->
  evs = [] /\ (w = "result=allow" +++ nl \/ w = "result=deny" +++ nl).
Proof.
  intros H1 H2 H3 H4 H. apply eval_connection in H as (i & remote & queried & source & target & s & -> & _ & _ & H & ->); auto.
  split.
  - pose proof (evaluation_quiet policy (Some i) agent source target queried "") as Q. rewrite H in Q. exact Q.
  - apply answer_shape in H. destruct H as [->| ->]; auto.
Qed.
(** whatever the input, no one is asked or notified *)
Theorem C37_never_prompts policy sysinfo agent gui svc first pieces :
  snd (handle_qrexec_connection policy sysinfo agent gui svc first pieces) = [].
Proof.
  unfold handle_qrexec_connection. destruct (extract_parameters first) as [[[[a b] c] d]|]; [|reflexivity].
  destruct (negb _); [reflexivity|]. unfold qrexec_policy_eval.
  repeat match goal with
         | |- snd (if ?b then _ else _) = [] => destruct b; [reflexivity|]
         | |- snd (match ?o with Some _ => _ | None => _ end) = [] => destruct o; [|reflexivity]
         | |- snd (let '(_, _) := handle_request _ _ _ _ _ _ _ _ _ in _) = [] => fail 1
         | |- snd (let '(_, _) := ?o in _) = [] => destruct o
         | |- snd (match ?o with Ok _ => _ | Err _ => _ end) = [] => destruct o; [|reflexivity]
         end.
  match goal with |- context [handle_request ?a ?b ?c ?d ?e ?f true true ""] =>
    pose proof (evaluation_quiet a b c d e f "") as Q;
    destruct (handle_request a b c d e f true true "") as [[?|?] ?] end; cbn in *; auto.
Qed.
Definition ex_gui_info : info := [("a", mkDom (U "ua") "AppVM" ["guivm-gui"] false None "Running" false None None None "a");
  ("b", mkDom (U "ub") "AppVM" ["guivm-gui"] false None "Running" false None None None "b");
  ("c", mkDom (U "uc") "AppVM" ["guivm-other"] false None "Running" false None None None "c")].
Definition ex_gui (first : string) (pieces : list string) :=
  handle_qrexec_connection (Ok (rules_of ["svc * a b ask"; "svc * a c allow"])) (Some ex_gui_info) None true "policy.EvalGUI" first pieces.
Example C37_example :
  header_complete ("policy.EvalGUI+svc gui" +++ str1 NUL +++ "a") /\
  ex_gui ("policy.EvalGUI+svc gui" +++ str1 NUL +++ "a") [str1 NUL; "b"] = (Some ("result=allow" +++ nl), []) /\
  ex_gui ("policy.EvalGUI+svc gui" +++ str1 NUL +++ "b" +++ str1 NUL +++ "a") [] = (Some ("result=deny" +++ nl), []) /\
  ex_gui ("policy.EvalGUI+svc gui" +++ str1 NUL +++ "a" +++ str1 NUL +++ "c") [] = (None, []) /\
  ex_gui ("policy.EvalGUI+svc other" +++ str1 NUL +++ "a" +++ str1 NUL +++ "b") [] = (None, []).
Proof.
  split; [|vm_compute; auto].
  exists "policy.EvalGUI+svc", ("gui" +++ str1 NUL +++ "a"). repeat split.
Qed.

(** ** C43 Messages of agents, C44 identifiers and names *)
Theorem C43_headers v type len :
  sanitize_message_from_agent v type len = true <-> header_allowed v type len.
Proof. exact (header_spec v type len). Qed.
Theorem C43_other_headers_stop v type len body : ~ header_allowed v type len ->
  handle_message_from_agent v type len body = DaemonExits.
Proof.
  intros H. unfold handle_message_from_agent.
  destruct (sanitize_message_from_agent v type len) eqn:E; [|reflexivity].
  exfalso. apply H, header_spec, E.
Qed.
Theorem C43_handshake type len theirs a :
  handle_agent_hello type len theirs = Some a <-> type = 768%Z /\ len = 4%Z /\ agreed theirs a.
Proof. exact (hello_spec type len theirs a). Qed.
Theorem C43_service_messages v type len body rs target service ident :
  handle_message_from_agent v type len body = ServiceCall rs target service ident <->
  len = Z.of_nat (String.length body) /\ service_message v type body rs target service ident.
Proof. exact (service_message_spec v type len body rs target service ident). Qed.
Theorem C44_identifiers raw : validate_request_id raw = true <-> exists ident, request_ident raw ident.
Proof. exact (ident_spec raw). Qed.
Theorem C44_service_names raw used :
  validate_service_name raw = Some used <-> service_name (cstr raw) used.
Proof. exact (service_name_spec raw used). Qed.
(** the identifier handed on is the text in the message, unchanged *)
Theorem C44_identifier_kept v type len body rs target service ident :
  handle_message_from_agent v type len body = ServiceCall rs target service ident ->
  exists raw a b, body = a +++ raw +++ b /\ String.length raw = 32 /\ request_ident raw ident.
Proof.
  intros H. apply service_message_spec in H as [_ M]. inversion M; subst.
  - exists raw, (name +++ tgt), "". rewrite app_nil_s, app_assoc_s. auto.
  - exists raw, tgt, (name +++ str1 NUL). auto.
  - exists raw, (src +++ tgt), (name +++ str1 NUL). rewrite app_assoc_s. auto.
Qed.
Example C43_example :
  header_allowed 3 530 200 /\ ~ header_allowed 3 531 200 /\
  handle_agent_hello 768 4 7 = Some 4%Z /\ handle_agent_hello 768 4 1 = None /\
  handle_message_from_agent 3 530 (Z.of_nat (String.length ex_body)) ex_body = ServiceCall None "vault" "qubes.Gpg" "SOCKET11" /\
  handle_message_from_agent 4 531 181 (padded 64 "far" +++ padded 64 "va ult" +++ padded 32 "SOCKET11" +++ "qubes.Gpg+some arg?" +++ "x" +++ str1 NUL) =
    ServiceCall (Some "far") "va_ult" "qubes.Gpg+some_arg_x" "SOCKET11" /\
  handle_message_from_agent 3 530 97 (padded 64 "vault" +++ padded 32 "SOCKET11" +++ str1 NUL) = RefuseCall (padded 32 "SOCKET11") /\
  handle_message_from_agent 3 530 100 (padded 64 "vault" +++ padded 32 "SOCKET11" +++ "+ab" +++ str1 NUL) = RefuseCall (padded 32 "SOCKET11") /\
  handle_message_from_agent 2 528 128 (padded 64 "svc" +++ padded 32 "vault" +++ padded 32 "a/b") = RefuseCall (padded 32 "a/b").
Proof.
  split; [apply ha_trigger3; lia|]. split; [intros H; inversion H; lia|].
  vm_compute. repeat split.
Qed.

(** ** C51 dom0 *)
Theorem C51_dom0_agrees s : target_refers_to_dom0 s = true <-> is_dom0 s = true.
Proof. rewrite refers_to_dom0, is_dom0_spec. tauto. Qed.
Theorem C51_dom0_names s : target_refers_to_dom0 s = true <->
  s = "dom0" \/ s = "@adminvm" \/ s = "uuid:00000000-0000-0000-0000-000000000000".
Proof. exact (refers_to_dom0 s). Qed.
Example C51_example : target_refers_to_dom0 "dom0" = true /\ target_refers_to_dom0 "dom0x" = false /\
  target_refers_to_dom0 "domain" = false /\ target_refers_to_dom0 "" = false.
Proof. vm_compute. auto. Qed.

Print Assumptions C57_only_authorised_calls_run.
Print Assumptions C37_evaluation_service.
Print Assumptions C43_service_messages.
