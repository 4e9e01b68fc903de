(** A call from the message of the agent to the command that runs *)
From Coq Require Import String Ascii List Bool Arith ZArith Lia.
From Verif Require Import Base SysInfo Token Rule Policy PolicyExec SpecPolicy
  TokenProofs MatchProofs EvalProofs AskProofs ExecProofs
  Sanitize PolicyDaemon DaemonPolicy DaemonAgent SpecDaemon SpecAgent SpecCall
  SanitizeProofs DaemonProofs EvalSvc AgentProofs.
Import ListNotations.
Open Scope string_scope.
Open Scope nat_scope.
Open Scope list_scope.

(** ** dom0 *)
Lemma refers_to_dom0 s : target_refers_to_dom0 s = true <-> means_dom0 s.
Proof.
  unfold means_dom0. destruct s as [|c s]; cbn [target_refers_to_dom0].
  - split; [discriminate|]. intros [H|[H|H]]; discriminate.
  - destruct (Ascii.eqb_spec c "@"); [subst|destruct (Ascii.eqb_spec c "d"); [subst|destruct (Ascii.eqb_spec c "u"); [subst|]]];
      rewrite ?String.eqb_eq; (split; [try discriminate|]);
      try (intros [H|[H|H]]; inversion H; subst; congruence); intros ->; auto.
Qed.

(** ** The request text *)
Definition request_fields (source : string) (rs : option string) (target service : string) : list field :=
  ("source", source) :: (match rs with Some r => [("requested_source", r)] | None => [] end)
  ++ [("intended_target", target); ("service_and_arg", service)].

Lemma request_carries source rs target service :
  carries (request_text source rs target service) (request_fields source rs target service).
Proof.
  unfold request_text, request_fields.
  assert (T : carries ("intended_target=" +++ target +++ nl +++ "service_and_arg=" +++ service +++ nl +++ nl)
                [("intended_target", target); ("service_and_arg", service)]).
  { replace ("intended_target=" +++ target +++ nl +++ "service_and_arg=" +++ service +++ nl +++ nl)
      with (field_line ("intended_target", target) +++ nl +++ (field_line ("service_and_arg", service) +++ nl +++ (nl +++ ""))).
    - apply car_more. apply car_more. apply car_blank.
    - unfold field_line. cbn [fst snd]. rewrite !app_assoc_s. reflexivity. }
  replace (_ +++ _) with (field_line ("source", source) +++ nl +++
    (match rs with Some r => field_line ("requested_source", r) +++ nl | None => "" end) +++
    ("intended_target=" +++ target +++ nl +++ "service_and_arg=" +++ service +++ nl +++ nl)).
  - apply car_more. destruct rs as [r|]; cbn [app].
    + rewrite app_assoc_s. apply car_more. exact T.
    + exact T.
  - unfold field_line. destruct rs as [r|]; cbn [fst snd]; rewrite !app_assoc_s; reflexivity.
Qed.

Lemma request_valid source rs target service :
  (forall s, s = source \/ s = target \/ s = service \/ rs = Some s -> one_line s /\ ascii_text s) ->
  valid_request (request_fields source rs target service).
Proof.
  intros H. unfold valid_request, request_fields. split; [|split].
  - destruct rs; cbn; repeat constructor; cbn; intuition discriminate.
  - intros x Hx.
    assert (forall n v, (n = "source" \/ n = "requested_source" \/ n = "intended_target" \/ n = "service_and_arg") ->
              one_line v /\ ascii_text v -> valid_field (n, v)) as V.
    { intros n v Hn [V1 V2]. unfold valid_field. cbn [fst snd].
      split; [destruct Hn as [->|[->|[->| ->]]]; cbn; auto 10|]. split; auto. split; auto.
      intros [<-|[<-|[]]]; destruct Hn as [Hn|[Hn|[Hn|Hn]]]; discriminate. }
    destruct rs; cbn in Hx; repeat (destruct Hx as [<-|Hx]; [apply V; auto 10|]); destruct Hx.
  - intros n Hn. destruct rs; cbn in *; intuition subst; auto 10.
Qed.
Lemma request_has source rs target service :
  let l := request_fields source rs target service in
  has_field l "source" source /\ has_field l "intended_target" target /\ has_field l "service_and_arg" service /\
  optional_field l "requested_source" (claimed rs) /\
  switched_on l "just_evaluate" = false /\ switched_on l "assume_yes_for_ask" = false.
Proof.
  unfold request_fields, has_field, optional_field, claimed. destruct rs; cbn; repeat split; auto.
  right. split; auto. intuition discriminate.
Qed.

(** ** Allow answers fit on their lines *)
Lemma plain_app a b : plain_text a -> plain_text b -> plain_text (a +++ b).
Proof. unfold plain_text, one_line, no_nul. rewrite !has_char_app. intros [-> ->] [-> ->]. auto. Qed.
Lemma plain_app_inv a b : plain_text (a +++ b) -> plain_text a /\ plain_text b.
Proof.
  unfold plain_text, one_line, no_nul. rewrite !has_char_app, !orb_false_iff. tauto.
Qed.

Lemma granted_tidy i source target service reqsrc q u x a g :
  plain_system i -> plain_text source -> plain_text reqsrc -> plain_text service ->
  (forall s, u = Some s -> plain_text s) ->
  call_of i source target service reqsrc q -> granted q u x a g -> tidy g.
Proof.
  intros P Ps Pr Pv Pu [Ci Cs Cc Cr Ct] G.
  assert (C : forall s, s = "" \/ s = "dom0" \/ s = "@dispvm:" \/ s = "uuid:" \/ s = "@dispvm:uuid:" \/ s = "DEFAULT" \/
     s = "@default" \/ s = "@adminvm" \/ s = "@dispvm" \/ s = "+" -> plain_text s).
  { intros s Hs. repeat (destruct Hs as [->|Hs]; [split; reflexivity|]). subst. split; reflexivity. }
  assert (PT : plain_text (tok_str (q_target q))).
  { revert Ct. generalize (q_target q). intros t Ct. destruct Ct; cbn [tok_str]; try (apply C; tauto).
    - apply plain_app; [apply C; tauto|exact (proj1 (P _ _ H))].
    - destruct H as (d & H). exact (proj1 (P _ _ H)). }
  assert (PU : plain_text (user_field u)).
  { unfold user_field. destruct u as [s|]; [destruct s; [apply C; tauto|apply Pu; reflexivity]|apply C; tauto]. }
  assert (PQ : plain_text (q_source q)) by (destruct Cc; auto).
  assert (PV : plain_text (q_service q) /\ plain_text (q_arg q)).
  { revert Cs. generalize (q_service q) (q_arg q). intros sv ar Cs. destruct Cs.
    - apply plain_app_inv in Pv. exact Pv.
    - split; auto. apply C. tauto. }
  assert (PS : match (if String.eqb (q_reqsrc q) "" then None else Some (q_source q)) with
               | Some s => plain_text s | None => True end).
  { destruct (String.eqb (q_reqsrc q) ""); auto. }
  subst i. unfold tidy. cbn zeta. inversion G; subst; cbn [gc_user gc_target gc_uuid gc_requested gc_service gc_source].
  - split; [exact PU|]. split; [apply C; tauto|]. split; [exact I|]. split; [exact PT|]. split; exact I.
  - destruct (P _ _ H0) as (P1 & P2 & _).
    split; [exact PU|]. split; [apply plain_app; [apply C; tauto|exact P1]|].
    split; [apply plain_app; [apply C; tauto|eauto]|]. split; [exact PT|]. split; [exact I|exact PS].
  - destruct (P _ _ H0) as (P1 & P2 & _).
    split; [exact PU|]. split; [exact P1|].
    split; [apply plain_app; [apply C; tauto|eauto]|]. split; [exact PT|]. split; [exact I|exact PS].
  - destruct (P _ _ H0) as (P1 & P2 & P3). destruct (P _ _ H6) as (P4 & P5 & _).
    split; [apply C; tauto|]. split; [exact P4|]. split; [apply plain_app; [apply C; tauto|eauto]|]. split; [exact PT|].
    split; [|exact PS].
    apply plain_app; eauto. apply plain_app; [apply C; tauto|]. apply plain_app; auto.
    apply plain_app; [apply C; tauto|]. apply plain_app; tauto.
Qed.

(** ** The daemon and the answer *)
Lemma parse_deny ps0 : forall s, s = "result=deny" \/ s = "result=deny" +++ nl ->
  parse_policy_response (Some s) ps0 = (RESPONSE_DENY, mkReply None None None None None None ps0).
Proof. intros s [->| ->]; vm_compute; reflexivity. Qed.

Lemma read_answer_spec s : (String.length s < 4096 /\ read_answer s = Some s) \/ read_answer s = None.
Proof. unfold read_answer. destruct (Nat.ltb_spec (String.length s) 4096); auto. Qed.

Lemma sdrop1_at s : starts "@" s = true -> s = "@" +++ sdrop 1 s.
Proof.
  destruct s as [|c s]; [discriminate|]. cbn [starts]. change ("@":string) with (String "@" "").
  cbn [starts]. rewrite andb_true_r || idtac. intros H.
  destruct (Ascii.eqb "@" c) eqn:E; [|discriminate H]. apply Ascii.eqb_eq in E. subst c. cbn. destruct s; reflexivity.
Qed.

Lemma act_performed caller service q u x a g :
  granted q u x a g ->
  performed caller service g (act_on_reply caller service (Some (RESPONSE_ALLOW, reply_of g))).
Proof.
  intros G. cbn [act_on_reply reply_of p_service p_source p_target p_requested p_user p_autostart p_target_uuid].
  assert (W : forall s t, s +++ (if has_char "+" s then "" else "+") +++ t = with_argument s +++ t).
  { intros s t. unfold with_argument. destruct (has_char "+" s); rewrite ?app_assoc_s; reflexivity. }
  destruct (target_refers_to_dom0 (gc_target g)) eqn:E.
  - apply refers_to_dom0 in E. destruct (starts "@" (gc_requested g)) eqn:K.
    + rewrite W. eapply (pf_dom0_keyword caller service g (sdrop 1 (gc_requested g))) in E; [exact E|].
      apply sdrop1_at. exact K.
    + rewrite W. apply (pf_dom0_name caller service g) in E; auto.
  - assert (E' : ~ means_dom0 (gc_target g)) by (intros K; apply refers_to_dom0 in K; congruence).
    rewrite W.
    assert (exists w, gc_uuid g = Some w) as (w & Hw).
    { inversion G; subst; cbn [gc_uuid gc_target] in *; eauto. exfalso. apply E'. left. reflexivity. }
    rewrite Hw. apply pf_qube; auto.
Qed.

Lemma authorised_decided rules q agent s evs : wf_info (q_info q) ->
  authorised rules q agent false false s evs ->
  exists g u, decided_for rules agent q g /\ s = join nl (gc_lines g) /\
    (exists x a, granted q u x a g) /\
    (exists r, In r rules /\ (u = user_of (r_action r))).
Proof.
  intros W (r & Hf & H). assert (Hin : In r rules).
  { destruct Hf as (l1 & l2 & -> & _). apply in_app_iff. right. left. reflexivity. }
  destruct (r_action r) as [|t u n a|t dt u n a] eqn:Ea; [destruct H| |].
  - destruct H as (x & H1 & H2 & H3). cbn [runs] in H3. destruct H3 as (H3 & lines & H4 & ->).
    pose proof (allow_execute_complete q (mkAllow u x a n) lines W H3 H4) as H5.
    destruct (allow_execute_granted _ _ _ W H5) as (g & Hg & Eg). cbn [a_user a_target a_autostart] in Hg.
    exists g, u. repeat split; eauto.
    + exists r. split; auto. rewrite Ea. exists x. auto.
    + exists r. rewrite Ea. auto.
  - destruct H as (x & H1 & H3 & _ & H2 & _). cbn [runs] in H3. destruct H3 as (H3 & lines & H4 & ->).
    pose proof (allow_execute_complete q (mkAllow u x a n) lines W H3 H4) as H5.
    destruct (allow_execute_granted _ _ _ W H5) as (g & Hg & Eg). cbn [a_user a_target a_autostart] in Hg.
    exists g, u. repeat split; eauto.
    + exists r. split; auto. rewrite Ea. exists x. auto.
    + exists r. rewrite Ea. auto.
Qed.

Theorem answer_decided rules i agent source target service reqsrc s evs :
  (forall r, In r rules -> wf_rule r) -> wf_info i -> wf_refs i -> starts "@" source = false ->
  (forall r, In r rules -> ~ uuid_dispvm (r_target r)) ->
  plain_system i -> plain_users rules ->
  plain_text source -> plain_text reqsrc -> plain_text service ->
  handle_request (Ok rules) (Some i) agent source target service false false reqsrc = (Ok s, evs) ->
  s = "result=deny" \/
  exists q g, call_of i source target service reqsrc q /\ decided_for rules agent q g /\
    s = join nl (gc_lines g) /\ tidy g /\
    performed source service g (act_on_reply source service (Some (RESPONSE_ALLOW, reply_of g))).
Proof.
  intros Wr Wi Wf Hs Nu Ps Pu P1 P2 P3 H.
  destruct (string_dec s "result=deny") as [|Hd]; auto. right.
  destruct (answer_authorised _ _ _ _ _ _ _ _ _ _ _ H Hd) as (rules' & i' & q & E1 & E2 & A).
  assert (rules' = rules) by congruence. assert (i' = i) by congruence. subst rules' i'.
  destruct A as [C A]; auto. { intros r Hr [K _]. exact (Nu r Hr K). }
  apply authorised_decided in A as (g & u & D & Es & (x & a & G) & (r & Hr & Eu)).
  2:{ rewrite (cof_info _ _ _ _ _ _ C). exact Wi. }
  exists q, g. split; auto. split; auto. split; auto. split.
  - eapply (granted_tidy i source target service reqsrc q u); eauto. intros w ->. eapply Pu; eauto.
  - eapply act_performed; eauto.
Qed.

(** From the request the daemon writes to the process it runs *)
Theorem call_decided rules i agent source rs target service w evs status out :
  (forall r, In r rules -> wf_rule r) -> wf_info i -> wf_refs i -> starts "@" source = false ->
  (forall r, In r rules -> ~ uuid_dispvm (r_target r)) ->
  plain_system i -> plain_users rules ->
  (forall s, s = source \/ s = target \/ s = service \/ rs = Some s -> plain_text s /\ ascii_text s) ->
  handle_client_connection (Ok rules) (Some i) agent (request_text source rs target service) = (w, evs) ->
  status <> 0 ->
  let o := execute_service_child source service (answered w) (status, out) in
  (exists st, o = ChildExits st) \/
  exists q g, call_of i source target service (claimed rs) q /\ decided_for rules agent q g /\
    performed source service g o.
Proof.
  intros Wr Wi Wf Hs Nu Ps Pu P H St o.
  assert (Nul : forall s, parse_policy_response (read_answer s) None = (RESPONSE_MALFORMED, mkReply None None None None None None None) ->
     exists st, execute_service_child source service (Answer s) (status, out) = ChildExits st).
  { intros s E. unfold execute_service_child, connect_daemon_socket. rewrite E.
    destruct (Nat.eqb_spec status 0); [congruence|]. eexists. reflexivity. }
  destruct w as [s|].
  2:{ left. apply Nul. reflexivity. }
  apply policy_socket in H as (l & source' & target' & service' & reqsrc' & Cl & Vl & F1 & F2 & F3 & F4 & H & As).
  assert (V : valid_request (request_fields source rs target service)).
  { apply request_valid. intros x Hx. destruct (P x Hx) as [[Q _] Q']. auto. }
  pose proof (carries_unique _ _ _ Cl Vl (request_carries source rs target service) V). subst l.
  destruct (request_has source rs target service) as (G1 & G2 & G3 & G4 & G5 & G6).
  assert (U : forall n a b, has_field (request_fields source rs target service) n a ->
                has_field (request_fields source rs target service) n b -> a = b).
  { destruct Vl as (N & _). intros n a b Ha Hb. revert N Ha Hb. unfold has_field.
    generalize (request_fields source rs target service). clear. intros l. induction l as [|[k v] l IH]; [intros _ []|].
    cbn. intros N [Ha|Ha] [Hb|Hb]; inversion N; subst; try congruence; auto.
    - inversion Ha; subst. exfalso. apply H1. change n with (fst (n, b)). apply in_map. auto.
    - inversion Hb; subst. exfalso. apply H1. change n with (fst (n, a)). apply in_map. auto. }
  rewrite (U _ _ _ F1 G1), (U _ _ _ F2 G2), (U _ _ _ F3 G3), G5, G6 in H.
  assert (reqsrc' = claimed rs).
  { destruct F4 as [F4|[F4 ->]], G4 as [G4|[G4 E]]; auto; try (eapply U; eauto).
    - exfalso. apply G4. change "requested_source" with (fst ("requested_source", reqsrc')). apply in_map. exact F4.
    - exfalso. apply F4. change "requested_source" with (fst ("requested_source", claimed rs)). apply in_map. exact G4. }
  subst reqsrc'.
  destruct (P source) as [Q1 _]; auto. destruct (P service) as [Q3 _]; auto.
  assert (Q2 : plain_text (claimed rs)).
  { destruct rs as [r|]; cbn; [apply (P r); auto|split; reflexivity]. }
  destruct (answer_decided _ _ _ _ _ _ _ _ _ Wr Wi Wf Hs Nu Ps Pu Q1 Q2 Q3 H) as [->|(q & g & C & D & -> & Ti & Pf)].
  { left. exists 126. vm_compute. reflexivity. }
  destruct (read_answer_spec (join nl (gc_lines g))) as [[_ E]|E].
  - right. exists q, g. split; auto. split; auto. subst o. unfold execute_service_child, connect_daemon_socket, answered.
    rewrite E, (proj1 (parse_granted g Ti)). exact Pf.
  - left. apply Nul. rewrite E. reflexivity.
Qed.

(** ... and a decision in favour of the call is carried out, whatever the
    fallback would have done *)
Theorem decided_runs rules i agent source rs target service s evs fallback :
  (forall r, In r rules -> wf_rule r) -> wf_info i -> wf_refs i -> starts "@" source = false ->
  (forall r, In r rules -> ~ uuid_dispvm (r_target r)) ->
  plain_system i -> plain_users rules ->
  (forall s, s = source \/ s = target \/ s = service \/ rs = Some s -> plain_text s /\ ascii_text s) ->
  handle_request (Ok rules) (Some i) agent source target service false false (claimed rs) = (Ok s, evs) ->
  String.length s < 4096 -> ascii_text s ->
  handle_client_connection (Ok rules) (Some i) agent (request_text source rs target service) = (Some s, evs) /\
  let o := execute_service_child source service (answered (Some s)) fallback in
  (s = "result=deny" /\ o = ChildExits 126) \/
  exists q g, call_of i source target service (claimed rs) q /\ decided_for rules agent q g /\
    performed source service g o.
Proof.
  intros Wr Wi Wf Hs Nu Ps Pu P H L As. split.
  - apply policy_socket. destruct (request_has source rs target service) as (G1 & G2 & G3 & G4 & G5 & G6).
    exists (request_fields source rs target service), source, target, service, (claimed rs).
    split; [apply request_carries|]. split; [apply request_valid; intros x Hx; destruct (P x Hx) as [[Q _] Q']; auto|].
    rewrite G5, G6. auto 10.
  - destruct (P source) as [Q1 _]; auto. destruct (P service) as [Q3 _]; auto.
    assert (Q2 : plain_text (claimed rs)).
    { destruct rs as [r|]; cbn; [apply (P r); auto|split; reflexivity]. }
    intros o.
    destruct (answer_decided _ _ _ _ _ _ _ _ _ Wr Wi Wf Hs Nu Ps Pu Q1 Q2 Q3 H) as [->|(q & g & C & D & -> & Ti & Pf)].
    + left. split; auto.
    + right. exists q, g. split; auto. split; auto. subst o.
      unfold execute_service_child, connect_daemon_socket, answered.
      destruct (read_answer_spec (join nl (gc_lines g))) as [[_ E]|E].
      * rewrite E, (proj1 (parse_granted g Ti)). exact Pf.
      * unfold read_answer in E. destruct (Nat.ltb_spec (String.length (join nl (gc_lines g))) 4096); [discriminate|lia].
Qed.

(** ** The fallback: qrexec-policy-exec run by qrexec-daemon *)
Definition run_of (p : program) : nat * string :=
  match p with Prints t st => (st, t) | Exits st => (st, "") | RunsClient _ _ => (0, "") | Dies => (1, "") end.

Theorem fallback_decided rules i agent source target service evs p disp :
  (forall r, In r rules -> wf_rule r) -> wf_info i -> wf_refs i -> starts "@" source = false ->
  (forall r, In r rules -> ~ uuid_dispvm (r_target r)) ->
  plain_system i -> plain_users rules ->
  (forall s, s = source \/ s = target \/ s = service -> plain_text s) ->
  qrexec_policy_exec (Ok rules) (Some i) agent [] false false [source; target; service] disp = (p, evs) ->
  let o := execute_service_child source service NoDaemon (run_of p) in
  (exists st, o = ChildExits st) \/
  exists q g, call_of i source target service "" q /\ decided_for rules agent q g /\
    performed source service g o.
Proof.
  intros Wr Wi Wf Hs Nu Ps Pu P H o. unfold qrexec_policy_exec in H.
  destruct (handle_request (Ok rules) (Some i) agent source target service false false "") as [[s|e] evs'] eqn:E.
  2:{ assert (p = Dies) by congruence. subst p. left. exists 125. reflexivity. }
  cbn [negb] in H. assert (p = Prints (s +++ nl) (main_status s)) by congruence. subst p.
  assert (Q2 : plain_text "") by (split; reflexivity).
  destruct (answer_decided rules i agent source target service "" s evs') as [->|(q & g & C & D & -> & Ti & Pf)]; auto.
  { left. exists 125. vm_compute. reflexivity. }
  assert (St : main_status (join nl (gc_lines g)) = 0).
  { apply (status_spec false).
    - eapply answer_shape in E. exact E.
    - intros K. apply answer_shape in E. destruct E as [_|(u & rest & E)].
      + assert (X : gc_lines g = ["result=deny"]).
        { rewrite <- (split_join (gc_lines g)), K; [vm_compute; reflexivity| |].
          - destruct (gc_lines_last g) as (l & x & ->). destruct l; discriminate.
          - intros x Hx. apply (gc_lines_ok g Ti x Hx). }
        unfold gc_lines in X. discriminate X.
      + rewrite K in E. discriminate E. }
  subst o. cbn [run_of]. unfold execute_service_child, connect_daemon_socket. rewrite St. cbn [Nat.eqb].
  destruct (read_answer_spec (join nl (gc_lines g) +++ nl)) as [[_ R]|R]; rewrite R.
  - rewrite (proj2 (parse_granted g Ti)). right. exists q, g. auto.
  - left. exists 126. reflexivity.
Qed.
