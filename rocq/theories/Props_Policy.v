(** Properties C01-C15, C18, C19, C56: policy rules, evaluation, asking.

    Each theorem is stated with the specifications of SpecPolicy.v and
    SpecRule.v; examples below each group show that the hypotheses are met by a
    concrete system, policy and call. *)
From Coq Require Import String Ascii List Bool Arith Lia.
From Verif Require Import Base SysInfo Token Rule Policy PolicyExec SpecPolicy SpecRule
  TokenProofs MatchProofs EvalProofs AskProofs ExecProofs SysInfoProofs RuleProofs RulePrint.
Import ListNotations.
Open Scope string_scope.
Open Scope list_scope.

(** ** A concrete system used by the examples *)
Definition U (s : string) : option string := Some s.
Definition ex_raw : info := [
  ("dom0", mkDom (U "00000000-0000-0000-0000-000000000000") "AdminVM" ["created-by-dom0"] false None "Running" false None None None "");
  ("work", mkDom (U "u-work") "AppVM" ["work"] false (Some "dvm") "Running" false (Some "dom0") None None "");
  ("vault", mkDom (U "u-vault") "AppVM" ["secret"] false None "Halted" false (Some "dom0") None None "");
  ("dvm", mkDom (U "u-dvm") "AppVM" ["dv"] true (Some "dvm") "Halted" false (Some "dom0") None None "");
  ("hidden", mkDom (U "u-hidden") "AppVM" ["work"] false None "Running" true (Some "dom0") None None "");
  ("sys-net", mkDom (U "u-net") "AppVM" [] false None "Running" false None None None "");
  ("far", mkDom (U "u-far") "RemoteVM" [] false None "Running" false None (Some "sys-net") (Some "qubesair.SSHProxy") "")
].
Definition ex_info : info := get_system_info ex_raw.

Ltac enum_in H := repeat (destruct H as [H|H]; [inversion H; subst; clear H|]); [..|destruct H].

Lemma ex_raw_wf : wf_raw ex_raw.
Proof.
  constructor.
  - cbn. repeat constructor; cbn; intuition discriminate.
  - intros n d H. cbn in H. repeat (destruct H as [H|H]; [inversion H; reflexivity|]). destruct H.
  - intros n1 d1 n2 d2 u H1 H2 E1 E2. cbn in H1, H2.
    repeat (destruct H1 as [H1|H1]; [inversion H1; subst; cbn in E1; inversion E1; subst;
      repeat (destruct H2 as [H2|H2]; [inversion H2; subst; cbn in E2; try discriminate; reflexivity|]); destruct H2|]).
    destruct H1.
Qed.
Lemma ex_wf : wf_info ex_info. Proof. apply get_system_info_wf. apply ex_raw_wf. Qed.
Lemma ex_refs : wf_refs ex_info.
Proof.
  intros k d t H E. apply dget_In in H. cbn in H.
  repeat (destruct H as [H|H]; [inversion H; subst; cbn in E; try discriminate; inversion E; subst;
    (split; [eexists; reflexivity|reflexivity])|]). destruct H.
Qed.

Definition load (ls : list string) : res (list rule) := mapM (fun l => from_line l "30-user.policy") ls.
Definition rules_of (ls : list string) : list rule := match load ls with Ok r => r | Err _ => [] end.
Definition call (service source target : string) : request :=
  match split_service service with
  | (s, a) => match make_request ex_info s a source target "" with
              | Ok q => q
              | Err _ => mkRequest s a source TDefault "" None ex_info
              end
  end.
Definition ex_rules : list rule := rules_of [
  "qubes.Gpg * work vault allow user=gpg";
  "qubes.Gpg * @anyvm vault deny notify=no";
  "qubes.OpenURL +mailto work @default allow target=@dispvm";
  "qubes.OpenURL * work @anyvm ask default_target=@dispvm";
  "qubes.Filecopy * work @tag:secret ask autostart=no";
  "qubes.Filecopy * work @anyvm allow autostart=no";
  "* * @anyvm @adminvm deny"].

Lemma rules_of_wf ls r : In r (rules_of ls) -> wf_rule r.
Proof.
  unfold rules_of, load. destruct (mapM _ ls) as [rs|] eqn:E; [|intros []].
  revert rs E. induction ls as [|l ls IH]; simpl; intros rs E Hin.
  - inv E. destruct Hin.
  - apply bind_ok in E as (r0 & H0 & E). apply bind_ok in E as (rs' & H1 & E). inv E.
    destruct Hin as [<-|Hin]; eauto. eapply from_line_wf; eauto.
Qed.
Lemma call_wf service source target : starts "@" source = false -> wf_call (call service source target).
Proof.
  intros H. unfold call. destruct (split_service service) as [s a].
  destruct (make_request ex_info s a source target "") as [q|] eqn:E.
  - eapply make_request_wf; eauto using ex_wf, ex_refs.
  - constructor; simpl; auto using ex_wf, ex_refs. constructor.
Qed.
Ltac no_uuid_disps := intros r Hr; cbn in Hr;
  repeat (destruct Hr as [Hr|Hr]; [subst r; intros [Hx _]; exact Hx|]); destruct Hr.

(** The system description built from the answer of qubesd is well-formed *)
Theorem system_description_wf raw : wf_raw raw -> wf_info (get_system_info raw).
Proof. exact (get_system_info_wf raw). Qed.

(** ** C01 First matching rule decides *)
Lemma first_in rules q r : first_applicable rules q r -> In r rules.
Proof. intros (l1&l2&->&_). apply in_app_iff. simpl. auto. Qed.

Theorem C01_verdict_from_first_match rules q res :
  wf_call q -> (forall r, In r rules -> wf_rule r) -> (forall r, In r rules -> no_uuid_disp q r) ->
  evaluate rules q = Ok res ->
  exists r, first_applicable rules q r /\
  match r_action r with
  | Deny _ => False
  | Allow t u n a => exists g, grants (q_info q) (q_source q) (sent_to t q) g /\
      (a = false -> needs_no_start (q_info q) g) /\ res = RAllow (mkAllow u g a n)
  | Ask t d u n a => exists k, res = RAsk k /\
      (forall x, In x (k_targets k) <-> choice rules q t a x)
  end.
Proof.
  intros Wc Wr Nu H. destruct (evaluate_sound _ _ _ Wc Wr Nu H) as (r & Hf & Ha). exists r. split; auto.
  destruct (r_action r); auto. destruct Ha as (k & -> & He & _).
  exists k. split; auto. apply ask_dialog in He; auto. apply He.
Qed.

Theorem C01_no_match_denied rules q :
  wf_call q -> (forall r, In r rules -> no_uuid_disp q r) -> dispvm_ready q ->
  none_applicable rules q -> evaluate rules q = Err (EAccessDenied true).
Proof. intros Wc Nu Dr H. unfold evaluate. rewrite none_applicable_find; auto. Qed.

Theorem C01_deny_decides rules q r n :
  wf_call q -> (forall r, In r rules -> no_uuid_disp q r) -> dispvm_ready q ->
  first_applicable rules q r -> r_action r = Deny n ->
  evaluate rules q = Err (EAccessDenied n).
Proof.
  intros Wc Nu Dr H E. unfold evaluate. rewrite (first_applicable_find _ _ _ Wc Dr Nu H). simpl.
  unfold action_evaluate. rewrite E. reflexivity.
Qed.

Theorem C01_allow_decides rules q r t u n a :
  wf_call q -> (forall r, In r rules -> wf_rule r) -> (forall r, In r rules -> no_uuid_disp q r) ->
  dispvm_ready q ->
  first_applicable rules q r -> r_action r = Allow t u n a ->
  (exists g, grants (q_info q) (q_source q) (sent_to t q) g /\
     (a = false -> needs_no_start (q_info q) g) /\
     evaluate rules q = Ok (RAllow (mkAllow u g a n))) \/
  ((forall g, grants (q_info q) (q_source q) (sent_to t q) g -> a = false /\ ~ needs_no_start (q_info q) g) /\
     exists b, evaluate rules q = Err (EAccessDenied b)).
Proof.
  intros Wc Wr Nu Dr H E. pose proof (first_in _ _ _ H) as Hin.
  assert (Hm : is_match r q = Ok true).
  { eapply first_applicable_match; eauto. apply first_applicable_find; eauto. }
  unfold evaluate. rewrite (first_applicable_find _ _ _ Wc Dr Nu H). simpl.
  unfold action_evaluate. rewrite E.
  assert (Hw : forall x, t = Some x -> wf_redirect x).
  { pose proof (Wr r Hin) as W. unfold wf_rule in W. rewrite E in W. auto. }
  destruct (allow_verdict r q t u n a Wc Hw Hm) as [(g&H1&H2&H3)|[[H1 H2]|(g&H1&H2&H3&H4)]].
  - left. eauto.
  - right. split; eauto. intros g Hg. exfalso. eapply H1; eauto.
  - right. split; eauto. intros g' Hg'. rewrite (grants_fun _ _ _ _ _ Hg' H1). auto.
Qed.

(** and an ask rule leads to its dialog, or to a refusal if it has no choices *)
Theorem C01_ask_decides rules q r t d u n a :
  wf_call q -> (forall r, In r rules -> no_uuid_disp q r) -> dispvm_ready q ->
  first_applicable rules q r -> r_action r = Ask t d u n a -> ask_ready rules q t a ->
  (exists k, evaluate rules q = Ok (RAsk k) /\ k_user k = u /\ k_autostart k = a /\
     forall x, In x (k_targets k) <-> choice rules q t a x) \/
  ((forall x, ~ choice rules q t a x) /\ evaluate rules q = Err (EAccessDenied true)).
Proof.
  intros Wc Nu Dr H E Hr. 
  assert (Hm : is_match r q = Ok true).
  { eapply first_applicable_match; eauto. apply first_applicable_find; eauto. }
  unfold evaluate. rewrite (first_applicable_find _ _ _ Wc Dr Nu H). simpl.
  unfold action_evaluate. rewrite E.
  destruct (ask_total rules r q t d u n a Wc Hm Hr) as [[k Hk]|[H1 H2]].
  - left. exists k. split; auto. apply ask_dialog in Hk; auto. intuition.
  - right. auto.
Qed.


(** Rules after the deciding allow or deny rule are irrelevant *)
Theorem C01_later_rules_irrelevant l1 r l2 l2' q :
  first_applicable (l1 ++ r :: l2) q r -> wf_call q -> dispvm_ready q ->
  (forall x, In x (l1 ++ [r]) -> no_uuid_disp q x) ->
  (forall t d u n a, r_action r <> Ask t d u n a) ->
  (forall x, In x l1 -> ~ applies x q) ->
  evaluate (l1 ++ r :: l2') q = evaluate (l1 ++ r :: l2) q.
Proof.
  intros Hf Wc Dr Nu Hna Hno.
  assert (Ha : applies r q) by (destruct Hf as (a&b&_&_&H); auto).
  assert (Hg : forall l, find_matching_rule (l1 ++ r :: l) q = Ok r).
  { intros l. clear Hf. induction l1 as [|x l1' IH]; simpl.
    - destruct (is_match_total r q Wc Dr) as [b Hb]. rewrite Hb. simpl.
      apply (is_match_correct _ _ _ Wc) in Hb; [|apply Nu; simpl; auto]. destruct b; auto.
      exfalso. destruct Hb as [_ Hb]. specialize (Hb Ha). discriminate.
    - destruct (is_match_total x q Wc Dr) as [b Hb]. rewrite Hb. simpl.
      apply (is_match_correct _ _ _ Wc) in Hb; [|apply Nu; simpl; auto]. destruct b.
      + exfalso. apply (Hno x); simpl; auto. apply Hb; auto.
      + apply IH; auto; intros; [apply Nu|apply Hno]; simpl; auto. }
  unfold evaluate. rewrite !Hg. simpl. unfold action_evaluate.
  destruct (r_action r); auto. exfalso. eapply Hna; eauto.
Qed.

Example C01_example :
  wf_call (call "qubes.Gpg" "work" "vault") /\
  (forall r, In r ex_rules -> wf_rule r) /\
  (forall r, In r ex_rules -> no_uuid_disp (call "qubes.Gpg" "work" "vault") r) /\
  dispvm_ready (call "qubes.Gpg" "work" "vault") /\
  evaluate ex_rules (call "qubes.Gpg" "work" "vault") = Ok (RAllow (mkAllow (Some "gpg") "vault" true false)) /\
  evaluate ex_rules (call "qubes.Gpg" "hidden" "vault") = Err (EAccessDenied false) /\
  evaluate ex_rules (call "qubes.Other" "work" "vault") = Err (EAccessDenied true) /\
  evaluate ex_rules (call "qubes.OpenURL+mailto" "work" "") = Ok (RAllow (mkAllow None "@dispvm:dvm" true false)).
Proof.
  split; [apply call_wf; reflexivity|]. split; [apply rules_of_wf|]. split.
  - no_uuid_disps.
  - split; [intros H; discriminate|]. vm_compute. auto.
Qed.

(** ** C02 No allow without authority, C03 Evaluation fails closed *)
Theorem C02_answer_authorised rules i agent source target service je ay reqsrc s evs :
  handle_request (Ok rules) (Some i) agent source target service je ay reqsrc = (Ok s, evs) ->
  s <> "result=deny" ->
  (forall r, In r rules -> wf_rule r) -> wf_info i -> wf_refs i -> starts "@" source = false ->
  (forall r, In r rules -> ~ uuid_dispvm (r_target r)) ->
  exists q, call_of i source target service reqsrc q /\ authorised rules q agent je ay s evs.
Proof.
  intros H Hd Wr Wi Wf Hs Hu. destruct (answer_authorised _ _ _ _ _ _ _ _ _ _ _ H Hd) as (rules'&i'&q&E1&E2&HH).
  inv E1. inv E2. exists q. apply HH; auto. intros r Hr [Hx _]. eapply Hu; eauto.
Qed.

(** For every outcome of loading the policy, querying the system and asking the
    user: an answer other than the refusal exists only if the policy loaded, the
    system answered, and (for ask rules) the user picked a choice. *)
Theorem C03_fails_closed policy sysinfo agent source target service je ay reqsrc s evs :
  handle_request policy sysinfo agent source target service je ay reqsrc = (Ok s, evs) ->
  s = "result=deny" \/
  exists rules i q, policy = Ok rules /\ sysinfo = Some i /\
    ((forall r, In r rules -> wf_rule r) -> wf_info i -> wf_refs i -> starts "@" source = false ->
     (forall r, In r rules -> no_uuid_disp q r) ->
     call_of i source target service reqsrc q /\ authorised rules q agent je ay s evs).
Proof.
  intros H. destruct (string_dec s "result=deny"); auto. right. eapply answer_authorised; eauto.
Qed.

Theorem C03_policy_error_denied e i agent source target service je ay reqsrc d :
  is_access_denied e = true -> dget i source = Some d ->
  fst (handle_request (Err e) (Some i) agent source target service je ay reqsrc) = Ok "result=deny".
Proof.
  intros He Hd. unfold handle_request, ioret. destruct (split_service service). rewrite Hd.
  destruct e; try discriminate; simpl; auto; [destruct notify|]; destruct je; simpl; auto.
Qed.
Theorem C03_system_error_denied policy agent source target service je ay reqsrc :
  handle_request policy None agent source target service je ay reqsrc = (Ok "result=deny", []).
Proof. reflexivity. Qed.
Theorem C03_refused_call_denied i rules agent source target service je ay reqsrc d :
  wf_info i -> (forall q, ~ call_of i source target service reqsrc q) -> dget i source = Some d ->
  fst (handle_request (Ok rules) (Some i) agent source target service je ay reqsrc) = Ok "result=deny".
Proof.
  intros W Hn Hd. unfold handle_request. destruct (split_service service) as [sv ar] eqn:Es.
  destruct (make_request_refused i sv ar source target reqsrc service W Es Hn) as (e & -> & He).
  unfold ioret. rewrite Hd. destruct e; try discriminate; simpl; auto; [destruct notify|]; destruct je; simpl; auto.
Qed.
(** a rule evaluation that is refused gives the refusal *)
Theorem C03_denied_call_denied i rules agent source target service je ay reqsrc q sv ar b d :
  split_service service = (sv, ar) -> make_request i sv ar source target reqsrc = Ok q ->
  evaluate rules q = Err (EAccessDenied b) -> dget i source = Some d ->
  fst (handle_request (Ok rules) (Some i) agent source target service je ay reqsrc) = Ok "result=deny".
Proof.
  intros Es Em Ee Hd. unfold handle_request. rewrite Es, Em, Ee. unfold ioret. rewrite Hd.
  destruct b, je; reflexivity.
Qed.

Example C02_example :
  handle_request (Ok ex_rules) (Some ex_info) None "work" "vault" "qubes.Gpg" false false "" =
    (Ok (join nl ["user=gpg"; "result=allow"; "target=vault"; "target_uuid=uuid:u-vault";
                  "autostart=True"; "requested_target=vault"]), []) /\
  fst (handle_request (Ok ex_rules) (Some ex_info) (Some "allow:hidden") "work" "@default" "qubes.OpenURL" false false "")
    = Ok "result=deny" /\
  handle_request (Ok ex_rules) (Some ex_info) (Some "allow:@dispvm:dvm") "work" "vault" "qubes.OpenURL" false false "" =
    (Ok (join nl ["user=DEFAULT"; "result=allow"; "target=@dispvm:dvm"; "target_uuid=@dispvm:uuid:u-dvm";
                  "autostart=True"; "requested_target=vault"]),
     [EvAsk "dom0" "work" "qubes.OpenURL" "+" ["far"; "sys-net"; "@dispvm:dvm"; "dvm"; "vault"] "@dispvm:dvm"]) /\
  fst (handle_request (Ok ex_rules) (Some ex_info) (Some "allow:dom0") "work" "vault" "qubes.OpenURL" false false "")
    = Ok "result=deny" /\
  fst (handle_request (Err ESyntax) (Some ex_info) None "work" "vault" "qubes.Gpg" false false "") = Ok "result=deny".
Proof. repeat split; vm_compute; reflexivity. Qed.

(** ** C04 Token grammar per column *)
Theorem C04_token_grammar c s :
  (forall t, parse_tok c s = Ok t -> allowed_text c s /\ tok_str t = s) /\
  (allowed_text c s -> exists t, parse_tok c s = Ok t /\ tok_str t = s) /\
  (~ allowed_text c s -> parse_tok c s = Err ESyntax).
Proof.
  split; [|split].
  - intros t H. apply parse_tok_sound in H. tauto.
  - intros H. destruct (parse_tok_complete _ _ H) as [t Ht]. exists t. split; auto. eapply parse_tok_sound; eauto.
  - intros H. destruct (parse_tok c s) eqn:E.
    + apply parse_tok_sound in E. tauto.
    + f_equal. eapply parse_tok_err; eauto.
Qed.
Example C04_example :
  parse_tok CTarget "@dispvm:@tag:x" = Ok (TDispTag "x") /\ parse_tok CRedirect "@anyvm" = Err ESyntax /\
  parse_tok CSource "@tag:" = Err ESyntax /\ parse_tok CIntended "work" = Ok (TName "work") /\
  parse_tok CSource "@dispvm" = Err ESyntax.
Proof. repeat split. Qed.

(** ** C05 Meaning of columns, C06 Matching never crashes *)
Theorem C05_target_column_partial r q b : wf_call q -> no_uuid_disp q r ->
  is_match r q = Ok b -> (b = true <-> applies r q).
Proof. exact (is_match_correct r q b). Qed.
Theorem C05_source_column r q : wf_call q ->
  is_match_but_target r q = Ok true <-> caller_applies r q.
Proof. intros W. symmetry. apply caller_applies_iff. auto. Qed.

(** The remaining case: a column naming a disposable template by uuid is not
    recognised when the call asks for its default disposable, although both
    designate the same template. *)
Theorem C05_uuid_dispvm_refuted :
  exists r q, wf_call q /\ wf_rule r /\ dispvm_ready q /\ applies r q /\ is_match r q = Ok false.
Proof.
  pose (r := mkRule None None TWild (TDispTmpl "uuid:u-dvm") (Allow None None false true) "f").
  exists r, (call "x" "work" "@dispvm"). split; [apply call_wf; reflexivity|].
  split; [simpl; discriminate|]. split; [|split; [|vm_compute; reflexivity]].
  - intros _. eexists. exists "dvm". split; reflexivity.
  - split; [split; [left; auto|split; [left; auto|constructor]]|].
    apply (cov_disptmpl _ _ _ "dvm").
    + eapply dt_default; reflexivity.
    + right. eexists. split; reflexivity.
Qed.

Theorem C06_matching_total_partial r q : wf_call q -> dispvm_ready q -> exists b, is_match r q = Ok b.
Proof. exact (is_match_total r q). Qed.
(** missing: calls to @dispvm by a qube without default_dispvm *)
Theorem C06_matching_total_refuted :
  exists r q, wf_call q /\ wf_rule r /\ is_match r q = Err EAttr.
Proof.
  exists (mkRule None None TWild (TDispTmpl "dvm") (Allow None None false true) "f"), (call "x" "vault" "@dispvm").
  split; [apply call_wf; reflexivity|]. split; [simpl; discriminate|]. vm_compute. reflexivity.
Qed.
Example C05_example :
  is_match (mkRule None None (TTag "work") (TName "uuid:u-vault") (Deny true) "f") (call "x" "work" "vault") = Ok true /\
  is_match (mkRule None None TAny TAny (Deny true) "f") (call "x" "work" "@adminvm") = Ok false /\
  is_match (mkRule None None TAny (TDispTag "dv") (Deny true) "f") (call "x" "work" "@dispvm") = Ok true.
Proof. repeat split; vm_compute; reflexivity. Qed.

(** ** C07 Unknown and invalid targets, C08 Relayed calls *)
Theorem C07_C08_calls i source target service reqsrc sv ar :
  wf_info i -> split_service service = (sv, ar) ->
  (forall q, make_request i sv ar source target reqsrc = Ok q -> call_of i source target service reqsrc q) /\
  (forall q, call_of i source target service reqsrc q ->
     exists q', make_request i sv ar source target reqsrc = Ok q' /\
       q_service q' = q_service q /\ q_arg q' = q_arg q /\ q_source q' = q_source q /\
       q_target q' = q_target q /\ q_info q' = i /\ q_reqsrc q' = reqsrc) /\
  ((forall q, ~ call_of i source target service reqsrc q) ->
     exists e, make_request i sv ar source target reqsrc = Err e /\ is_access_denied e = true).
Proof.
  intros W Es. split; [|split].
  - intros q. eapply make_request_sound; eauto.
  - intros q. eapply make_request_complete; eauto.
  - eapply make_request_refused; eauto.
Qed.
Theorem C07_unknown_is_default i source target service reqsrc q :
  call_of i source target service reqsrc q -> starts "@" target = false -> ~ exists_qube i target ->
  q_target q = TDefault.
Proof.
  intros [H1 H2 H3 H4 H5] Ha Hn. inversion H5; subst; simpl in *; try discriminate; auto.
  exfalso. apply Hn. auto.
Qed.
Theorem C08_only_relay i source target service reqsrc q :
  call_of i source target service reqsrc q -> q_source q <> source ->
  exists d, dget i (q_source q) = Some d /\ d_type d = "RemoteVM" /\ d_relay d = Some source /\ q_source q = reqsrc.
Proof.
  intros [H1 H2 H3 H4 H5] Hn. inversion H3; subst; [congruence|]. eauto.
Qed.
Example C08_example :
  q_target (call "x" "work" "nosuch") = TDefault /\
  make_request ex_info "x" "+" "sys-net" "vault" "far" =
    Ok (mkRequest "x" "+" "far" (TName "vault") "far" (Some "sys-net") ex_info) /\
  make_request ex_info "x" "+" "work" "vault" "far" = Err ERequest /\
  make_request ex_info "x" "+" "work" "vault" "sys-net" = Err ERequest /\
  make_request ex_info "x" "+" "work" "@dispvm:vault" "" = Err (EAccessDenied true).
Proof. repeat split. Qed.

(** ** C09-C13 Asking *)
Theorem C09_choices rules q l : wf_call q -> collect_targets_for_ask rules q = Ok l ->
  forall x, In x l <-> offered rules q x.
Proof. exact (collect_targets_exact rules q l). Qed.

Theorem C10_ask_total_partial rules r q t dt u n a :
  wf_call q -> is_match r q = Ok true -> ask_ready rules q t a ->
  (exists k, ask_evaluate rules r q t dt u n a = Ok (RAsk k)) \/
  (ask_evaluate rules r q t dt u n a = Err (EAccessDenied true) /\ forall x, ~ choice rules q t a x).
Proof. exact (ask_total rules r q t dt u n a). Qed.
(** missing: policies mentioning disposable templates that do not exist *)
Theorem C10_ask_total_refuted : exists rules q, wf_call q /\ dispvm_ready q /\
  (forall r, In r rules -> wf_rule r) /\ evaluate rules q = Err EKey.
Proof.
  exists (rules_of ["x * work @anyvm ask"; "x * work @dispvm:gone ask"]), (call "x" "work" "vault").
  split; [apply call_wf; reflexivity|]. split; [discriminate|]. split; [apply rules_of_wf|]. vm_compute. reflexivity.
Qed.

Theorem C11_default_offered rules r q t dt u n a k :
  wf_call q -> ask_evaluate rules r q t dt u n a = Ok (RAsk k) ->
  k_targets k <> [] /\
  (forall x, k_default k = Some x <-> default_choice q dt x /\ In x (k_targets k)).
Proof. intros W H. apply ask_dialog in H; auto. tauto. Qed.

Theorem C12_answer_binding je q k agent s evs :
  run_ask KK_Agent (allow_type je) agent q k = (Ok s, evs) ->
  exists g, agent = Some ("allow:" +++ g) /\ In g (k_targets k).
Proof. exact (user_refusal_binding je q k agent s evs). Qed.
Theorem C12_grants_choice je q k g s evs : wf_info (q_info q) ->
  run_ask KK_Agent (allow_type je) (Some ("allow:" +++ g)) q k = (Ok s, evs) ->
  runs q je (k_user k) g (k_autostart k) s.
Proof.
  intros W. unfold run_ask. destruct (dget (q_info q) (q_source q)) as [d|]; [|discriminate].
  destruct (falsy (d_guivm d)); [discriminate|].
  change (String.eqb ("allow:" +++ g) "deny") with false. cbn iota.
  rewrite starts_app. change (sdrop 6 ("allow:" +++ g)) with g.
  destruct (run_response (allow_type je) q k true g) as [r ev'] eqn:E. intros H. inv H.
  apply run_response_sound in E; auto. tauto.
Qed.

Theorem C13_offered_grantable_partial rules q k g d u :
  wf_call q -> In g (k_targets k) -> offered rules q g ->
  dget (q_info q) (entry_qube g) = Some d -> d_uuid d = Some u -> d_type d <> "RemoteVM" ->
  exists a lines, handle_user_response k true g = Ok a /\ a_target a = g /\
    allow_answer q (k_user k) g (k_autostart k) lines /\
    allow_execute q a = Ok (join nl lines).
Proof. exact (offered_can_be_granted rules q k g d u). Qed.
(** missing: dialogs of ask rules with a redirect to @dispvm or to a qube that
    does not exist; approving them crashes *)
Theorem C13_offered_grantable_refuted : exists rules q k g, wf_call q /\ dispvm_ready q /\
  (forall r, In r rules -> wf_rule r) /\ evaluate rules q = Ok (RAsk k) /\ In g (k_targets k) /\
  fst (run_ask KK_Agent AK_Notify (Some ("allow:" +++ g)) q k) = Err EKey.
Proof.
  exists (rules_of ["x * work @anyvm ask target=@dispvm"]), (call "x" "work" "vault").
  exists (mkAsk ["@dispvm"] None None true false), "@dispvm".
  split; [apply call_wf; reflexivity|]. split; [discriminate|]. split; [apply rules_of_wf|].
  split; [vm_compute; reflexivity|]. split; [left; reflexivity|]. vm_compute. reflexivity.
Qed.

Example C09_example :
  collect_targets_for_ask ex_rules (call "qubes.OpenURL" "work" "vault") =
    Ok ["far"; "sys-net"; "@dispvm:dvm"; "dvm"; "vault"] /\
  evaluate ex_rules (call "qubes.OpenURL" "work" "vault") =
    Ok (RAsk (mkAsk ["far"; "sys-net"; "@dispvm:dvm"; "dvm"; "vault"] (Some "@dispvm:dvm") None true false)) /\
  ask_ready ex_rules (call "qubes.OpenURL" "work" "vault") None true.
Proof.
  split; [vm_compute; reflexivity|]. split; [vm_compute; reflexivity|].
  split; [eexists; eexists; split; reflexivity|]. split; [eexists; reflexivity|].
  intros r Hr _. cbn in Hr. repeat (destruct Hr as [Hr|Hr]; [subst r; cbn; auto|]); destruct Hr.
Qed.

(** ** C14 No loopback *)
Theorem C14_no_loopback_partial q a s : wf_call q -> allow_execute q a = Ok s ->
  a_target a <> q_source q /\
  (starts "uuid:" (q_source q) = false -> starts "uuid:" (a_target a) = false ->
   ~ same_qube (q_info q) (q_source q) (a_target a)).
Proof.
  intros W H. split.
  - apply allow_execute_sound in H; [tauto|apply W].
  - eapply no_loopback_by_name; eauto.
Qed.
(** missing: the caller designating itself by uuid *)
Theorem C14_no_loopback_refuted : exists rules s evs,
  (forall r, In r rules -> wf_rule r) /\
  handle_request (Ok rules) (Some ex_info) None "work" "uuid:u-work" "x" false false "" = (Ok s, evs) /\
  same_qube ex_info "work" "uuid:u-work" /\ In "result=allow" (split_all NL s) /\
  In "target=uuid:u-work" (split_all NL s).
Proof.
  exists (rules_of ["x * @anyvm @anyvm allow"]). eexists. eexists.
  split; [apply rules_of_wf|]. split; [vm_compute; reflexivity|]. split.
  - right. eexists. split; reflexivity.
  - split; vm_compute; auto 10.
Qed.
(** asking never offers the caller under any designation *)
Theorem C14_ask_never_offers_caller rules q l x : wf_call q ->
  collect_targets_for_ask rules q = Ok l -> In x l -> ~ same_qube (q_info q) (q_source q) x.
Proof. intros W H Hx. apply (collect_targets_exact _ _ _ W H) in Hx. apply Hx. Qed.

(** ** C15 autostart=no *)
Theorem C15_no_autostart rules q res : wf_call q -> (forall r, In r rules -> wf_rule r) ->
  (forall r, In r rules -> no_uuid_disp q r) -> evaluate rules q = Ok res ->
  match res with
  | RAllow a => a_autostart a = false -> needs_no_start (q_info q) (a_target a)
  | RAsk k => k_autostart k = false -> forall x, In x (k_targets k) -> needs_no_start (q_info q) x
  end.
Proof.
  intros Wc Wr Nu H. destruct (evaluate_sound _ _ _ Wc Wr Nu H) as (r & Hf & Ha).
  destruct (r_action r) as [|t u n a|t d u n a]; [destruct Ha| |].
  - destruct Ha as (g & _ & Hs & ->). simpl. auto.
  - destruct Ha as (k & -> & He & _). apply ask_dialog in He as (Hc & _ & _ & _ & Hau & _); auto.
    rewrite Hau. intros -> x Hx. apply Hc in Hx. apply Hx. auto.
Qed.
Theorem C15_answer_says_so q a s : wf_info (q_info q) -> a_autostart a = false ->
  allow_execute q a = Ok s ->
  exists lines, s = join nl lines /\ In "autostart=False" lines /\ ~ In "autostart=True" lines.
Proof.
  intros W Ha H. apply allow_execute_sound in H as (_ & lines & Hl & ->); auto.
  exists lines. split; auto. rewrite Ha in Hl.
  inv Hl; (split; [simpl; auto 10|]); intros Hin; unfold source_lines in Hin;
    destruct (String.eqb (q_reqsrc q) ""); cbn in Hin;
    repeat (destruct Hin as [Hin|Hin]; [discriminate Hin|]); exact Hin.
Qed.
Example C15_example :
  evaluate ex_rules (call "qubes.Filecopy" "work" "sys-net") = Ok (RAllow (mkAllow None "sys-net" false false)) /\
  evaluate ex_rules (call "qubes.Filecopy" "work" "dvm") = Err (EAccessDenied false) /\
  evaluate ex_rules (call "qubes.Filecopy" "work" "vault") =
    Ok (RAsk (mkAsk ["far"; "sys-net"] None None false false)).
Proof. repeat split; vm_compute; reflexivity. Qed.

(** ** C18 Rule line grammar *)
Theorem C18_rule_grammar line file :
  (forall r, from_line line file = Ok r <-> exists fs, fields line fs /\ rule_fields file fs r) /\
  (forall e, from_line line file = Err e -> e = ESyntax).
Proof. split; intros; [apply from_line_spec|eapply from_line_err; eauto]. Qed.
Theorem C18_rules_wf line file r : from_line line file = Ok r -> wf_rule r.
Proof. exact (from_line_wf line file r). Qed.
Example C18_example :
  from_line "qubes.Gpg  +x	work @tag:t ask target=vault default_target=vault notify=yes" "f" =
    Ok (mkRule (Some "qubes.Gpg") (Some "+x") (TName "work") (TTag "t")
          (Ask (Some (TName "vault")) (Some (TName "vault")) None true true) "f") /\
  from_line "* +x work vault allow" "f" = Err ESyntax /\
  from_line "a * work vault allow user=a user=b" "f" = Err ESyntax /\
  from_line "a * work @default allow" "f" = Err ESyntax /\
  from_line "a * work vault deny target=x" "f" = Err ESyntax.
Proof. repeat split. Qed.

(** ** C19 Printed rules *)
Theorem C19_print_parse_partial line f r :
  from_line line f = Ok r -> printable r -> from_line (rule_str r) f = Ok r.
Proof. exact (printed_rule_reads_back line f r). Qed.
(** the same with the conditions spelled out *)
Theorem C19_spelled_partial line f r : from_line line f = Ok r -> r_service r <> None ->
  match r_action r with
  | Deny notify => notify = true
  | Allow _ u notify autostart => notify = false /\ autostart = true /\ u <> Some ""
  | Ask _ _ u notify autostart => notify = false /\ autostart = true /\ u <> Some ""
  end -> from_line (rule_str r) f = Ok r.
Proof.
  intros H S A. apply (C19_print_parse_partial line); [exact H|]. split; [exact S|]. destruct (r_action r) as [n|t u n a|t d u n a]; cbn in *.
  - subst n. split; [reflexivity|]. split; [reflexivity|discriminate].
  - exact A.
  - exact A.
Qed.
(** missing: printing drops notify= and autostart=, and writes None for the
    wildcard service *)
Theorem C19_print_parse_refuted :
  (exists line r, from_line line "f" = Ok r /\
    exists r', from_line (rule_str r) "f" = Ok r' /\ action_autostart (r_action r) = false /\
      action_autostart (r_action r') = true) /\
  (exists line r, from_line line "f" = Ok r /\
    exists r', from_line (rule_str r) "f" = Ok r' /\ r_service r = None /\ r_service r' = Some "None").
Proof.
  split.
  - exists "a * work vault allow autostart=no". eexists. split; [reflexivity|].
    eexists. split; [vm_compute; reflexivity|]. auto.
  - exists "* * work vault allow". eexists. split; [reflexivity|].
    eexists. split; [vm_compute; reflexivity|]. auto.
Qed.
Example C19_example :
  exists r, from_line "a +b @type:AppVM @dispvm ask target=@dispvm:dvm user=root" "f" = Ok r /\ printable r.
Proof. eexists. split; [reflexivity|]. repeat split; simpl; discriminate. Qed.

(** ** C56 Dialog entries agree with direct calls *)
Theorem C56_offered_agree_partial rules q n d :
  wf_info (q_info q) -> dget (q_info q) n = Some d -> plain_name n = true ->
  ~ means_dom0 n -> (forall z, means_dom0 z -> dget (q_info q) z <> Some d) ->
  (forall r, In r rules -> redirect_of r = None) ->
  entry_open rules q n <->
  exists r, first_applicable rules (retarget q (TName n)) r /\ ~ is_deny_rule r.
Proof. exact (offered_names_agree rules q n d). Qed.
(** missing: dom0 and disposables. A deny rule for dom0 does not keep dom0 out
    of the dialog when a later rule mentions it under another name. *)
Theorem C56_offered_agree_refuted : exists rules q k, wf_call q /\
  (forall r, In r rules -> wf_rule r) /\ (forall r, In r rules -> redirect_of r = None) /\
  evaluate rules q = Ok (RAsk k) /\ In "dom0" (k_targets k) /\
  evaluate rules (retarget q (TName "dom0")) = Err (EAccessDenied true) /\
  evaluate rules (retarget q TAdmin) = Err (EAccessDenied true).
Proof.
  exists (rules_of ["x * work @adminvm deny"; "x * work * ask"]), (call "x" "work" "vault"). eexists.
  split; [apply call_wf; reflexivity|]. split; [apply rules_of_wf|].
  split. { intros r Hr. cbn in Hr. repeat (destruct Hr as [Hr|Hr]; [subst r; reflexivity|]). destruct Hr. }
  split; [vm_compute; reflexivity|]. split; [vm_compute; auto 10|]. split; vm_compute; reflexivity.
Qed.
Example C56_example :
  (forall r, In r (rules_of ["x * work vault deny"; "x * work @anyvm ask"]) -> redirect_of r = None) /\
  collect_targets_for_ask (rules_of ["x * work vault deny"; "x * work @anyvm ask"]) (call "x" "work" "dvm") =
    Ok ["far"; "sys-net"; "@dispvm:dvm"; "dvm"].
Proof.
  split; [|vm_compute; reflexivity].
  intros r Hr. cbn in Hr. repeat (destruct Hr as [Hr|Hr]; [subst r; reflexivity|]). destruct Hr.
Qed.

Print Assumptions C01_verdict_from_first_match.
Print Assumptions C01_allow_decides.
Print Assumptions C02_answer_authorised.
Print Assumptions C03_fails_closed.
Print Assumptions C07_C08_calls.
Print Assumptions C09_choices.
Print Assumptions C10_ask_total_partial.
Print Assumptions C18_rule_grammar.
Print Assumptions C19_print_parse_partial.
Print Assumptions C56_offered_agree_partial.
