(** C73: notifications *)
From Coq Require Import String Ascii List Bool Arith Lia.
From Verif Require Import Base SysInfo Token Rule Policy PolicyExec SpecPolicy SpecNotify TokenProofs MatchProofs EvalProofs AskProofs ExecProofs SysInfoProofs EvalSvc Props_Policy.
Import ListNotations.
Open Scope string_scope.
Open Scope list_scope.

Lemma told_spec i qube wanted (what : string -> event) :
  told i qube wanted what
    (if wanted && negb (falsy match dget i qube with Some d => d_guivm d | None => None end)
     then [what (opt_str match dget i qube with Some d => d_guivm d | None => None end)] else []).
Proof.
  destruct wanted; cbn [andb]; [|apply told_unwanted; reflexivity].
  destruct (falsy _) eqn:F; cbn [negb].
  - apply told_nobody. intros g (d & A & B & C). rewrite A, B in F. cbn [falsy] in F. apply String.eqb_eq in F. contradiction.
  - apply falsy_spec in F as (g & E & N). rewrite E. cbn [opt_str]. apply told_one; [reflexivity|].
    destruct (dget i qube) as [d|] eqn:D; [|discriminate E]. exists d. auto.
Qed.
(** the same for a qube that exists *)
Lemma told_known i qube d (what : string -> event) : dget i qube = Some d ->
  told i qube true what (if falsy (d_guivm d) then [] else [what (opt_str (d_guivm d))]).
Proof. intros H. pose proof (told_spec i qube true what) as T. rewrite H in T. destruct (falsy (d_guivm d)); exact T. Qed.

Lemma run_allow_told q a s evs : run_allow AK_Notify q a = (s, evs) ->
  told (q_info q) (q_source q) (a_notify a)
    (fun g => EvNotify g "allow" (q_service q) (q_arg q) (q_source q) (a_target a)) evs /\ notices evs = evs.
Proof.
  intros H. cbn [run_allow] in H. injection H as _ <-. split.
  - apply (told_spec (q_info q) (q_source q) (a_notify a)).
  - destruct (_ && _); reflexivity.
Qed.

(** the call is let through: the user is told as the rule says, with the target it really goes to *)
Theorem C73_granted_partial rules i agent source target service ay reqsrc s evs :
  handle_request (Ok rules) (Some i) agent source target service false ay reqsrc = (Ok s, evs) -> s <> "result=deny" ->
  (forall r, In r rules -> wf_rule r) -> wf_info i -> wf_refs i -> starts "@" source = false ->
  (forall r, In r rules -> ~ uuid_dispvm (r_target r)) ->
  exists q r g u a, call_of i source target service reqsrc q /\ first_applicable rules q r /\
    runs q false u g a s /\
    told i (q_source q) (rule_notify r)
      (fun gui => EvNotify gui "allow" (q_service q) (q_arg q) (q_source q) g) (notices evs).
Proof.
  intros H Hs Wr Wi Wf Hsrc Hu. cbn [handle_request] in H. destruct (split_service service) as [sv ar] eqn:ES.
  destruct (make_request i sv ar source target reqsrc) as [q|e] eqn:EM.
  2:{ exfalso. destruct e; cbn in H; repeat match type of H with context [match ?x with _ => _ end] => destruct x end; try discriminate; injection H as H _; congruence. }
  pose proof (make_request_wf _ _ _ _ _ _ _ Wi Wf Hsrc EM) as W.
  pose proof (make_request_sound _ _ _ _ _ _ _ _ Wi ES EM) as C. pose proof (make_request_info _ _ _ _ _ _ _ EM) as (Qi & _ & _).
  destruct (evaluate rules q) as [res|e] eqn:EV.
  2:{ exfalso. destruct e; cbn in H; repeat match type of H with context [match ?x with _ => _ end] => destruct x end; try discriminate; injection H as H _; congruence. }
  assert (Nu : forall r, In r rules -> no_uuid_disp q r) by (intros r Hr [X _]; exact (Hu r Hr X)).
  destruct (evaluate_sound rules q res W Wr Nu EV) as (r & Hf & Hr).
  change (allow_type false) with AK_Notify in H.
  assert (R : run_resolution (ask_type false ay) AK_Notify agent q res = (Ok s, evs)).
  { destruct (run_resolution (ask_type false ay) AK_Notify agent q res) as [[x|e] ev]; cbn in H.
    - exact H.
    - exfalso. destruct e; cbn in H; repeat match type of H with context [match ?x with _ => _ end] => destruct x end; try discriminate; injection H as H _; congruence. }
  clear H.
  assert (Resp : forall k b t s evs, run_response AK_Notify q k b t = (Ok s, evs) ->
    runs q false (k_user k) t (k_autostart k) s /\
    told i (q_source q) (k_notify k) (fun gui => EvNotify gui "allow" (q_service q) (q_arg q) (q_source q) t) evs /\ notices evs = evs).
  { intros k b t s' evs' HR. assert (Wq : wf_info (q_info q)) by (rewrite Qi; exact Wi).
    destruct (run_response_sound false q k b t s' evs' Wq HR) as (_ & _ & HR2). split; [exact HR2|].
    unfold run_response in HR. destruct (handle_user_response k b t) as [a|] eqn:EU; [|discriminate].
    apply user_response_sound in EU as (_ & _ & ->). apply run_allow_told in HR. cbn [a_notify a_target] in HR. rewrite Qi in HR. exact HR. }
  destruct res as [al|k]; cbn [run_resolution] in R.
  - destruct (r_action r) as [n|t u n a|t d u n a] eqn:EA; [contradiction| |destruct Hr as (k & X & _); discriminate X].
    destruct Hr as (g & _ & _ & X). injection X as ->.
    exists q, r, g, u, a. split; [exact C|]. split; [exact Hf|].
    assert (Wq : wf_info (q_info q)) by (rewrite Qi; exact Wi).
    pose proof (run_allow_sound false q _ _ _ Wq R) as RS. cbn [a_user a_target a_autostart] in RS. split; [exact RS|].
    apply run_allow_told in R as [T E]. cbn [a_notify a_target] in T. rewrite Qi in T. rewrite E. unfold rule_notify. rewrite EA. exact T.
  - destruct (r_action r) as [n|t u n a|t d u n a] eqn:EA; [contradiction|destruct Hr as (g & _ & _ & X); discriminate X|].
    destruct Hr as (k' & X & EK & _). injection X as <-. pose proof (ask_evaluate_shape _ _ _ _ _ _ _ _ _ EK) as (k' & X & K1 & K2 & K3 & _). injection X as <-.
    assert (Fin : forall g s evs, run_response AK_Notify q k true g = (Ok s, evs) -> exists q r g u a, call_of i source target service reqsrc q /\ first_applicable rules q r /\
      runs q false u g a s /\ told i (q_source q) (rule_notify r) (fun gui => EvNotify gui "allow" (q_service q) (q_arg q) (q_source q) g) (notices evs)).
    { intros g s' evs' HR. apply Resp in HR as (R1 & R2 & R3). exists q, r, g, (k_user k), (k_autostart k). split; [exact C|]. split; [exact Hf|]. split; [exact R1|].
      rewrite R3. unfold rule_notify. rewrite EA, <- K3. exact R2. }
    unfold ask_type in R. destruct ay; [exact (Fin _ _ _ R)|]. cbn [run_ask] in R.
    destruct (dget (q_info q) (q_source q)) as [d0|]; [|discriminate]. destruct (falsy (d_guivm d0)).
    + unfold run_response, handle_user_response in R. cbn in R. discriminate.
    + destruct agent as [ans|]; [|discriminate]. destruct (String.eqb ans "deny"); [unfold run_response, handle_user_response in R; cbn in R; discriminate|].
      destruct (starts "allow:" ans); [|discriminate]. destruct (run_response AK_Notify q k true (sdrop 6 ans)) as [x ev] eqn:ER. injection R as -> <-.
      apply Fin in ER. exact ER.
Qed.

(** the call that the request is, up to the note of the relay *)
Lemma call_request i source target service reqsrc sv ar q : wf_info i -> split_service service = (sv, ar) -> call_of i source target service reqsrc q ->
  exists relay, make_request i sv ar source target reqsrc = Ok (mkRequest (q_service q) (q_arg q) (q_source q) (q_target q) (q_reqsrc q) relay (q_info q)).
Proof.
  intros Wi ES C. destruct (make_request_complete _ _ _ _ _ _ _ _ Wi ES C) as (q' & E & A1 & A2 & A3 & A4 & A5 & A6). exists (q_relay q').
  rewrite E. destruct q', q. cbn in *. destruct C; cbn in *. subst. reflexivity.
Qed.
Lemma call_request_wf i source target service reqsrc q relay : wf_info i -> wf_refs i -> starts "@" source = false -> call_of i source target service reqsrc q ->
  forall sv ar, make_request i sv ar source target reqsrc = Ok (mkRequest (q_service q) (q_arg q) (q_source q) (q_target q) (q_reqsrc q) relay (q_info q)) ->
  wf_call (mkRequest (q_service q) (q_arg q) (q_source q) (q_target q) (q_reqsrc q) relay (q_info q)).
Proof. intros Wi Wf Hs C sv ar E. exact (make_request_wf _ _ _ _ _ _ _ Wi Wf Hs E). Qed.

Lemma choice_relay rules q t a x relay : choice rules q t a x ->
  choice rules (mkRequest (q_service q) (q_arg q) (q_source q) (q_target q) (q_reqsrc q) relay (q_info q)) t a x.
Proof.
  intros [A B]. split; [|exact B]. destruct t as [t|]; [exact A|]. destruct A as ((y & O & P) & A). split; [|exact A]. exists y. split; [exact O|].
  inversion P; subst; [eapply pr_disp; eassumption|apply pr_admin|apply pr_other; assumption].
Qed.

(** the call is denied by a rule, or because there is none *)
Theorem C73_denied rules i agent source target service ay reqsrc q d :
  wf_info i -> wf_refs i -> starts "@" source = false -> dget i source = Some d ->
  call_of i source target service reqsrc q -> (forall r, In r rules -> no_uuid_disp q r) -> dispvm_ready q ->
  let r := handle_request (Ok rules) (Some i) agent source target service false ay reqsrc in
  let notice gui := EvNotify gui "deny" (q_service q) (q_arg q) source target in
  (forall rl, first_applicable rules q rl -> is_deny_rule rl -> fst r = Ok "result=deny" /\ told i source (rule_notify rl) notice (snd r)) /\
  (none_applicable rules q -> fst r = Ok "result=deny" /\ told i source true notice (snd r)).
Proof.
  intros Wi Wf Hs D C Nu Dr r notice. subst r notice. pose proof (cof_service _ _ _ _ _ _ C) as ES. apply split_service_spec in ES.
  destruct (call_request _ _ _ _ _ _ _ _ Wi ES C) as (relay & EM). pose proof (call_request_wf _ _ _ _ _ _ _ Wi Wf Hs C _ _ EM) as W.
  cbn [handle_request]. rewrite ES, EM. set (q' := mkRequest _ _ _ _ _ _ _) in *. change (dispvm_ready q') in Dr. split.
  - intros rl Hf [n Hn]. rewrite (C01_deny_decides rules q' rl n W Nu Dr Hf Hn). unfold ioret. cbn [is_access_denied exn_notify andb negb]. unfold rule_notify. rewrite Hn.
    destruct n; cbn [andb].
    + rewrite D. cbn [fst snd app]. split; [reflexivity|]. exact (told_known i source d (fun gui => EvNotify gui "deny" (q_service q) (q_arg q) source target) D).
    + cbn [fst snd]. split; [reflexivity|]. apply told_unwanted. reflexivity.
  - intros Hn. rewrite (C01_no_match_denied rules q' W Nu Dr Hn). unfold ioret. cbn [is_access_denied exn_notify andb negb]. rewrite D. cbn [fst snd app]. split; [reflexivity|].
    exact (told_known i source d (fun gui => EvNotify gui "deny" (q_service q) (q_arg q) source target) D).
Qed.

(** the user says no in the dialog: no more than the rule says *)
Theorem C73_user_refuses rules i source target service reqsrc q d rl t dt u n a :
  wf_info i -> wf_refs i -> starts "@" source = false -> dget i source = Some d ->
  call_of i source target service reqsrc q -> (forall r, In r rules -> no_uuid_disp q r) -> dispvm_ready q ->
  first_applicable rules q rl -> r_action rl = Ask t dt u n a -> ask_ready rules q t a -> (exists x, choice rules q t a x) -> q_source q = source ->
  let r := handle_request (Ok rules) (Some i) (Some "deny") source target service false false reqsrc in
  fst r = Ok "result=deny" /\ told i source n (fun gui => EvNotify gui "deny" (q_service q) (q_arg q) source target) (notices (snd r)).
Proof.
  intros Wi Wf Hs D C Nu Dr Hf HA Ar [x0 Hx] Qs r. subst r. pose proof (cof_service _ _ _ _ _ _ C) as ES. apply split_service_spec in ES.
  destruct (call_request _ _ _ _ _ _ _ _ Wi ES C) as (relay & EM). pose proof (call_request_wf _ _ _ _ _ _ _ Wi Wf Hs C _ _ EM) as W.
  cbn [handle_request]. rewrite ES, EM. set (q' := mkRequest _ _ _ _ _ _ _) in *. change (dispvm_ready q') in Dr. change (first_applicable rules q' rl) in Hf.
  change (ask_ready rules q' t a) in Ar. apply (choice_relay _ _ _ _ _ relay) in Hx. change (choice rules q' t a x0) in Hx.
  destruct (C01_ask_decides rules q' rl t dt u n a W Nu Dr Hf HA Ar) as [(k & EV & _)|[N _]]; [|exfalso; exact (N x0 Hx)].
  rewrite EV. pose proof (make_request_info _ _ _ _ _ _ _ EM) as (Qi & _ & _). assert (Qs' : q_source q' = source) by exact Qs.
  assert (K : k_notify k = n).
  { pose proof (first_applicable_find rules q' rl W Dr Nu Hf) as F. unfold evaluate in EV. rewrite F in EV. cbn [bind] in EV. unfold action_evaluate in EV. rewrite HA in EV.
    apply ask_evaluate_shape in EV as (k' & X & _ & _ & K & _). injection X as <-. exact K. }
  cbn [run_resolution ask_type run_ask]. rewrite Qi, Qs', D. unfold run_response, handle_user_response. cbn [negb]. rewrite K.
  destruct (falsy (d_guivm d)) eqn:F.
  - unfold ioret. cbn [is_access_denied exn_notify andb negb]. destruct n; cbn [andb].
    + cbn. split; [reflexivity|]. apply told_nobody. intros g (d' & X & Y & Z). rewrite D in X. injection X as <-. rewrite Y in F. cbn in F. apply String.eqb_eq in F. contradiction.
    + cbn. split; [reflexivity|]. apply told_unwanted. reflexivity.
  - unfold ioret. cbn [String.eqb Ascii.eqb Bool.eqb is_access_denied exn_notify andb negb]. destruct n; cbn [andb].
    + cbn. split; [reflexivity|]. pose proof (told_known i source d (fun gui => EvNotify gui "deny" (q_service q) (q_arg q) source target) D) as T. rewrite F in T. exact T.
    + cbn. split; [reflexivity|]. apply told_unwanted. reflexivity.
Qed.

(** a mere evaluation tells nobody *)
Theorem C73_evaluation_silent policy sysinfo agent source target service reqsrc ay :
  notices (snd (handle_request policy sysinfo agent source target service true ay reqsrc)) = [].
Proof.
  unfold handle_request. destruct sysinfo as [i|]; [|reflexivity]. destruct (split_service service) as [sv ar].
  assert (R : notices (snd (match policy with
        | Err e => ioret (Err e)
        | Ok rules => match make_request i sv ar source target reqsrc with
            | Err e => ioret (Err e)
            | Ok q => match evaluate rules q with
                | Err e => ioret (Err e)
                | Ok res => run_resolution (ask_type true ay) (allow_type true) agent q res end end end)) = []).
  { destruct policy as [rules|]; [|reflexivity]. destruct (make_request _ _ _ _ _ _) as [q|]; [|reflexivity]. destruct (evaluate rules q) as [[a|k]|]; try reflexivity.
    destruct ay; cbn [ask_type run_resolution run_ask]; [|reflexivity]. unfold run_response. destruct (handle_user_response _ _ _); reflexivity. }
  destruct (match policy with Ok _ => _ | Err _ => _ end) as [x evs]. cbn [snd] in R.
  destruct x as [s|e]; [exact R|]. destruct e; try exact R; cbn [is_access_denied negb]; rewrite andb_false_r; exact R.
Qed.

Example C73_run :
  snd (handle_request (Ok (rules_of ["a * work vault allow notify=yes"; "a * @anyvm dvm deny"])) (Some ex_info) None "work" "vault" "a" false false "")
  = [EvNotify "dom0" "allow" "a" "+" "work" "vault"] /\
  snd (handle_request (Ok (rules_of ["a * work vault allow notify=yes"; "a * @anyvm dvm deny"])) (Some ex_info) None "work" "dvm" "a+x" false false "")
  = [EvNotify "dom0" "deny" "a" "+x" "work" "dvm"].
Proof. vm_compute. auto. Qed.

(** "let through" is announced before the last checks: a call can be announced as
    allowed and be denied *)
Theorem C73_announced_refuted : exists rules, (forall r, In r rules -> wf_rule r) /\
  handle_request (Ok rules) (Some ex_info) None "work" "work" "a" false false ""
  = (Ok "result=deny", [EvNotify "dom0" "allow" "a" "+" "work" "work"; EvNotify "dom0" "deny" "a" "+" "work" "work"]).
Proof.
  exists (rules_of ["a * work work allow notify=yes"]). split; [intros r; apply rules_of_wf|]. vm_compute. reflexivity.
Qed.
