(** qrexec-policy-exec: exit status and the deprecated mode of running
    qrexec-client *)
From Coq Require Import String Ascii List Bool Arith ZArith Lia.
From Verif Require Import Base SysInfo Token Rule Policy PolicyExec SpecPolicy
  TokenProofs MatchProofs EvalProofs AskProofs ExecProofs
  Sanitize PolicyDaemon DaemonPolicy SpecDaemon SpecCall
  SanitizeProofs DaemonProofs EvalSvc CallProofs.
Import ListNotations.
Open Scope string_scope.
Open Scope nat_scope.
Open Scope list_scope.

(** exit status: an exception gives 1; qrexec-client replaces its own *)
Definition exit_status (p : program) : option nat :=
  match p with
  | Prints _ st => Some st
  | Exits st => Some st
  | Dies => Some 1
  | RunsClient _ _ => None
  end.

Theorem exit_status_spec policy sysinfo agent je ay args disp source target service :
  args = [source; target; service] \/ (je = true /\ exists d ident, args = [d; source; target; service; ident]) ->
  forall p evs, qrexec_policy_exec policy sysinfo agent [] je ay args disp = (p, evs) ->
  exists st, exit_status p = Some st /\
  (st = 0 <-> exists s evs', handle_request policy sysinfo agent source target service je ay "" = (Ok s, evs') /\
                             s <> "result=deny").
Proof.
  intros Ha p evs H. unfold qrexec_policy_exec in H.
  destruct (handle_request policy sysinfo agent source target service je ay "") as [[s|e] evs'] eqn:E.
  - pose proof (answer_shape _ _ _ _ _ _ _ _ _ _ _ E) as Sh.
    assert (G : s <> "result=deny" <-> exists s0 evs'0, (Ok s, evs') = (Ok s0, evs'0) /\ s0 <> "result=deny").
    { split; [eauto|]. intros (s0 & e0 & K & N). assert (s0 = s) by congruence. subst. exact N. }
    destruct Ha as [->|(-> & d & ident & ->)].
    + rewrite E in H. destruct je; cbn [negb] in H.
      * destruct Sh as [->| ->]; vm_compute in H; inversion H; subst; eexists; (split; [reflexivity|]); rewrite <- G;
          split; try discriminate; congruence.
      * assert (p = Prints (s +++ nl) (main_status s)) by congruence. subst p. eexists. split; [reflexivity|].
        rewrite <- G. apply (status_spec false). exact Sh.
    + rewrite E in H. destruct Sh as [->| ->]; vm_compute in H; inversion H; subst; eexists; (split; [reflexivity|]); rewrite <- G;
          split; try discriminate; congruence.
  - assert (p = Dies).
    { destruct Ha as [->|(-> & d & ident & ->)]; rewrite E in H; congruence. }
    subst p. exists 1. split; auto. split; [discriminate|]. intros (s & e' & K & _). discriminate.
Qed.

(** ** Reading the answer back as a dictionary *)
Definition gc_dict (g : granted_call) : list (string * string) :=
  [("user", gc_user g); ("result", "allow"); ("target", gc_target g)]
  ++ (match gc_uuid g with Some u => [("target_uuid", u)] | None => [] end)
  ++ [("autostart", bool_field (gc_autostart g)); ("requested_target", gc_requested g)]
  ++ (match gc_service g with Some u => [("service", u)] | None => [] end)
  ++ (match gc_source g with Some u => [("policy_source", u)] | None => [] end).
Lemma answer_dict_lines g : answer_dict (gc_lines g) [] = Some (gc_dict g).
Proof. destruct g as [u t [uu|] rq au [sv|] [so|]]; reflexivity. Qed.

Theorem deprecated_decided rules i agent ay source target service domain_id ident disp p evs :
  (forall r, In r rules -> wf_rule r) -> wf_info i -> wf_refs i -> starts "@" source = false ->
  (forall r, In r rules -> ~ uuid_dispvm (r_target r)) ->
  plain_system i -> plain_users rules ->
  (forall s, s = source \/ s = target \/ s = service -> plain_text s) ->
  ay = false ->
  qrexec_policy_exec (Ok rules) (Some i) agent [] false ay [domain_id; source; target; service; ident] disp = (p, evs) ->
  match p with
  | RunsClient create argv =>
      exists q g, call_of i source target service "" q /\ decided_for rules agent q g /\
        client_run domain_id source target service ident disp g create argv
  | Prints _ _ => False
  | Exits st => st = 1
  | Dies => True
  end.
Proof.
  intros Wr Wi Wf Hs Nu Ps Pu P -> H. unfold qrexec_policy_exec in H.
  destruct (handle_request (Ok rules) (Some i) agent source target service false false "") as [[s|e] evs'] eqn:E.
  2:{ assert (p = Dies) by congruence. subst p. exact I. }
  assert (Q2 : plain_text "") by (split; reflexivity).
  destruct (answer_decided rules i agent source target service "" s evs') as [->|(q & g & C & D & -> & Ti & Pf)]; auto.
  { vm_compute in H. inversion H. reflexivity. }
  rewrite split_join in H.
  2:{ destruct (gc_lines_last g) as (l & x & ->). destruct l; discriminate. }
  2:{ intros x Hx. apply (gc_lines_ok g Ti x Hx). }
  rewrite answer_dict_lines in H.
  change (dget (gc_dict g) "result") with (Some "allow") in H. change (String.eqb "allow" "allow") with true in H.
  cbn [negb] in H. change (dget (gc_dict g) "target") with (Some (gc_target g)) in H.
  change (dget (gc_dict g) "user") with (Some (gc_user g)) in H.
  assert (U : dget (gc_dict g) "target_uuid" = gc_uuid g).
  { destruct g as [u t [uu|] rq au [sv|] [so|]]; reflexivity. }
  rewrite U in H.
  assert (PF : exists u x a, granted q u x a g).
  { destruct D as (r & _ & D). destruct (r_action r); [destruct D| |]; destruct D as (x & D).
    - exists user, x, autostart. tauto.
    - exists user, x, autostart. tauto. }
  destruct PF as (u & x & a & G).
  assert (Gu : gc_user g <> "").
  { inversion G; subst; cbn [gc_user]; unfold user_field; try (destruct u as [[|]|]; discriminate). }
  assert (Ed : (String.eqb (gc_target g) "dom0" || String.eqb (gc_target g) "@adminvm")%bool = true <-> gc_target g = "dom0" \/ gc_target g = "@adminvm").
  { rewrite orb_true_iff, !String.eqb_eq. tauto. }
  destruct (String.eqb (gc_target g) "dom0" || String.eqb (gc_target g) "@adminvm")%bool eqn:Eg.
  - destruct (String.eqb target ""); [inversion H; exact I|].
    destruct Ed as [Ed _]. specialize (Ed eq_refl).
    assert (Md : means_dom0 (gc_target g)) by (unfold means_dom0; tauto).
    assert (Nd : starts "@dispvm:" (gc_target g) = false) by (destruct Ed as [-> | ->]; reflexivity).
    rewrite Nd in H.
    assert (p = RunsClient None [QREXEC_CLIENT; "-Ed"; gc_target g; "-c"; ident +++ "," +++ source +++ "," +++ domain_id; "--";
        "QUBESRPC " +++ service +++ " " +++ source +++ " " +++ place target]) as ->.
    { unfold place. destruct (starts "@" target); inversion H; rewrite ?app_assoc_s; reflexivity. }
    exists q, g. split; auto. split; auto. apply cr_dom0. exact Md.
  - destruct (gc_uuid g) as [w|] eqn:Eu; [|inversion H; exact I].
    destruct (String.eqb_spec (gc_user g) ""); [contradiction|].
    destruct (starts "@dispvm:" (gc_target g)) eqn:Es.
    + assert (p = RunsClient (Some w) [QREXEC_CLIENT; "-EWkd"; disp; "-c"; ident +++ "," +++ source +++ "," +++ domain_id; "--";
        gc_user g +++ ":QUBESRPC " +++ service +++ " " +++ source]) as ->.
      { inversion H. rewrite ?app_assoc_s. reflexivity. }
      exists q, g. split; auto. split; auto. apply cr_disp; auto.
    + assert (p = RunsClient None [QREXEC_CLIENT; "-Ed"; w; "-c"; ident +++ "," +++ source +++ "," +++ domain_id; "--";
        gc_user g +++ ":QUBESRPC " +++ service +++ " " +++ source]) as ->.
      { inversion H. rewrite ?app_assoc_s. reflexivity. }
      exists q, g. split; auto. split; auto. apply cr_qube; auto; intros K; rewrite K in Eg; discriminate Eg.
Qed.
