(** C111: a call, from the qube that makes it to the program that serves it *)
From Coq Require Import String Ascii List Bool Arith ZArith Lia.
From Verif Require Import Base SysInfo Token Rule Policy PolicyExec SpecPolicy Sanitize PolicyDaemon DaemonPolicy DaemonAgent SpecDaemon SpecAgent SpecCall
  SanitizeProofs AgentProofs DaemonProofs CallProofs Props_Daemon Exec SpecExec SpecEndToEnd.
From Verif Require Props_Exec Agent Toml Props_Client ClientTools SpecClient.
Import ListNotations.
Open Scope string_scope.
Open Scope list_scope.
Open Scope Z_scope.

Lemma spelled_word extra s : has_char " " extra = false -> spelled extra s -> lacks " " s.
Proof.
  intros E H. unfold lacks. destruct (has_char " " s) eqn:Hs; [|reflexivity]. specialize (H _ Hs). rewrite has_char_app, E in H. discriminate H.
Qed.
Lemma name_no_at s : plain_name s = true -> starts "@" s = false /\ s <> "".
Proof. unfold plain_name. rewrite !andb_true_iff, !negb_true_iff. intros [[[A B] _] _]. split; [exact B|]. intros ->. discriminate A. Qed.
Lemma key_name i s : wf_info i -> exists_qube i s -> s <> "" /\ starts "@" s = false.
Proof.
  intros W [d D]. destruct (wf_keys _ W _ _ D) as (P & _ & [->|(u & _ & ->)]).
  - apply name_no_at in P as [A B]. auto.
  - split; [discriminate|reflexivity].
Qed.
(** what the target's text turns into is one word *)
Lemma asked_word i target t : wf_info i -> target_of i target t -> lacks " " target ->
  (forall x, tok_str t = "@" +++ x \/ tok_str t = x -> Props_Exec.word x) /\ (String.length (tok_str t) <= String.length target + 8)%nat.
Proof.
  intros W T L.
  assert (K : forall s, s <> "" -> starts "@" s = false -> lacks " " s -> forall x, s = "@" +++ x \/ s = x -> Props_Exec.word x).
  { intros s N A B x [E|E]; [|subst; split; assumption]. subst s. discriminate A. }
  assert (K' : forall s, s <> "" -> lacks " " s -> forall x, "@" +++ s = "@" +++ x \/ "@" +++ s = x -> Props_Exec.word x).
  { intros s N B x [E|E].
    - assert (s = x) by (apply (f_equal (sdrop 1)) in E; exact E). subst. split; assumption.
    - subst x. split; [discriminate|exact B]. }
  destruct T as [| | | |v d D Tm|s Q|s N A St Q]; cbn [tok_str].
  - split; [apply (K' "default"); [discriminate|reflexivity]|cbn; lia].
  - split; [apply (K' "default"); [discriminate|reflexivity]|cbn; lia].
  - split; [apply (K' "adminvm"); [discriminate|reflexivity]|cbn; lia].
  - split; [apply (K' "dispvm"); [discriminate|reflexivity]|cbn; lia].
  - split; [apply (K' ("dispvm:" +++ v)); [discriminate|exact L]|lia].
  - destruct (key_name _ _ W Q) as [N A]. split; [apply K; assumption|lia].
  - split; [apply (K' "default"); [discriminate|reflexivity]|cbn; lia].
Qed.
(** facts about what a message of a qube may contain *)
Lemma text_in_length raw t n : text_in raw t -> String.length raw = n -> (String.length t <= n)%nat.
Proof. intros (rest & -> & _) <-. rewrite length_app_s. lia. Qed.
Lemma message_facts v type body rs target service ident : service_message v type body rs target service ident ->
  (String.length target <= 64)%nat /\ service <> "" /\ starts "+" service = false /\ lacks " " service /\ lacks " " target /\ (forall s, rs = Some s -> lacks " " s).
Proof.
  intros M. destruct (message_spelled _ _ _ _ _ _ _ M) as (S1 & S2 & S3).
  assert (C : forall sent used, service_name sent used -> used <> "" /\ starts "+" used = false).
  { intros sent used (N & P & C). inversion C as [|c s r E C'|c s r E C']; subst; [contradiction|split; [discriminate|exact P]|split; [discriminate|reflexivity]]. }
  split; [inversion M; subst;
    match goal with H : cleaned "@:" ?t0 target, T : text_in ?r ?t0 |- _ => rewrite (cleaned_length _ _ _ H); pose proof (text_in_length _ _ _ T eq_refl); lia end|].
  split; [inversion M; subst; match goal with H : service_name _ service |- _ => exact (proj1 (C _ _ H)) end|].
  split; [inversion M; subst; match goal with H : service_name _ service |- _ => exact (proj2 (C _ _ H)) end|].
  split; [exact (spelled_word "+" _ eq_refl S2)|]. split; [exact (spelled_word "@:" _ eq_refl S1)|].
  intros s E. exact (spelled_word "@:" _ eq_refl (S3 s E)).
Qed.

(** what is decided is granted, by a rule of the policy *)
Lemma decided_granted rules agent q g : decided_for rules agent q g ->
  exists r u x a, In r rules /\ user_of (r_action r) = u /\ granted q u x a g.
Proof.
  intros (r & F & D). apply Props_Policy.first_in in F. destruct (r_action r) as [n|t u n a|t dt u n a] eqn:E; [contradiction| |].
  - destruct D as (x & _ & _ & _ & G). exists r, u, x, a. rewrite E. auto.
  - destruct D as (x & _ & _ & _ & G). exists r, u, x, a. rewrite E. auto.
Qed.
Lemma user_no_colon u : (forall s, u = Some s -> lacks ":" s) -> lacks ":" (user_field u).
Proof. intros H. destruct u as [s|]; [|reflexivity]. destruct s as [|c s]; [reflexivity|]. apply H. reflexivity. Qed.
Lemma granted_user q u x a g : granted q u x a g -> gc_user g = user_field u \/ gc_user g = "DEFAULT".
Proof. intros G. inversion G; subst; cbn [gc_user]; auto. Qed.
Lemma granted_requested q u x a g : granted q u x a g -> gc_requested g = tok_str (q_target q).
Proof. intros G. inversion G; reflexivity. Qed.
Lemma lacks_app c a b : lacks c (a +++ b) <-> lacks c a /\ lacks c b.
Proof. unfold lacks. rewrite has_char_app, orb_false_iff. tauto. Qed.
Lemma split_text_whole service name arg : split_service_text service name arg -> with_argument service = name +++ arg /\ lacks "+" name /\ exists a, arg = "+" +++ a.
Proof.
  intros S. destruct S as [s a H|s H]; unfold with_argument.
  - rewrite has_char_app. cbn [append has_char Ascii.eqb Bool.eqb orb]. rewrite orb_true_r. split; [reflexivity|]. split; [exact H|]. eauto.
  - rewrite H. split; [reflexivity|]. split; [exact H|]. exists "". reflexivity.
Qed.
Lemma split_text_fun service n a n' a' : split_service_text service n a -> split_service_text service n' a' -> n = n' /\ a = a'.
Proof.
  assert (P : forall s s' x y, has_char "+" s = false -> has_char "+" s' = false -> s +++ "+" +++ x = s' +++ "+" +++ y -> s = s' /\ x = y).
  { intros s s' x y H H' E. assert (A : split1 "+" (s +++ "+" +++ x) = Some (s, x)) by (apply split1_spec; split; [reflexivity|exact H]).
    rewrite E in A. assert (B : split1 "+" (s' +++ "+" +++ y) = Some (s', y)) by (apply split1_spec; split; [reflexivity|exact H']).
    rewrite A in B. split; congruence. }
  intros S S'. inversion S as [s x H E|s H E]; inversion S' as [s' y H' E'|s' H' E']; subst.
  - destruct (P _ _ _ _ H' H E') as [-> ->]. auto.
  - rewrite has_char_app in H'. cbn [append has_char Ascii.eqb Bool.eqb orb] in H'. rewrite orb_true_r in H'. discriminate.
  - rewrite has_char_app in H. cbn [append has_char Ascii.eqb Bool.eqb orb] in H. rewrite orb_true_r in H. discriminate.
  - auto.
Qed.

Lemma told_callable rules i v type body rs target service ident remote q u x a g :
  well_set_up rules i -> service_message v type body rs target service ident -> moderate service ->
  call_of i remote target service (claimed rs) q -> granted q u x a g -> Props_Exec.callable (told_service g service).
Proof.
  intros W M (Hs & name & arg & Sp & Hn) C G. destruct (message_facts _ _ _ _ _ _ _ M) as (Lt & N & P & Ls & Lg & _).
  destruct (ws_info _ _ W) as (Wi & _ & _). destruct C as [Ci Cs _ _ Ct]. destruct (split_text_fun _ _ _ _ _ Sp Cs) as [E1 E2].
  destruct (split_text_whole _ _ _ Sp) as (Ew & Ln & a' & Ea).
  assert (Nn : 1 <= size name).
  { unfold size. destruct name; [|cbn [String.length]; lia]. exfalso. inversion Sp as [s y H E|s H E]; subst; [cbn [append] in P|contradiction]; discriminate. }
  assert (Base : Props_Exec.callable (with_argument service)).
  { rewrite Ew, Ea. split; [split|split].
    - destruct name; [cbn in Nn; lia|discriminate].
    - assert (L1 : lacks " " (with_argument service)).
      { unfold with_argument. destruct (has_char "+" service); [exact Ls|]. apply lacks_app. split; [exact Ls|reflexivity]. }
      rewrite Ew, Ea in L1. exact L1.
    - rewrite <- Ea, <- Ew. unfold with_argument, size in *. destruct (has_char "+" service); [lia|]. rewrite length_app_s. cbn [String.length]. lia.
    - exists name, a'. split; [reflexivity|]. split; [exact Ln|]. lia. }
  unfold told_service. inversion G; subst; cbn [gc_service]; try exact Base.
  match goal with D : dget (q_info q) x = Some ?d, T : d_transport ?d = Some ?t |- _ => destruct (ws_transport _ _ W _ _ _ D T) as (T1 & T2 & T3) end.
  destruct (asked_word _ _ _ Wi Ct Lg) as (Aw & Al). destruct (Aw _ (or_intror eq_refl)) as [An Aq].
  assert (Hw : with_argument (transport +++ "+" +++ tok_str (q_target q) +++ "+" +++ q_service q +++ q_arg q) = transport +++ "+" +++ tok_str (q_target q) +++ "+" +++ q_service q +++ q_arg q).
  { unfold with_argument. rewrite has_char_app. cbn [append has_char Ascii.eqb Bool.eqb orb]. rewrite orb_true_r. reflexivity. }
  rewrite Hw. split; [split|split].
  - destruct transport; [contradiction|discriminate].
  - assert (L1 : lacks " " (q_service q +++ q_arg q)).
    { rewrite <- Ew. unfold with_argument. destruct (has_char "+" service); [exact Ls|]. apply lacks_app. split; [exact Ls|reflexivity]. }
    apply lacks_app. split; [exact T1|]. apply lacks_app. split; [reflexivity|]. apply lacks_app. split; [exact Aq|]. apply lacks_app. split; [reflexivity|exact L1].
  - assert (Z1 : (String.length (q_service q +++ q_arg q) <= S (String.length service))%nat).
    { rewrite <- Ew. unfold with_argument. destruct (has_char "+" service); [lia|]. rewrite length_app_s. cbn [String.length]. lia. }
    unfold size in *. rewrite !length_app_s in *. cbn [String.length] in *. lia.
  - exists transport, (tok_str (q_target q) +++ "+" +++ q_service q +++ q_arg q). split; [reflexivity|]. split; [exact T2|].
    unfold size in *. destruct transport; [contradiction|]. cbn [String.length] in *. lia.
Qed.

(** ** The command line as the agent of the called qube sees it *)
Lemma u32_head hd rest : String.length hd = 8%nat -> u32 (hd +++ rest) = u32 hd /\ u32 (sdrop 4 (hd +++ rest)) = u32 (sdrop 4 hd).
Proof.
  intros H. do 8 (destruct hd as [|? hd]; [discriminate H|]). destruct hd; [|discriminate H]. split; reflexivity.
Qed.
Lemma exec_message en e type hd cmd st : type = 512 \/ type = 513 -> String.length hd = 8%nat -> no_nul cmd -> size cmd <= 2147483638 ->
  Agent.handle_server_cmd en e type (9 + size cmd) (hd +++ cmd +++ str1 NUL) st =
  Agent.exec_init en (Agent.m_files e) (Agent.m_forked e) (Agent.m_do e) (Agent.mkReq type (u32 hd) (u32 (sdrop 4 hd)) cmd) st.
Proof.
  intros T H N Z. destruct (u32_head hd (cmd +++ str1 NUL) H) as [E1 E2].
  unfold Agent.handle_server_cmd. rewrite E1, E2, (sdrop_app_eq _ _ _ H).
  assert (L1 : Z.to_nat (9 + size cmd - 9) = String.length cmd) by (unfold size; lia).
  rewrite L1, (stake_app_eq _ _ _ eq_refl). assert (C : cstr cmd = cmd) by (rewrite <- (app_nil_s cmd) at 1; rewrite cstr_app by exact N; cbn [cstr]; apply app_nil_s). rewrite C.
  replace (9 + size cmd <=? 8) with false by (unfold size; lia). replace (9 + size cmd >? 2147483647) with false by lia. cbn [orb].
  destruct T as [-> | ->]; reflexivity.
Qed.
Lemma prepared_command f cmd p p' : parse_qubes_rpc_command cmd true = Some p -> Agent.prepare f cmd = Some p' -> Agent.pr_cmd p' = p.
Proof.
  intros E H. unfold Agent.prepare in H. rewrite E in H.
  assert (K : forall x, Some x = Some p' -> Agent.pr_cmd x = p -> Agent.pr_cmd p' = p) by (intros x A B; congruence).
  destruct (pc_descriptor p) as [d|]; [|exact (K _ H eq_refl)]. destruct (pc_name p) as [n|]; [|exact (K _ H eq_refl)].
  destruct (Toml.load_service_config_v2 (Agent.f_fs f) (Agent.f_contents f) (Agent.f_path f) d n (pc_username p)) as [[cf u]|]; [exact (K _ H eq_refl)|discriminate].
Qed.

(** ** What command lines start *)
(** in dom0, [cmd] runs the program of service [full] with its argument, for [caller] that asked for [a] *)
Definition starts_in_dom0 (cmd full caller : string) (arg : option string) (a : asked) : Prop :=
  exists p, parse_qubes_rpc_command cmd false = Some p /\ pc_descriptor p = Some full /\ pc_source p = Some caller /\
    forall program envp, begins "/" program -> exists env,
      exec_qubes_rpc2 program (pc_command p) envp false = Execve program (program :: service_args arg) env /\
      call_env env full caller arg a.
(** in a qube, an agent that gets [cmd] (in a message of either type) starts it with the meaning [p], and
    then it runs the program of service [full] as [user] through its shell *)
Definition starts_in_qube (cmd user full caller : string) (arg : option string) : Prop :=
  exists p,
    (forall en e type hd st, type = 512 \/ type = 513 -> String.length hd = 8%nat -> size cmd <= 2147483638 ->
       Agent.handle_server_cmd en e type (9 + size cmd) (hd +++ cmd +++ str1 NUL) st =
       Agent.exec_init en (Agent.m_files e) (Agent.m_forked e) (Agent.m_do e) (Agent.mkReq type (u32 hd) (u32 (sdrop 4 hd)) cmd) st) /\
    (forall f p', Agent.prepare f cmd = Some p' -> Agent.pr_cmd p' = p) /\
    pc_username p = Some user /\ pc_descriptor p = Some full /\ pc_source p = Some caller /\
    forall program envp, begins "/" program -> exists argv rest,
      exec_qubes_rpc2 program (pc_command p) envp true = Execve "/bin/sh" argv rest /\
      forall profile, exists env, sh_login argv profile = Some (program, program :: service_args arg, env) /\
        call_env env full caller arg AskedNothing.

Record fine_call (i : info) (remote claim service : string) (g : granted_call) : Prop := {
  fc_callable : Props_Exec.callable (told_service g service);
  fc_named : caller_named i remote claim (told_caller g remote);
  fc_word : Props_Exec.word (told_caller g remote);
  fc_asked : forall t, gc_requested g = "@" +++ t \/ gc_requested g = t -> Props_Exec.word t;
  fc_user : lacks ":" (gc_user g) /\ no_nul (gc_user g);
  fc_nul : no_nul (told_service g service) /\ no_nul (told_caller g remote)
}.
Lemma decided_fine v type len body rs target service ident rules i agent remote q g :
  well_set_up rules i -> spelled "" remote -> remote <> "" -> moderate service ->
  handle_message_from_agent v type len body = ServiceCall rs target service ident ->
  call_of i remote target service (claimed rs) q -> decided_for rules agent q g ->
  fine_call i remote (claimed rs) service g /\ gc_requested g = tok_str (q_target q).
Proof.
  intros W Sp Nr Mo M C D. pose proof W as [Wr Wu (Wi & Wf & Ps) Wt].
  destruct (decided_granted _ _ _ _ D) as (r & u & x & a & Ir & Ur & G).
  pose proof (message_plain _ _ _ _ _ _ _ _ M) as Pl. apply service_message_spec in M as [_ M].
  pose proof (told_callable _ _ _ _ _ _ _ _ _ _ _ _ _ _ _ W M Mo C G) as Ca.
  destruct (message_facts _ _ _ _ _ _ _ M) as (_ & _ & _ & Ls & Lg & Lr).
  assert (Lrem : lacks " " remote) by exact (spelled_word "" _ eq_refl Sp).
  assert (Cl : caller_named i remote (claimed rs) (told_caller g remote) /\ Props_Exec.word (told_caller g remote)).
  { assert (Q : forall s, (if String.eqb (q_reqsrc q) "" then None else Some (q_source q)) = Some s ->
        caller_named i remote (claimed rs) s /\ Props_Exec.word s).
    { intros s E. destruct (String.eqb_spec (q_reqsrc q) "") as [|Nq]; [discriminate|]. assert (s = q_source q) by congruence. subst s.
      destruct C as [_ _ Cc Cr _]. rewrite Cr in Nq. destruct Cc as [E0|d N0 Dd Td Rd]; [contradiction|].
      split; [right; split; [exact N0|split; [reflexivity|eauto]]|]. split; [exact N0|]. destruct rs as [s|]; [|contradiction]. exact (Lr _ eq_refl). }
    assert (R0 : caller_named i remote (claimed rs) remote /\ Props_Exec.word remote) by (split; [left; reflexivity|split; assumption]).
    unfold told_caller. inversion G; subst; cbn [gc_source]; try exact R0;
      destruct (if String.eqb (q_reqsrc q) "" then None else Some (q_source q)) as [s|] eqn:E; try exact R0; first [exact (Q _ E)|exact (Q _ eq_refl)]. }
  destruct Cl as [Cn Cw].
  assert (Rq : forall t, gc_requested g = "@" +++ t \/ gc_requested g = t -> Props_Exec.word t).
  { rewrite (granted_requested _ _ _ _ _ G). destruct C as [_ _ _ _ Ct]. exact (proj1 (asked_word _ _ _ Wi Ct Lg)). }
  assert (Uc : lacks ":" (gc_user g)).
  { destruct (granted_user _ _ _ _ _ G) as [-> | ->]; [|reflexivity]. apply user_no_colon. intros s E. apply (Wu r s Ir). congruence. }
  assert (Td : tidy g).
  { refine (granted_tidy i remote target service (claimed rs) q u x a g Ps _ _ _ _ C G).
    - split; [exact (spelled_one_line "" _ eq_refl Sp)|exact (spelled_no_nul "" _ eq_refl Sp)].
    - destruct rs as [s|]; [exact (proj1 (Pl s (or_intror (or_intror eq_refl))))|split; reflexivity].
    - exact (proj1 (Pl service (or_intror (or_introl eq_refl)))).
    - intros s E. apply (Wu r s Ir). congruence. }
  destruct Td as ((_ & T1) & _ & _ & _ & T5 & T6).
    assert (Nt : no_nul (told_service g service)).
    { unfold told_service, with_argument. assert (N0 : no_nul (match gc_service g with Some s => s | None => service end)).
      { destruct (gc_service g) as [s|]; [exact (proj2 T5)|exact (proj2 (proj1 (Pl service (or_intror (or_introl eq_refl)))))]. }
      destruct (has_char "+" _); [exact N0|]. unfold no_nul in *. rewrite has_char_app, N0. reflexivity. }
    assert (Nc : no_nul (told_caller g remote)).
    { unfold told_caller. destruct (gc_source g) as [s|]; [exact (proj2 T6)|exact (spelled_no_nul "" _ eq_refl Sp)]. }
  split; [constructor; auto|exact (granted_requested _ _ _ _ _ G)].
Qed.
Lemma starts_qube i claim remote service g u auto cmd w : fine_call i remote claim service g -> performed remote service g (RunInVM u auto cmd w) ->
  exists arg, argument_of (told_service g service) arg /\ starts_in_qube cmd (gc_user g) (told_service g service) (told_caller g remote) arg.
Proof.
  intros [Ca Cn Cw Rq [Uc T1] [Nt Nc]] P.
  destruct (Props_Exec.C66_in_a_qube_partial remote service g _ _ _ _ P Uc Ca Cw) as (p & arg & E1 & E2 & E3 & E4 & A & X).
  exists arg. split; [exact A|]. exists p. split; [|split; [intros f p' F; exact (prepared_command _ _ _ _ E1 F)|do 3 (split; [assumption|]); exact X]].
  intros en e type' hd st T Lh Sz. apply exec_message; try assumption. assert (Ec : cmd = gc_user g +++ ":QUBESRPC " +++ told_service g service +++ " " +++ told_caller g remote) by (inversion P; reflexivity). rewrite Ec.
  unfold no_nul in *. rewrite !has_char_app, T1, Nt, Nc. reflexivity.
Qed.
Lemma performed_served v type len body rs target service ident rules i agent remote q g o :
  well_set_up rules i -> spelled "" remote -> remote <> "" -> moderate service ->
  handle_message_from_agent v type len body = ServiceCall rs target service ident ->
  call_of i remote target service (claimed rs) q -> decided_for rules agent q g -> performed remote service g o ->
  exists q g caller arg, call_of i remote target service (claimed rs) q /\ decided_for rules agent q g /\
    caller_named i remote (claimed rs) caller /\ argument_of (told_service g service) arg /\
    ((means_dom0 (gc_target g) /\ exists cmd a, o = RunInDom0 caller cmd /\ asked_for (tok_str (q_target q)) a /\
        starts_in_dom0 cmd (told_service g service) caller arg a) \/
     (~ means_dom0 (gc_target g) /\ exists u cmd, gc_uuid g = Some u /\ o = RunInVM u (gc_autostart g) cmd true /\
        starts_in_qube cmd (gc_user g) (told_service g service) caller arg)).
Proof.
  intros W Sp Nr Mo M C D P. destruct (decided_fine _ _ _ _ _ _ _ _ _ _ _ _ _ _ W Sp Nr Mo M C D) as [F Er]. pose proof F as [Ca Cn Cw Rq _ _].
  destruct P as [kw Hm Hr|Hm Hr|u' Hm Hg].
  - destruct (Props_Exec.C66_in_dom0_partial remote service g _ _ (pf_dom0_keyword _ _ _ kw Hm Hr) Ca Cw Rq) as (p & arg & b & E1 & E2 & E3 & _ & A & B & X).
    exists q, g, (told_caller g remote), arg. do 4 (split; [assumption|]). left. split; [exact Hm|]. eexists _, b. split; [reflexivity|].
    split; [rewrite <- Er; destruct B as [[B ->]|(kw' & B & ->)]; [apply af_name; exact B|apply af_keyword; exact B]|]. exists p. do 3 (split; [assumption|]). exact X.
  - destruct (Props_Exec.C66_in_dom0_partial remote service g _ _ (pf_dom0_name _ _ _ Hm Hr) Ca Cw Rq) as (p & arg & b & E1 & E2 & E3 & _ & A & B & X).
    exists q, g, (told_caller g remote), arg. do 4 (split; [assumption|]). left. split; [exact Hm|]. eexists _, b. split; [reflexivity|].
    split; [rewrite <- Er; destruct B as [[B ->]|(kw' & B & ->)]; [apply af_name; exact B|apply af_keyword; exact B]|]. exists p. do 3 (split; [assumption|]). exact X.
  - destruct (starts_qube _ _ _ _ _ _ _ _ _ F (pf_qube _ _ _ u' Hm Hg)) as (arg & A & X).
    exists q, g, (told_caller g remote), arg. do 4 (split; [assumption|]). right. split; [exact Hm|]. eexists u', _. split; [exact Hg|]. split; [reflexivity|exact X].
Qed.

(** ** Whatever runs because of a message of qube [remote] was decided for by the policy, runs as the user
    of the rule, and learns the service and the caller, as they are. *)
Theorem C111_service_knows v type len body rs target service ident rules i agent remote w evs status out :
  well_set_up rules i -> spelled "" remote -> remote <> "" -> moderate service ->
  handle_message_from_agent v type len body = ServiceCall rs target service ident ->
  handle_client_connection (Ok rules) (Some i) agent (request_text remote rs target service) = (w, evs) -> status <> 0%nat ->
  let o := execute_service_child remote service (answered w) (status, out) in
  (exists st, o = ChildExits st) \/
  exists q g caller arg, call_of i remote target service (claimed rs) q /\ decided_for rules agent q g /\
    caller_named i remote (claimed rs) caller /\ argument_of (told_service g service) arg /\
    ((means_dom0 (gc_target g) /\ exists cmd a, o = RunInDom0 caller cmd /\ asked_for (tok_str (q_target q)) a /\
        starts_in_dom0 cmd (told_service g service) caller arg a) \/
     (~ means_dom0 (gc_target g) /\ exists u cmd, gc_uuid g = Some u /\ o = RunInVM u (gc_autostart g) cmd true /\
        starts_in_qube cmd (gc_user g) (told_service g service) caller arg)).
Proof.
  intros W Sp Nr Mo M H St o. pose proof W as [Wr Wu (Wi & Wf & Ps) Wt].
  assert (Pu : plain_users rules) by (intros r u I U; exact (proj1 (Wu r u I U))).
  destruct (C57_only_authorised_calls_run _ _ _ _ _ _ _ _ _ _ _ _ _ _ _ out (fun r I => proj1 (Wr r I)) Wi Wf (fun r I => proj2 (Wr r I)) Ps Pu Sp M H St) as [D|(q & g & C & D & P)]; [left; exact D|].
  right. exact (performed_served _ _ _ _ _ _ _ _ _ _ _ _ _ _ _ W Sp Nr Mo M C D P).
Qed.
(** and what the policy decides for does run: if its answer (of less than 4096 bytes) is not a refusal *)
Theorem C111_allowed_runs v type len body rs target service ident rules i agent remote s evs fallback :
  well_set_up rules i -> spelled "" remote -> remote <> "" -> moderate service ->
  handle_message_from_agent v type len body = ServiceCall rs target service ident ->
  handle_request (Ok rules) (Some i) agent remote target service false false (claimed rs) = (Ok s, evs) -> s <> "result=deny" ->
  (String.length s < 4096)%nat -> ascii_text s ->
  handle_client_connection (Ok rules) (Some i) agent (request_text remote rs target service) = (Some s, evs) /\
  let o := execute_service_child remote service (answered (Some s)) fallback in
  exists q g caller arg, call_of i remote target service (claimed rs) q /\ decided_for rules agent q g /\
    caller_named i remote (claimed rs) caller /\ argument_of (told_service g service) arg /\
    ((means_dom0 (gc_target g) /\ exists cmd a, o = RunInDom0 caller cmd /\ asked_for (tok_str (q_target q)) a /\
        starts_in_dom0 cmd (told_service g service) caller arg a) \/
     (~ means_dom0 (gc_target g) /\ exists u cmd, gc_uuid g = Some u /\ o = RunInVM u (gc_autostart g) cmd true /\
        starts_in_qube cmd (gc_user g) (told_service g service) caller arg)).
Proof.
  intros W Sp Nr Mo M H Nd L A. pose proof W as [Wr Wu (Wi & Wf & Ps) Wt].
  assert (Pu : plain_users rules) by (intros r u I U; exact (proj1 (Wu r u I U))).
  destruct (C57_authorised_calls_run _ _ _ _ _ _ _ _ _ _ _ _ _ _ fallback (fun r I => proj1 (Wr r I)) Wi Wf (fun r I => proj2 (Wr r I)) Ps Pu Sp M H L A) as [E [[D _]|(q & g & C & D & P)]]; [contradiction|].
  split; [exact E|]. exact (performed_served _ _ _ _ _ _ _ _ _ _ _ _ _ _ _ W Sp Nr Mo M C D P).
Qed.

Lemma cleaned_cut extra a : forall b r, cleaned extra (a +++ b) r -> exists ra rb, r = ra +++ rb /\ cleaned extra a ra /\ cleaned extra b rb.
Proof.
  induction a as [|c a IH]; intros b r C; [exists "", r; split; [reflexivity|split; [constructor|exact C]]|].
  cbn [append] in C. inversion C as [|c' s' r' E C'|c' s' r' E C']; subst; destruct (IH _ _ C') as (ra & rb & -> & A & B).
  - exists (String c ra), rb. split; [reflexivity|]. split; [apply cl_keep; assumption|exact B].
  - exists (String "_" ra), rb. split; [reflexivity|]. split; [apply cl_under; assumption|exact B].
Qed.
Lemma cleaned_plus s r : cleaned "+" s r -> has_char "+" s = false -> has_char "+" r = false.
Proof.
  induction 1 as [|c s r E C IH|c s r E C IH]; intros H; [reflexivity| |].
  - cbn [has_char] in *. destruct (Ascii.eqb "+" c); [discriminate|]. exact (IH H).
  - cbn [has_char] in H. cbn [has_char Ascii.eqb Bool.eqb]. apply IH. destruct (Ascii.eqb "+" c); [discriminate|exact H].
Qed.
Lemma cleaned_split s r : cleaned "+" s r -> forall n a, split_service_text s n a -> exists n' a', split_service_text r n' a' /\ String.length n' = String.length n.
Proof.
  intros C n a S. destruct S as [n a H|s H].
  - destruct (cleaned_cut _ _ _ _ C) as (rn & rb & -> & A & B). destruct (cleaned_cut _ "+" _ _ B) as (rp & ra & -> & P & D).
    assert (rp = "+"). { inversion P as [|c s r E C'|c s r E C']; subst; [|discriminate E]. inversion C'. reflexivity. } subst rp.
    exists rn, ("+" +++ ra). split; [apply sst_arg; exact (cleaned_plus _ _ A H)|exact (cleaned_length _ _ _ A)].
  - exists r, "+". split; [apply sst_none; exact (cleaned_plus _ _ C H)|exact (cleaned_length _ _ _ C)].
Qed.

(** ** The whole way: qrexec-client-vm of qube [remote], its agent, the daemon for [remote], the policy daemon *)
Theorem C111_from_the_caller target0 service0 hdr body fd rules i agent remote status out :
  SpecClient.sent "" target0 service0 hdr body -> no_nul target0 -> no_nul service0 -> Z.of_nat fd < 2147483648 ->
  service0 <> "" -> starts "+" service0 = false -> size service0 < 65000 ->
  well_set_up rules i -> spelled "" remote -> remote <> "" -> moderate service0 -> status <> 0%nat ->
  exists body' target service t t',
    Agent.handle_trigger_io fd (fst hdr) (snd hdr) body = [Agent.Forwarded (fst hdr) (snd hdr) body'] /\
    SpecClient.at_signs target0 t /\ SpecClient.fits 64 t t' /\ cleaned "@:" t' target /\ cleaned "+" service0 service /\
    handle_message_from_agent 4 (fst hdr) (snd hdr) body' = ServiceCall (Some "") target service (Agent.socket_ident fd) /\
    forall w evs, handle_client_connection (Ok rules) (Some i) agent (request_text remote (Some "") target service) = (w, evs) ->
    let o := execute_service_child remote service (answered w) (status, out) in
    (exists st, o = ChildExits st) \/
    exists q g arg, call_of i remote target service "" q /\ decided_for rules agent q g /\ argument_of (told_service g service) arg /\
      ((means_dom0 (gc_target g) /\ exists cmd a, o = RunInDom0 remote cmd /\ asked_for (tok_str (q_target q)) a /\
          starts_in_dom0 cmd (told_service g service) remote arg a) \/
       (~ means_dom0 (gc_target g) /\ exists u cmd, gc_uuid g = Some u /\ o = RunInVM u (gc_autostart g) cmd true /\
          starts_in_qube cmd (gc_user g) (told_service g service) remote arg)).
Proof.
  intros S Nt Nv Sm Ne Np Sz W Sp Nr Mo St.
  destruct (Props_Client.C93_call_partial "" target0 service0 hdr body fd S eq_refl Nt Nv Sm) as [(_ & _ & _ & body' & t & t' & s' & source' & target & service & F & M & A & Ft & Ct & Fs & Cs & Cv)|([E|[E|E]] & _)];
    [|contradiction|congruence|unfold size in Sz; lia].
  assert (source' = "").
  { destruct Fs as [[_ ->]|[L _]]; [|cbn [String.length] in L; lia]. apply cleaned_length in Cs. destruct source'; [reflexivity|discriminate Cs]. }
  subst source'. exists body', target, service, t, t'. do 6 (split; [assumption|]).
  intros w evs H o. assert (Mo' : moderate service).
  { destruct Mo as (M1 & name & arg & M2 & M3). pose proof (cleaned_length _ _ _ Cv) as L. split; [unfold size in *; lia|].
    destruct (cleaned_split _ _ Cv _ _ M2) as (n' & a' & S' & L'). exists n', a'. split; [exact S'|]. unfold size in *. lia. }
  destruct (C111_service_knows _ _ _ _ _ _ _ _ _ _ _ _ _ _ _ out W Sp Nr Mo' M H St) as [D|(q & g & caller & arg & C & D & N & R)]; [left; exact D|right].
  assert (caller = remote) by (destruct N as [N|[N _]]; [exact N|contradiction N; reflexivity]). subst caller. exists q, g, arg. auto.
Qed.

(** ** Example *)
Lemma ex_set_up : well_set_up Props_Policy.ex_rules Props_Policy.ex_info.
Proof.
  constructor.
  - intros r I. destruct C57_example as (A & _ & _ & B & _). split; [exact (A r I)|exact (B r I)].
  - intros r u I E. split; [exact (ex_users r u I E)|]. cbn in I. repeat (destruct I as [I|I]; [subst r; cbn in E; inversion E; reflexivity|]). destruct I.
  - destruct C57_example as (_ & A & B & _ & C & _). auto.
  - intros n d t H E. apply dget_In in H. cbn in H.
    assert (X : d_transport d = None \/ d_transport d = Some "qubesair.SSHProxy").
    { repeat (destruct H as [H|H]; [inversion H; subst; cbn; auto|]). destruct H. }
    destruct X as [X|X]; [congruence|]. assert (t = "qubesair.SSHProxy") by congruence. subst t. split; [reflexivity|]. split; [reflexivity|vm_compute; discriminate].
Qed.
Example C111_met : well_set_up Props_Policy.ex_rules Props_Policy.ex_info /\ moderate "qubes.Gpg" /\
  handle_message_from_agent 3 530 (Z.of_nat (String.length ex_body)) ex_body = ServiceCall None "vault" "qubes.Gpg" "SOCKET11" /\
  exists s, fst (handle_request (Ok Props_Policy.ex_rules) (Some Props_Policy.ex_info) None "work" "vault" "qubes.Gpg" false false "") = Ok s /\ s <> "result=deny" /\
    execute_service_child "work" "qubes.Gpg" (answered (Some s)) (1%nat, "") = RunInVM "uuid:u-vault" true "gpg:QUBESRPC qubes.Gpg+ work" true.
Proof.
  split; [exact ex_set_up|]. split; [split; [vm_compute; discriminate|exists "qubes.Gpg", "+"; split; [constructor; reflexivity|vm_compute; discriminate]]|].
  split; [vm_compute; reflexivity|]. eexists. split; [vm_compute; reflexivity|]. split; [vm_compute; discriminate|vm_compute; reflexivity].
Qed.
