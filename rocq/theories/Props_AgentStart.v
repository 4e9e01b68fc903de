(** C110: qrexec-agent does what its command line says, and leaves nothing behind when told to end *)
From Coq Require Import String Ascii List Bool Arith ZArith Lia.
From Verif Require Import Base ClientTools SpecClient ClientProofs Props_Options Agent AgentProofs MainProofs AgentLoop SpecMain SpecAgentLoop AgentStart SpecAgentStart Props_AgentLoop.
From Verif Require UnixSocket SpecSocket Props_Socket Props_DaemonStart.
Import ListNotations.
Open Scope string_scope.
Open Scope list_scope.
Open Scope Z_scope.

(** ** The command line *)
Definition a_code (o : a_opt) : found :=
  match o with AHelp => ("h", None) | ASocket p => ("a", Some p) | AFork t => ("s", Some t) | ANoFork => ("S", None) end.
Lemma a_words plus o ws rest : a_spelled o ws -> getopt plus a_shorts a_longs (ws ++ rest) = more (a_code o) (getopt plus a_shorts a_longs rest).
Proof.
  intros Hw. destruct o as [|p|t|]; cbn [a_spelled a_code] in *;
    first [ eapply flag_ok; [exact Hw|short_words|long_words] | eapply value_ok; [exact Hw|short_words|long_words] ].
Qed.
Definition helps (o : a_opt) : bool := match o with AHelp => true | _ => false end.
Lemma helps_iff os : existsb helps os = true <-> In AHelp os.
Proof.
  rewrite existsb_exists. split; [intros (x & I & H); destruct x; try discriminate; exact I|intros I; exists AHelp; split; [exact I|reflexivity]].
Qed.
Lemma a_options os : forall c, options a_option (map a_code os) c =
  if existsb helps os then inr 2 else inl (mkA (or_else (last_of of_socket os) (o_trigger c)) (or_else (last_of of_fork os) (o_template c))).
Proof.
  induction os as [|o os IH]; intros c; [destruct c; reflexivity|].
  destruct o as [|p|t|]; cbn [map a_code options a_option]; [reflexivity| | | ]; rewrite IH; cbn [existsb helps orb last_of of_socket of_fork o_trigger o_template];
    destruct (existsb helps os); try reflexivity; destruct (last_of of_socket os), (last_of of_fork os); reflexivity.
Qed.
Theorem C110_command_line argv os ps : line false a_spelled argv os ps ->
  match a_main argv with
  | inl o => ~ In AHelp os /\ o_trigger o = or_else (last_of of_socket os) "/var/run/qubes/qrexec-agent" /\
             o_template o = or_else (last_of of_fork os) (Some "/var/run/qubes/qrexec-server.%s.sock")
  | inr k => k = 2 /\ In AHelp os
  end.
Proof.
  intros L. pose proof (getopt_line false a_spelled a_shorts a_longs a_code argv os ps (a_words false) L) as G.
  unfold a_main. rewrite G. cbn [fst]. rewrite a_options. destruct (existsb helps os) eqn:H.
  - apply helps_iff in H. auto.
  - split; [intros I; apply helps_iff in I; congruence|]. split; reflexivity.
Qed.

(** ** Where fork servers are looked for *)
Lemma plain_format t p : plain_text t p <-> format t None = Some p.
Proof.
  split.
  - induction 1 as [|t p _ IH|c t p N _ IH].
    + reflexivity.
    + cbn. rewrite IH. reflexivity.
    + cbn [format]. destruct (Ascii.eqb_spec c "%"); [contradiction|]. rewrite IH. reflexivity.
  - remember (String.length t) as k eqn:K. assert (Hk : (String.length t <= k)%nat) by lia. clear K. revert t p Hk.
    induction k as [|k IH]; intros t p Hk F.
    { destruct t as [|c t]; [|cbn [String.length] in Hk; lia]. cbn [format] in F. assert (p = "") by congruence. subst p. constructor. }
    destruct t as [|c t]; [cbn [format] in F; assert (p = "") by congruence; subst p; constructor|]. cbn [String.length] in Hk. cbn [format] in F.
    destruct (Ascii.eqb_spec c "%") as [->|N].
    + destruct t as [|d t]; [discriminate|]. cbn [String.length] in Hk. destruct (Ascii.eqb d "s"); [discriminate|]. destruct (Ascii.eqb_spec d "%") as [->|_]; [|discriminate].
      destruct (format t None) as [q|] eqn:E; [|discriminate]. cbn [option_map] in F. assert (p = String "%" q) by congruence. subst p.
      apply (pt_percent t q). apply IH; [lia|exact E].
    + destruct (format t None) as [q|] eqn:E; [|discriminate]. cbn [option_map] in F. assert (p = String c q) by congruence. subst p.
      apply pt_char; [exact N|]. apply IH; [lia|exact E].
Qed.
Lemma plain_app a pa : plain_text a pa -> forall b pb, plain_text b pb -> plain_text (a +++ b) (pa +++ pb).
Proof.
  induction 1 as [|t p _ IH|c t p N _ IH]; intros b pb B.
  - exact B.
  - rewrite !app_assoc_s. apply pt_percent. apply IH. exact B.
  - cbn [append]. apply pt_char; [exact N|]. apply IH. exact B.
Qed.
Theorem C110_format t u p : format t (Some u) = Some p <-> stands_for t u p.
Proof.
  split.
  - remember (String.length t) as k eqn:K. assert (Hk : (String.length t <= k)%nat) by lia. clear K. revert t p Hk.
    assert (G : forall t a pa p, plain_text a pa -> stands_for t u p -> stands_for (a +++ t) u (pa +++ p)).
    { intros t a pa p A [P|(x & y & px & py & -> & X & Y & ->)].
      - left. apply plain_app; assumption.
      - right. exists (a +++ x), y, (pa +++ px), py. rewrite !app_assoc_s. split; [reflexivity|]. split; [apply plain_app; assumption|]. auto. }
    induction k as [|k IH]; intros t p Hk F.
    { destruct t as [|c t]; [|cbn [String.length] in Hk; lia]. cbn [format] in F. assert (p = "") by congruence. subst p. left. constructor. }
    destruct t as [|c t]; [cbn [format] in F; assert (p = "") by congruence; subst p; left; constructor|]. cbn [String.length] in Hk. cbn [format] in F.
    destruct (Ascii.eqb_spec c "%") as [->|N].
    + destruct t as [|d t]; [discriminate|]. cbn [String.length] in Hk. destruct (Ascii.eqb_spec d "s") as [->|_].
      * destruct (format t None) as [q|] eqn:E; [|discriminate]. apply plain_format in E. cbn [option_map] in F. assert (p = u +++ q) by congruence. subst p.
        right. exists "", t, "", q. split; [reflexivity|]. split; [constructor|]. auto.
      * destruct (Ascii.eqb_spec d "%") as [->|_]; [|discriminate].
        destruct (format t (Some u)) as [q|] eqn:E; [|discriminate]. cbn [option_map] in F. assert (p = String "%" q) by congruence. subst p.
        apply (G t "%%" "%" q); [apply (pt_percent "" "" pt_end)|]. apply IH; [lia|exact E].
    + destruct (format t (Some u)) as [q|] eqn:E; [|discriminate]. cbn [option_map] in F. assert (p = String c q) by congruence. subst p.
      apply (G t (str1 c) (str1 c) q); [apply pt_char; [exact N|constructor]|]. apply IH; [lia|exact E].
  - assert (G : forall a pa, plain_text a pa -> forall b arg, format (a +++ b) arg = option_map (append pa) (format b arg)).
    { induction 1 as [|t' p' _ IH|c t' p' N _ IH]; intros b arg.
      - cbn [append]. destruct (format b arg); reflexivity.
      - rewrite app_assoc_s. cbn [append format Ascii.eqb Bool.eqb]. rewrite IH. destruct (format b arg); reflexivity.
      - cbn [append format]. destruct (Ascii.eqb_spec c "%"); [contradiction|]. rewrite IH. destruct (format b arg); reflexivity. }
    intros [P|(a & b & pa & pb & -> & A & B & ->)].
    + specialize (G t p P "" (Some u)). rewrite app_nil_s in G. rewrite G. cbn [format option_map]. rewrite app_nil_s. reflexivity.
    + rewrite (G a pa A). cbn [append format Ascii.eqb Bool.eqb]. apply plain_format in B. rewrite B. reflexivity.
Qed.
Theorem C110_fork_server t u p fs n : stands_for t u p -> p <> "" -> (String.length p <= 107)%nat ->
  fork_server (Some t) fs u = Some n <-> exists k, (k <= 40)%nat /\ SpecSocket.leads fs k p n.
Proof.
  intros S Ne Sh. apply C110_format in S. unfold fork_server. rewrite S. destruct (String.eqb_spec p ""); [contradiction|].
  rewrite Props_Socket.stake_short by exact Sh. apply Props_Socket.reaches_leads.
Qed.
Theorem C110_default_server fs u n : (String.length u <= 73)%nat ->
  fork_server (Some "/var/run/qubes/qrexec-server.%s.sock") fs u = Some n <-> exists k, (k <= 40)%nat /\ SpecSocket.leads fs k (UnixSocket.fork_server_path u) n.
Proof.
  intros L. apply C110_fork_server.
  - apply C110_format. cbn. unfold UnixSocket.fork_server_path. reflexivity.
  - unfold UnixSocket.fork_server_path. discriminate.
  - apply Props_Socket.path_short. exact L.
Qed.

(** ** No fork servers *)
Lemma all_handed en evs fd q p text : forall s done o, handle_all en s evs = (done, o) -> In (HandedOver fd q p text) (concat done) -> en = true.
Proof.
  induction evs as [|ev evs IH]; intros s done o H I; cbn [handle_all] in H.
  - assert (done = []) by congruence. subst. destruct I.
  - pose proof (step_handed en ev s fd q p text) as G. destruct (step en ev s) as [s' out]. cbn [snd] in G. destruct (dies out).
    + assert (done = [out]) by congruence. subst. cbn [concat] in I. rewrite app_nil_r in I. exact (proj1 (G I)).
    + destruct (handle_all en s' evs) as [d r] eqn:E. assert (done = out :: d) by congruence. subst. cbn [concat] in I. apply in_app_or in I as [I|I]; [exact (proj1 (G I))|exact (IH _ _ _ E I)].
Qed.
Lemma turn_handed en s t done o fd q p text : one_turn en s t = (done, o) -> In (HandedOver fd q p text) (concat done) -> en = true.
Proof.
  unfold one_turn. intros H I. destruct (handle_all en s (map reaped (t_children t))) as [d r] eqn:E. destruct r as [s1| |].
  - destruct (t_poll t) as [| |ready].
    + assert (done = d) by congruence. subst. exact (all_handed _ _ _ _ _ _ _ _ _ E I).
    + assert (done = d) by congruence. subst. exact (all_handed _ _ _ _ _ _ _ _ _ E I).
    + rewrite check_spec in H. destruct (poll_conns _ (a_conns s1)) as [conns out] eqn:Ep. destruct (handle_all en (mkAgent conns (a_waiting s1) (a_wait s1)) _) as [d' r'] eqn:E'.
      assert (done = d ++ out :: d') by congruence. subst. rewrite concat_app in I. apply in_app_or in I as [I|I]; [exact (all_handed _ _ _ _ _ _ _ _ _ E I)|].
      cbn [concat] in I. apply in_app_or in I as [I|I]; [|exact (all_handed _ _ _ _ _ _ _ _ _ E' I)].
      exfalso. apply (poll_handed (fun fd => t_space t && ready (Conn fd)) (a_conns s1) fd q p text). rewrite Ep. exact I.
  - assert (done = d) by congruence. subst. exact (all_handed _ _ _ _ _ _ _ _ _ E I).
  - assert (done = d) by congruence. subst. exact (all_handed _ _ _ _ _ _ _ _ _ E I).
Qed.
Lemma loop_handed en fd q p text ts : forall s term done r, loop en s term ts = (done, r) -> In (HandedOver fd q p text) (concat done) -> en = true.
Proof.
  induction ts as [|[t b] ts IH]; intros s term done r H I; cbn [loop] in H; destruct term; try (assert (done = []) by congruence; subst; destruct I).
  destruct (one_turn en s t) as [d o] eqn:E. destruct o as [s'| |].
  - destruct (loop en s' b ts) as [d' r'] eqn:E'. assert (done = d ++ d') by congruence. subst. rewrite concat_app in I. apply in_app_or in I as [I|I]; [exact (turn_handed _ _ _ _ _ _ _ _ _ E I)|exact (IH _ _ _ _ E' I)].
  - assert (done = d) by congruence. subst. exact (turn_handed _ _ _ _ _ _ _ _ _ E I).
  - assert (done = d) by congruence. subst. exact (turn_handed _ _ _ _ _ _ _ _ _ E I).
Qed.
Theorem C110_no_fork_server argv os ps e fs n term ts out : line false a_spelled argv os ps -> last_of of_fork os = Some None ->
  In out (l_done (run argv e fs n term ts)) -> forall fd q p text, ~ In (HandedOver fd q p text) out.
Proof.
  intros L N I fd q p text H. pose proof (C110_command_line argv os ps L) as C. unfold run in I. destruct (a_main argv) as [o|k]; [|destruct I].
  destruct C as (_ & _ & C). rewrite N in C. cbn [or_else] in C. destruct (e_vchan e && e_hello e); [|destruct I]. cbn [negb] in I.
  destruct (UnixSocket.get_server_socket (e_socket e) fs n (o_trigger o)); [|destruct I]. destruct (e_daemon e); [|destruct I]. cbn [negb] in I.
  destruct (loop (enabled o) start term ts) as [done r] eqn:E. cbn [l_done] in I. unfold enabled in E. rewrite C in E.
  assert (X : false = true); [|discriminate]. apply (loop_handed _ fd q p text _ _ _ _ _ E). apply in_concat. exists out. auto.
Qed.

(** ** The socket and the end *)
Lemma loop_ended en ts : forall s term done r, loop en s term ts = (done, r) -> r = Ended 0 -> term = true \/ exists t, In (t, true) ts.
Proof.
  induction ts as [|[t b] ts IH]; intros s term done r H R; cbn [loop] in H; destruct term; auto; [congruence|].
  destruct (one_turn en s t) as [d o]. destruct o as [s'| |]; [|assert (r = Ended 1) by congruence; congruence|congruence].
  destruct (loop en s' b ts) as [d' r'] eqn:E'. assert (r' = r) by congruence. subst r'. right. destruct (IH _ _ _ _ E' R) as [->|(t' & I)]; [exists t; left; reflexivity|exists t'; right; exact I].
Qed.
Lemma loop_stops en t rest ts : forall s term, loop en s term (ts ++ (t, true) :: rest) = loop en s term (ts ++ [(t, true)]) /\ snd (loop en s term (ts ++ (t, true) :: rest)) <> Running.
Proof.
  assert (T : forall s l, loop en s true l = ([], Ended 0)) by (intros s l; destruct l; reflexivity).
  induction ts as [|[t' b] ts IH]; intros s term; cbn [app loop]; destruct term; try (split; [reflexivity|discriminate]).
  - destruct (one_turn en s t) as [d o]. destruct o as [s'| |]; rewrite ?T; split; (reflexivity || discriminate).
  - destruct (one_turn en s t') as [d o]. destruct o as [s'| |]; [|split; (reflexivity || discriminate)..].
    destruct (IH s' b) as [E N]. rewrite E in N. rewrite E. split; [reflexivity|]. destruct (loop en s' b (ts ++ [(t, true)])); exact N.
Qed.
(** asked to end, it does so after the turn it is in, whatever else would come *)
Theorem C110_sigterm argv e fs n term ts t rest :
  run argv e fs n term (ts ++ (t, true) :: rest) = run argv e fs n term (ts ++ [(t, true)]) /\
  (l_end (run argv e fs n term (ts ++ [(t, true)])) = Running -> e_daemon e = false).
Proof.
  unfold run. destruct (a_main argv) as [o|k]; [|split; [reflexivity|discriminate]].
  destruct (e_vchan e && e_hello e); [|split; [reflexivity|discriminate]]. cbn [negb].
  destruct (UnixSocket.get_server_socket (e_socket e) fs n (o_trigger o)); [|split; [reflexivity|discriminate]].
  destruct (e_daemon e); [|split; reflexivity]. cbn [negb]. destruct (loop_stops (enabled o) t rest ts start term) as [E N]. rewrite E in N. rewrite E. split; [reflexivity|].
  destruct (loop (enabled o) start term (ts ++ [(t, true)])) as [d r]. cbn [snd l_end] in *. intros R. contradiction.
Qed.
Theorem C110_ends argv e fs n term ts : l_end (run argv e fs n term ts) = Ended 0 -> term = true \/ exists t, In (t, true) ts.
Proof.
  unfold run. destruct (a_main argv) as [o|k] eqn:M.
  2:{ cbn [l_end]. intros E. exfalso. assert (k = 0) by congruence. subst k. unfold a_main in M. revert M. generalize a_default.
      induction (fst (getopt false a_shorts a_longs argv)) as [|f l IH]; intros c M; cbn [options] in M; [discriminate|].
      destruct (a_option f c) as [c'|k'] eqn:O; [exact (IH c' M)|]. assert (k' = 0) by congruence. subst k'. clear - O.
      assert (X : forall o c, match a_option o c with inr z => z = 2 | inl _ => True end); [|specialize (X f c); rewrite O in X; discriminate].
      clear. intros [w v] c. unfold a_option. cbn [fst snd].
      repeat match goal with |- match (match ?x with _ => _ end) with inl _ => _ | inr _ => _ end => destruct x; try exact I; try reflexivity end. }
  destruct (e_vchan e && e_hello e); [|discriminate]. cbn [negb]. destruct (UnixSocket.get_server_socket (e_socket e) fs n (o_trigger o)); [|discriminate].
  destruct (e_daemon e); [|discriminate]. cbn [negb]. destruct (loop (enabled o) start term ts) as [d r] eqn:E. cbn [l_end]. intros R. exact (loop_ended _ _ _ _ _ _ E R).
Qed.
(** Only the name of its socket changes; it is served by this agent for as long as it runs, and when it
    says that it is ready; when it has been told to end the name is gone *)
Theorem C110_only_its_name argv os ps e fs n term ts p : line false a_spelled argv os ps ->
  let path := or_else (last_of of_socket os) "/var/run/qubes/qrexec-agent" in (String.length path <= 107)%nat ->
  l_names (run argv e fs n term ts) p <> fs p -> p = path.
Proof.
  intros L path Sh N. pose proof (C110_command_line argv os ps L) as C. unfold run in N. destruct (a_main argv) as [o|k]; [|contradiction N; reflexivity].
  destruct C as (_ & C & _). fold path in C. destruct (e_vchan e && e_hello e); [|contradiction N; reflexivity]. cbn [negb] in N.
  assert (U : forall f, UnixSocket.unlink f (o_trigger o) p <> f p -> p = path).
  { intros f H. destruct (String.string_dec p path) as [|Np]; [assumption|]. rewrite C, Props_Socket.unlink_other in H by exact Np. contradiction. }
  destruct (UnixSocket.get_server_socket (e_socket e) fs n (o_trigger o)) as [fs1|] eqn:G; [|exact (U _ N)].
  assert (K : fs1 p <> fs p -> p = path).
  { intros H. destruct (Props_Socket.C107_only_its_name _ _ _ _ _ _ G H) as [E|[Lg _]]; [congruence|]. rewrite C in Lg. lia. }
  destruct (e_daemon e); [|exact (K N)]. cbn [negb] in N. destruct (loop _ _ _ _) as [d r]. cbn [l_names] in N.
  assert (D : UnixSocket.unlink fs1 (o_trigger o) p <> fs p -> p = path).
  { intros H. destruct (String.string_dec p path) as [|Np]; [assumption|]. rewrite C, Props_Socket.unlink_other in H by exact Np. exact (K H). }
  destruct r as [|[|k|k]|]; try exact (K N). exact (D N).
Qed.
Theorem C110_serves argv os ps e fs n term ts : line false a_spelled argv os ps ->
  let path := or_else (last_of of_socket os) "/var/run/qubes/qrexec-agent" in let l := run argv e fs n term ts in
  (String.length path <= 107)%nat -> fs path <> Some UnixSocket.Dir ->
  (l_end l = Running \/ l_end l = Aborted \/ l_ready l = true /\ l_end l <> Ended 0 -> SpecSocket.leads (l_names l) 0 path n) /\
  (l_end l = Ended 0 -> l_names l path = None) /\
  (l_ready l = true -> e_vchan e = true /\ e_hello e = true /\ e_daemon e = true).
Proof.
  intros L path l Sh Nd. subst l. pose proof (C110_command_line argv os ps L) as C. unfold run. destruct (a_main argv) as [o|k].
  2:{ destruct C as [-> _]. cbn [l_end l_ready l_names]. split; [intros [H|[H|[H _]]]; discriminate|split; discriminate]. }
  destruct C as (_ & C & _). fold path in C. rewrite C. destruct (e_vchan e); [|cbn [andb negb l_end l_ready l_names]; split; [intros [H|[H|[H _]]]; discriminate|split; discriminate]].
  destruct (e_hello e); [|cbn [andb negb l_end l_ready l_names]; split; [intros [H|[H|[H _]]]; discriminate|split; discriminate]]. cbn [andb negb].
  destruct (UnixSocket.get_server_socket (e_socket e) fs n path) as [fs1|] eqn:G; [|cbn [l_end l_ready l_names]; split; [intros [H|[H|[H _]]]; discriminate|split; discriminate]].
  destruct (Props_Socket.C107_serves_partial fs n path Sh Nd) as (fs' & G' & Ld & _).
  assert (Eok : e_socket e = true). { destruct (e_socket e); [reflexivity|]. unfold UnixSocket.get_server_socket in G. destruct (UnixSocket.unlink fs path _); discriminate. }
  rewrite Eok in G. assert (fs' = fs1) by congruence. subst fs'.
  destruct (e_daemon e); cbn [negb].
  2:{ cbn [l_end l_ready l_names]. split; [intros _; exact Ld|split; discriminate]. }
  destruct (loop _ _ _ _) as [d r]. cbn [l_end l_ready l_names]. split; [|split].
  - intros H. destruct r as [|[|k|k]|]; try exact Ld. destruct H as [H|[H|[_ H]]]; [discriminate|discriminate|contradiction H; reflexivity].
  - intros ->. rewrite Props_Socket.unlink_same. apply Props_Socket.leads_inv in Ld as [[_ E]|(to & k0 & E0 & _)]; [|discriminate]. rewrite E. reflexivity.
  - auto.
Qed.
(** an agent that ends in another way leaves its name, but the next one can serve it *)
Theorem C110_next argv os ps e fs n term ts m : line false a_spelled argv os ps ->
  let path := or_else (last_of of_socket os) "/var/run/qubes/qrexec-agent" in (String.length path <= 107)%nat -> fs path <> Some UnixSocket.Dir ->
  exists fs', UnixSocket.get_server_socket true (l_names (run argv e fs n term ts)) m path = Some fs' /\ SpecSocket.leads fs' 0 path m.
Proof.
  intros L path Sh Nd. assert (Nd' : l_names (run argv e fs n term ts) path <> Some UnixSocket.Dir).
  { pose proof (C110_command_line argv os ps L) as C. unfold run. destruct (a_main argv) as [o|k]; [|exact Nd].
    destruct C as (_ & C & _). fold path in C. rewrite C. destruct (e_vchan e && e_hello e); [|exact Nd]. cbn [negb].
    assert (U : forall f, f path <> Some UnixSocket.Dir -> UnixSocket.unlink f path path <> Some UnixSocket.Dir).
    { intros f H. rewrite Props_Socket.unlink_same. destruct (f path) as [[]|]; congruence. }
    destruct (UnixSocket.get_server_socket (e_socket e) fs n path) as [fs1|] eqn:G; [|apply U; exact Nd].
    assert (N1 : fs1 path <> Some UnixSocket.Dir).
    { assert (Eok : e_socket e = true). { destruct (e_socket e); [reflexivity|]. unfold UnixSocket.get_server_socket in G. destruct (UnixSocket.unlink fs path _); discriminate. }
      rewrite Eok in G. destruct (Props_Socket.C107_serves_partial fs n path Sh Nd) as (fs' & G' & Ld & _). assert (fs' = fs1) by congruence. subst fs'.
      apply Props_Socket.leads_inv in Ld as [[_ E]|(to & k0 & E0 & _)]; [|discriminate]. rewrite E. discriminate. }
    destruct (e_daemon e); [|exact N1]. cbn [negb]. destruct (loop _ _ _ _) as [d r]. cbn [l_names]. destruct r as [|[|k|k]|]; try exact N1. apply U. exact N1. }
  destruct (Props_Socket.C107_serves_partial _ m path Sh Nd') as (fs' & G & Ld & _). exists fs'. auto.
Qed.

(** ** What it does in between, and with which status it ends *)
Theorem C110_handlers argv os ps e fs n term ts : line false a_spelled argv os ps -> ~ In AHelp os ->
  let path := or_else (last_of of_socket os) "/var/run/qubes/qrexec-agent" in (String.length path <= 107)%nat -> fs path <> Some UnixSocket.Dir ->
  e_vchan e = true -> e_hello e = true -> e_socket e = true -> e_daemon e = true ->
  (l_done (run argv e fs n term ts), l_end (run argv e fs n term ts)) =
    loop (match last_of of_fork os with Some None => false | _ => true end) start term ts.
Proof.
  intros L Nh path Sh Nd Ev Eh Es Ed. pose proof (C110_command_line argv os ps L) as C. unfold run. destruct (a_main argv) as [o|k]; [|destruct C; contradiction].
  destruct C as (_ & C & F). fold path in C. rewrite C, Ev, Eh, Es. cbn [andb negb]. destruct (Props_Socket.C107_serves_partial fs n path Sh Nd) as (fs' & -> & _). rewrite Ed. cbn [negb].
  assert (X : enabled o = match last_of of_fork os with Some None => false | _ => true end).
  { unfold enabled. rewrite F. destruct (last_of of_fork os) as [[t|]|]; reflexivity. }
  rewrite X. destruct (loop _ start term ts) as [d r]. reflexivity.
Qed.
Lemma loop_status en ts : forall s term done k, loop en s term ts = (done, Ended k) -> k = 0 \/ k = 1.
Proof.
  induction ts as [|[t b] ts IH]; intros s term done k H; cbn [loop] in H; destruct term; try (assert (k = 0) by congruence; auto).
  destruct (one_turn en s t) as [d o]. destruct o as [s'| |]; [|assert (k = 1) by congruence; auto|congruence].
  destruct (loop en s' b ts) as [d' r'] eqn:E'. assert (r' = Ended k) by congruence. subst r'. exact (IH _ _ _ _ E').
Qed.
Theorem C110_statuses argv os ps e fs n term ts k : line false a_spelled argv os ps -> l_end (run argv e fs n term ts) = Ended k ->
  (k = 2 <-> In AHelp os) /\ (k = 0 \/ k = 1 \/ k = 2) /\ (e_vchan e && e_hello e && e_socket e = false -> k <> 0).
Proof.
  intros L. pose proof (C110_command_line argv os ps L) as C. unfold run. destruct (a_main argv) as [o|k'].
  2:{ destruct C as [-> I]. cbn [l_end]. intros H. assert (k = 2) by congruence. subst k. split; [tauto|]. split; [auto|discriminate]. }
  destruct C as (Nh & _). destruct (e_vchan e && e_hello e) eqn:V; cbn [negb andb].
  2:{ cbn [l_end]. intros H. assert (k = 1) by congruence. subst k. split; [split; [discriminate|contradiction]|]. split; [auto|discriminate]. }
  destruct (UnixSocket.get_server_socket (e_socket e) fs n (o_trigger o)) as [fs1|] eqn:G.
  2:{ cbn [l_end]. intros H. assert (k = 1) by congruence. subst k. split; [split; [discriminate|contradiction]|]. split; [auto|discriminate]. }
  assert (Eok : e_socket e = true). { destruct (e_socket e); [reflexivity|]. unfold UnixSocket.get_server_socket in G. destruct (UnixSocket.unlink fs (o_trigger o) _); discriminate. }
  rewrite Eok. destruct (e_daemon e); cbn [negb]; [|discriminate]. destruct (loop _ _ _ _) as [d r] eqn:E. cbn [l_end]. intros ->.
  apply loop_status in E as [-> | ->]; (split; [split; [discriminate|contradiction]|]; split; [auto|discriminate]).
Qed.
(** an agent whose turn ends it (the vchan is broken, a message that it does not know) ends with status 1 *)
Theorem C110_broken argv e fs n t b ts done : (exists o, a_main argv = inl o /\ one_turn (enabled o) start t = (done, Exits)) ->
  l_end (run argv e fs n false ((t, b) :: ts)) = Ended 1 \/ e_daemon e = false.
Proof.
  intros (o & M & T). unfold run. rewrite M. destruct (e_vchan e && e_hello e); [|left; reflexivity]. cbn [negb].
  destruct (UnixSocket.get_server_socket (e_socket e) fs n (o_trigger o)); [|left; reflexivity]. destruct (e_daemon e); [|right; reflexivity]. cbn [negb loop]. rewrite T. left. reflexivity.
Qed.

(** ** Examples *)
Definition ex_argv : list string := ["--agent-socket=/tmp/a"; "-s"; "/tmp/%s-server"; "ignored"; "-S"].
Example C110_line_met : line false a_spelled ex_argv [ASocket "/tmp/a"; AFork "/tmp/%s-server"; ANoFork] ["ignored"].
Proof.
  apply (ln_option _ _ (ASocket "/tmp/a") ["--agent-socket=/tmp/a"]); [apply (vw_equals _ _ _ "agent-socket"); reflexivity|].
  apply (ln_option _ _ (AFork "/tmp/%s-server") ["-s"; "/tmp/%s-server"]); [apply (vw_short _ _ _ "s"); reflexivity|].
  apply ln_free; [reflexivity|right; intros r H; discriminate|].
  apply (ln_option _ _ ANoFork ["-S"]); [apply (fw_short _ _ "S"); reflexivity|]. constructor.
Qed.
Definition ex_environ := mkEnviron true true true true true.
Definition ex_idle : turn := mkTurn [] true Interrupted [] (0%nat, 0, 0, "").
Example C110_serves_met : let l := run ex_argv ex_environ (fun _ => None) 7 false [(ex_idle, false)] in
  l_end l = Running /\ l_ready l = true /\ l_names l "/tmp/a" = Some (UnixSocket.Socket 7).
Proof. unfold run. destruct (a_main ex_argv) eqn:E; vm_compute in E; [|discriminate]. assert (a = mkA "/tmp/a" None) by congruence. subst a. split; [|split]; reflexivity. Qed.
Example C110_ends_met : let l := run ex_argv ex_environ (fun _ => None) 7 false [(ex_idle, false); (ex_idle, true)] in
  l_end l = Ended 0 /\ l_names l "/tmp/a" = None.
Proof. unfold run. destruct (a_main ex_argv) eqn:E; vm_compute in E; [|discriminate]. assert (a = mkA "/tmp/a" None) by congruence. subst a. split; reflexivity. Qed.
Example C110_format_met : stands_for "/tmp/%s-%%" "joe" "/tmp/joe-%" /\ format "/tmp/%s/%s" (Some "joe") = None /\ format "" (Some "joe") = Some "".
Proof. split; [apply C110_format; reflexivity|split; reflexivity]. Qed.
(** "set empty to disable": *)
Theorem C110_empty fs u : fork_server (Some "") fs u = None /\ fork_server None fs u = None.
Proof. split; reflexivity. Qed.
