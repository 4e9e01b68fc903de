(** C86: the policy graph shows what the policy lets through. *)
From Coq Require Import String Ascii List Bool Arith Permutation.
From Verif Require Import Base SysInfo Token Rule Policy Graph SpecPolicy SpecGraph SelectProofs EvalProofs LoadAll GraphProofs Props_Policy.
From Verif Require EvalSvc.
Import ListNotations.
Open Scope string_scope.
Open Scope list_scope.

Lemma names_In i s : In s (domain_names i) <-> is_name i s.
Proof.
  unfold domain_names, is_name, exists_qube. rewrite filter_In, negb_true_iff. split; intros [A B]; split; auto.
  - apply in_map_iff in A as ([k d] & <- & H). cbn. clear B.
    induction i as [|[k' d'] i IH]; [destruct H|]. cbn. destruct (String.eqb_spec k k') as [->|N]; [eauto|].
    destruct H as [[= -> ->]|H]; [congruence|]. exact (IH H).
  - destruct A as [d A]. apply dget_In in A. apply in_map_iff. exists (s, d). auto.
Qed.
Lemma targets_In i t : NoDup (map fst i) -> In t (graph_targets i) <-> call_text i t.
Proof.
  intros Nd. unfold graph_targets. rewrite !in_app_iff, names_In, in_map_iff. split.
  - intros [H|[[<-|[]]|[(x & <- & H)|[<-|[]]]]]; try (constructor; auto; fail).
    unfold template_names in H. apply in_map_iff in H as ([k d] & <- & H). apply filter_In in H as [H1 H2].
    cbn [fst snd] in *. apply andb_true_iff in H2 as [H2 H3]. apply negb_true_iff in H2.
    apply (cx_tmpl i k d); auto. apply In_dget; auto.
  - intros [s H| | |s d D T U]; [left; exact H|right; left; left; reflexivity|right; right; right; left; reflexivity|].
    right. right. left. exists s. split; [reflexivity|]. apply in_map_iff. exists (s, d). split; [reflexivity|].
    apply filter_In. split; [apply dget_In; exact D|]. cbn. rewrite U, T. reflexivity.
Qed.
Lemma sources_In i a s : In s (graph_sources i a) <-> (g_sources a = [] /\ is_name i s \/ In s (g_sources a)).
Proof.
  unfold graph_sources. destruct (g_sources a) as [|x l] eqn:E.
  - rewrite names_In. cbn. tauto.
  - split; [auto|]. intros [[K _]|K]; [discriminate|exact K].
Qed.

(** the parts of the program's output, by combination *)
Definition wild (r : rule) : bool := match r_service r with None => true | Some _ => false end.
Lemma main_parts i color a rules out : graph_main i color a rules = Ok out ->
  (forall p s t, In p (graph_services a rules) -> skip_service a p = Ok false -> In s (graph_sources i a) -> In t (graph_targets i) ->
     exists ls, combination i color a rules p s t = Ok ls /\ incl ls out) /\
  (forall p, In p (graph_services a rules) -> exists b, skip_service a p = Ok b) /\
  (forall l, In l out -> l = "digraph g {" +++ nl \/ l = "}" +++ nl \/
     exists p s t ls, In p (graph_services a rules) /\ skip_service a p = Ok false /\ In s (graph_sources i a) /\
       In t (graph_targets i) /\ combination i color a rules p s t = Ok ls /\ In l ls).
Proof.
  unfold graph_main. destruct (each _ _) as [lines|] eqn:E; [|discriminate]. cbn [bind]. intros [= <-].
  apply each_In in E as [E1 E2].
  assert (Srt : forall p, In p (graph_services a rules) <-> In p (sort_by pair_leb (graph_services a rules))).
  { intros p. split; apply Permutation_in; [|apply Permutation_sym]; apply sort_perm. }
  assert (Inc : incl lines (("digraph g {" +++ nl) :: once [] lines ++ ["}" +++ nl])).
  { intros x Hx. right. apply in_or_app. left. apply once_In. split; [exact Hx|intros []]. }
  split; [|split].
  - intros p s t Hp Sk Hs Ht. apply Srt in Hp. destruct (E1 p Hp) as (ys & G & I). rewrite Sk in G. cbn [bind] in G.
    apply each_In in G as [G1 _]. destruct (G1 s Hs) as (zs & G & I2). apply each_In in G as [G3 _].
    destruct (G3 t Ht) as (ls & C & I3). exists ls. split; [exact C|].
    intros x Hx. apply Inc, I, I2, I3, Hx.
  - intros p Hp. apply Srt in Hp. destruct (E1 p Hp) as (ys & G & _). destruct (skip_service a p) as [b|]; [eauto|discriminate].
  - intros l [<-|Hl]; [auto|]. apply in_app_or in Hl as [Hl|[<-|[]]]; [|auto]. right. right.
    apply once_In in Hl as [Hl _]. apply E2 in Hl as (p & ys & Hp & G & Hl). apply Srt in Hp.
    destruct (skip_service a p) as [[|]|] eqn:Sk; cbn [bind] in G; try discriminate; [injection G as <-; destruct Hl|].
    apply each_In in G as [_ G]. destruct (G l Hl) as (s & zs & Hs & G' & Hl'). apply each_In in G' as [_ G'].
    destruct (G' l Hl') as (t & ls & Ht & C & H). exists p, s, t, ls. auto 10.
Qed.

Lemma line_text i color a r sv s q x ls :
  handle_single_action i color a (mkAct r sv s (tok_str (q_target q)) x) = Ok ls ->
  (g_targets a = [] \/ In (destination r q) (g_targets a)) ->
  match edge_text a (match sv with Some n => n | None => "None" end) s r q x with Some l => In l ls | None => True end.
Proof.
  unfold handle_single_action. cbn [ga_source ga_res ga_rule ga_target ga_service].
  assert (Hd : shown_target (mkAct r sv s (tok_str (q_target q)) x) = destination r q).
  { unfold shown_target, destination, sent_to. cbn [ga_rule ga_target]. destruct (action_target (r_action r)); reflexivity. }
  rewrite Hd. intros H T.
  assert (F : match g_targets a with [] => false | l => negb (smem (destination r q) l) end = false).
  { destruct T as [->|T]; [reflexivity|]. destruct (g_targets a); [destruct T|]. apply negb_false_iff, smem_In. exact T. }
  rewrite F in H. destruct (node_line i color s) as [n1|]; [|discriminate]. destruct (node_line i color (destination r q)) as [n2|]; [|discriminate].
  cbn [bind] in H. unfold edge_text, service_label in *. cbn [ga_rule ga_service] in H. unfold py_opt in H.
  destruct (g_full a).
  - injection H as <-. right. right. left. unfold edge_line, edge, quote, q1, color_of, is_ask.
    destruct (g_skip a), x, (r_arg r), sv; rewrite ?app_nil_s; reflexivity.
  - unfold is_ask in H. destruct x as [y|k].
    + injection H as <-. right. right. left. unfold edge_line, edge, quote, q1. destruct (g_skip a), (r_arg r); reflexivity.
    + destruct (g_ask a); [|exact I]. injection H as <-. right. right. left. unfold edge_line, edge, quote, q1.
      destruct (g_skip a), (r_arg r); reflexivity.
Qed.
Lemma text_line i color a r sv s q x ls l :
  handle_single_action i color a (mkAct r sv s (tok_str (q_target q)) x) = Ok ls -> In l ls ->
  (exists n, node_line i color n = Ok l) \/
  (edge_text a (match sv with Some n => n | None => "None" end) s r q x = Some l /\
   (g_targets a = [] \/ In (destination r q) (g_targets a))).
Proof.
  unfold handle_single_action. cbn [ga_source ga_res ga_rule ga_target ga_service].
  assert (Hd : shown_target (mkAct r sv s (tok_str (q_target q)) x) = destination r q).
  { unfold shown_target, destination, sent_to. cbn [ga_rule ga_target]. destruct (action_target (r_action r)); reflexivity. }
  rewrite Hd. intros H Hl.
  destruct (match g_targets a with [] => false | l => negb (smem (destination r q) l) end) eqn:F; [injection H as <-; destruct Hl|].
  assert (T : g_targets a = [] \/ In (destination r q) (g_targets a)).
  { destruct (g_targets a); [auto|]. right. apply negb_false_iff, smem_In in F. exact F. }
  destruct (node_line i color s) as [n1|] eqn:N1; [|discriminate].
  destruct (node_line i color (destination r q)) as [n2|] eqn:N2; [|discriminate].
  cbn [bind] in H. unfold edge_text, service_label in *. cbn [ga_rule ga_service] in H. unfold py_opt in H.
  destruct (g_full a).
  - injection H as <-. destruct Hl as [<-|[<-|[<-|[]]]]; eauto. right. split; [|exact T].
    unfold edge_line, edge, quote, q1, color_of, is_ask.
    destruct (g_skip a), x, (r_arg r), sv; rewrite ?app_nil_s; reflexivity.
  - unfold is_ask in H. destruct x as [y|k].
    + injection H as <-. destruct Hl as [<-|[<-|[<-|[]]]]; eauto. right. split; [|exact T].
      unfold edge_line, edge, quote, q1. destruct (g_skip a), (r_arg r); reflexivity.
    + destruct (g_ask a); [|injection H as <-; destruct Hl]. injection H as <-. destruct Hl as [<-|[<-|[<-|[]]]]; eauto.
      right. split; [|exact T]. unfold edge_line, edge, quote, q1. destruct (g_skip a), (r_arg r); reflexivity.
Qed.

Lemma node_line_text i color n l : node_line i color n = Ok l -> node_text i color n l.
Proof.
  unfold node_line, node_text. destruct (starts "@" n) eqn:S; [intros [= <-]; left; auto|]. destruct (dget i n); [|discriminate].
  intros H. assert (l = "  " +++ quote +++ n +++ quote +++ " [color = " +++ quote +++ color n +++ quote +++ ", penwidth = 3];" +++ nl) as -> by congruence.
  right. split; [reflexivity|]. split; [discriminate|reflexivity].
Qed.

(** ** Everything shown is let through *)

(** An edge with the name of a service: the service is called with some argument. An edge
    with the name None: so is every service that no rule mentions. *)
Theorem C86_sound i color a rules out l :
  NoDup (map fst i) -> Forall wf_cols rules ->
  graph_main i color a rules = Ok out -> In l out ->
  l = "digraph g {" +++ nl \/ l = "}" +++ nl \/ (exists n, node_text i color n l) \/
  exists name s t q r x,
    edge_text a name s r q x = Some l /\ call_text i t /\
    (g_sources a = [] /\ is_name i s \/ In s (g_sources a)) /\
    (g_targets a = [] \/ In (destination r q) (g_targets a)) /\
    ((exists ar, make_request i name ar s t "" = Ok q /\ verdict rules q r x /\
        (g_services a = [] \/ In name (g_services a) \/ In (name +++ ar) (g_services a))) \/
     (name = "None" /\ g_services a = [] /\ forall sv ar, starts "+" ar = true -> (forall r, In r rules -> r_service r <> Some sv) ->
        exists q', make_request i sv ar s t "" = Ok q' /\ verdict rules q' r x /\ destination r q' = destination r q)).
Proof.
  intros Nd Wf M Hl. destruct (main_parts _ _ _ _ _ M) as (_ & _ & P). destruct (P l Hl) as [->|[->|H]]; auto. right. right.
  destruct H as (p & s & t & ls & Hp & Sk & Hs & Ht & C & HL). unfold combination in C.
  destruct (graph_request i rules p s t) as [x|e] eqn:G;
    [|destruct (is_access_denied e); [injection C as <-; destruct HL|discriminate]].
  unfold graph_request in G.
  set (rs := match fst p with None => filter _ rules | Some _ => rules end) in G.
  destruct (make_request _ _ _ s t "") as [q|] eqn:Q; [|discriminate]. cbn [bind] in G.
  destruct (find_matching_rule rs q) as [r|] eqn:F; [|discriminate]. cbn [bind] in G.
  destruct (action_evaluate rs r q) as [res|] eqn:E; [|discriminate]. cbn [bind] in G. injection G as <-.
  destruct (make_request_parts _ _ _ _ _ _ Q) as (Pl & Qi & Qs & Qa & Qsrc & Other). rewrite Qsrc in C.
  destruct (text_line _ _ _ _ _ _ _ _ _ _ C HL) as [[n K]|[K T]]; [left; exists n; apply node_line_text; exact K|]. right.
  exists (match fst p with Some n => n | None => "None" end), s, t, q, r, res.
  split; [exact K|]. split; [apply targets_In; assumption|]. split; [apply sources_In; exact Hs|]. split; [exact T|].
  destruct p as [[sv|] ar]; cbn [fst snd] in *.
  - left. eexists. split; [exact Q|]. split; [split; [exact F|]; unfold evaluate; subst rs; rewrite F; exact E|].
    unfold skip_service in Sk. cbn [fst snd] in Sk. destruct (g_services a) as [|s1 l1]; [left; reflexivity|]. right.
    assert (Sk' : negb (smem sv (s1 :: l1)) && negb (smem (sv +++ match ar with Some x => x | None => "" end) (s1 :: l1)) = false) by congruence.
    apply andb_false_iff in Sk' as [Sk'|Sk']; apply negb_false_iff, smem_In in Sk'; [left; exact Sk'|].
    destruct ar as [ar|]; [|left; rewrite app_nil_s in Sk'; exact Sk'].
    destruct (String.eqb_spec ar "") as [->|]; [left; rewrite app_nil_s in Sk'; exact Sk'|right; exact Sk'].
  - right. split; [reflexivity|]. split; [unfold skip_service in Sk; cbn [fst] in Sk; destruct (g_services a); [reflexivity|discriminate]|]. intros sv ar' P' Nm. destruct (Other sv ar' P') as (q' & Q' & Same & S' & A').
    exists q'. split; [exact Q'|].
    assert (Nf : forall r, In r rules -> wild r = false -> is_match_but_target r q' = Ok false).
    { intros y Hy W. apply no_service. unfold wild in W. destruct (r_service y) as [z|] eqn:Ez; [|discriminate].
      cbn. rewrite S'. apply String.eqb_neq. intros ->. exact (Nm y Hy Ez). }
    destruct (evaluate_filter wild q' rules Nf) as [Ef1 Ef2]. fold wild in rs.
    assert (Ag : forall r, In r rs -> is_match_but_target r q = is_match_but_target r q').
    { intros y Hy. subst rs. apply filter_In in Hy as [Hy W]. rewrite Forall_forall in Wf. destruct (Wf y Hy) as [W1 _].
      unfold wild in W. destruct (r_service y) eqn:Ey; [discriminate|]. apply match_cols; [exact Same|rewrite Ey; reflexivity|].
      rewrite (W1 eq_refl). reflexivity. }
    destruct (evaluate_same q q' rs Same Ag) as [Es1 Es2].
    assert (Hr : In r rs) by (apply find_In in F; exact F).
    assert (F' : find_matching_rule rules q' = Ok r) by (rewrite <- Ef1; change (filter wild rules) with rs; rewrite <- Es1; exact F).
    split; [|unfold destination, sent_to; destruct Same as (_ & _ & ->); reflexivity].
    split; [exact F'|]. unfold evaluate. rewrite F'. cbn [bind]. rewrite <- Ef2. change (filter wild rules) with rs. rewrite <- (Es2 r Hr). exact E.
Qed.

(** ** Everything let through is shown *)

(** A call of any service with any argument that the policy lets through is in the graph,
    under the name of the service or, if a rule for all services lets it through, perhaps as None. The
    exception: an argument that the rules do not mention, of a service with a rule for the
    empty argument (C86_empty_argument_refuted). *)
Theorem C86_complete_partial i color a rules out sv ar s t q r x :
  NoDup (map fst i) -> Forall wf_cols rules ->
  graph_main i color a rules = Ok out ->
  make_request i sv ar s t "" = Ok q -> verdict rules q r x ->
  call_text i t -> (g_sources a = [] /\ is_name i s \/ In s (g_sources a)) ->
  (g_targets a = [] \/ In (destination r q) (g_targets a)) ->
  ((g_services a = [] \/ In sv (g_services a)) /\ (mentions rules (Some sv) (Some ar) \/ ~ mentions rules (Some sv) (Some "+")) \/
   In (sv +++ ar) (g_services a) /\ has_char "+" sv = false) ->
  exists name, (name = sv \/ name = "None" /\ r_service r = None) /\
    match edge_text a name s r q x with Some l => In l out | None => True end.
Proof.
  intros Nd Wf M Q [F E] Ht Hs T SvMen.
  destruct (main_parts _ _ _ _ _ M) as (P & Sk & _).
  destruct (make_request_parts _ _ _ _ _ _ Q) as (Pl & Qi & Qs & Qa & Qsrc & Other).
  unfold evaluate in E. rewrite F in E. cbn [bind] in E.
  apply (targets_In i t Nd) in Ht. apply sources_In in Hs.
  rewrite Forall_forall in Wf.
  (* a combination with the same outcome *)
  assert (Via : forall p q2, In p (graph_services a rules) -> skip_service a p = Ok false ->
    make_request i (match fst p with Some s => s | None => "" end)
      (match snd p with Some s => if String.eqb s "" then "+" else s | None => "+" end) s t "" = Ok q2 ->
    same_call q q2 -> q_source q2 = s ->
    find_matching_rule (match fst p with None => filter wild rules | Some _ => rules end) q2 = Ok r ->
    action_evaluate (match fst p with None => filter wild rules | Some _ => rules end) r q2 = Ok x ->
    match edge_text a (match fst p with Some n => n | None => "None" end) s r q x with Some l => In l out | None => True end).
  { intros p q2 Hp Hk Q2 Same S2 F2 E2. destruct (P p s t Hp Hk Hs Ht) as (ls & C & Inc). unfold combination, graph_request in C.
    change (fun r => match r_service r with None => true | Some _ => false end) with wild in C.
    rewrite Q2 in C. cbn [bind] in C. rewrite F2 in C. cbn [bind] in C. rewrite E2 in C. cbn [bind] in C. rewrite S2 in C.
    assert (Hq : destination r q2 = destination r q) by (unfold destination, sent_to; destruct Same as (_ & _ & ->); reflexivity).
    pose proof (line_text _ _ _ _ _ _ q2 _ _ C) as L. rewrite Hq in L. specialize (L T).
    unfold edge_text in L |- *. rewrite Hq in L. destruct (fst p), (g_full a), x, (g_ask a); auto. }
  destruct SvMen as [[Sv Men]|[Sv Nplus]].
  2:{ (* the call is named *)
    exists sv. split; [auto|]. pose proof Pl as Pa. destruct ar as [|c ar]; [discriminate|].
    assert (c = "+"%char) by (cbn [starts] in Pa; rewrite andb_true_r in Pa; apply Ascii.eqb_eq in Pa; congruence). subst c.
    assert (Hp : In (Some sv, Some (String "+" ar)) (graph_services a rules)).
    { apply nodup_In, in_or_app. right. apply in_map_iff. exists (sv +++ String "+" ar). split; [|exact Sv]. unfold named_service.
      rewrite EvalSvc.split1_some by exact Nplus. reflexivity. }
    assert (Hk : skip_service a (Some sv, Some (String "+" ar)) = Ok false).
    { unfold skip_service. cbn [fst snd]. apply smem_In in Sv. destruct (g_services a); [reflexivity|]. rewrite Sv. cbn [negb]. rewrite andb_false_r. reflexivity. }
    apply (Via (Some sv, Some (String "+" ar)) q Hp Hk); cbn [fst snd]; auto.
    split; [|split]; reflexivity. }
  assert (Named : forall arg, In (Some sv, arg) (graph_services a rules) -> skip_service a (Some sv, arg) = Ok false).
  { intros arg _. unfold skip_service. destruct Sv as [->|Sv]; [reflexivity|]. destruct (g_services a); [destruct Sv|].
    cbn [fst]. replace (smem sv (s0 :: l)) with true; [reflexivity|]. symmetry. apply smem_In. exact Sv. }
  assert (MenIn : forall v w, mentions rules v w -> In (v, w) (graph_services a rules)).
  { intros v w (y & Hy & <- & <-). apply nodup_In, in_or_app. left. apply in_map_iff. exists y. auto. }
  destruct Men as [Men|Men].
  { (* the rules mention the argument *)
    exists sv. split; [auto|]. apply MenIn in Men.
    apply (Via (Some sv, Some ar) q Men (Named _ Men)); cbn [fst snd]; auto.
    - destruct (String.eqb_spec ar "") as [->|]; [discriminate|exact Q].
    - split; [|split]; reflexivity. }
  destruct (in_dec pair_dec (Some sv, Some ar) (map (fun r => (r_service r, r_arg r)) rules)) as [Hin|Nar].
  { exists sv. split; [auto|]. assert (Hp : In (Some sv, Some ar) (graph_services a rules)) by (apply nodup_In, in_or_app; left; exact Hin).
    apply (Via (Some sv, Some ar) q Hp (Named _ Hp)); cbn [fst snd]; auto.
    - destruct (String.eqb_spec ar "") as [->|]; [discriminate|exact Q].
    - split; [|split]; reflexivity. }
  assert (Nar' : forall y, In y rules -> r_service y = Some sv -> r_arg y <> Some ar).
  { intros y Hy Ys Ya. apply Nar. apply in_map_iff. exists y. rewrite Ys, Ya. auto. }
  destruct (in_dec pair_dec (Some sv, None) (graph_services a rules)) as [Hp|Nsv].
  { (* the rules mention the service without an argument *)
    exists sv. split; [auto|]. destruct (Other sv "+" eq_refl) as (q2 & Q2 & Same & S2 & A2).
    assert (Ag : forall y, In y rules -> is_match_but_target y q = is_match_but_target y q2).
    { intros y Hy. destruct (opt_match (r_service y) sv) eqn:Om.
      - destruct (r_service y) as [z|] eqn:Ez.
        + cbn in Om. apply String.eqb_eq in Om as ->. destruct (r_arg y) as [b|] eqn:Eb.
          * assert (b <> ar) by (intros ->; exact (Nar' y Hy Ez Eb)).
            assert (b <> "+") by (intros ->; apply Men; exists y; auto).
            rewrite !no_arg; auto; rewrite Eb; cbn; apply String.eqb_neq; congruence.
          * apply match_cols; auto; [congruence|rewrite Eb; reflexivity].
        + apply match_cols; auto; [rewrite Ez; reflexivity|]. destruct (Wf y Hy) as [W _]. rewrite (W Ez). reflexivity.
      - rewrite !no_service; congruence. }
    destruct (evaluate_same q q2 rules Same Ag) as [Es1 Es2].
    apply (Via (Some sv, None) q2 Hp (Named _ Hp)); cbn [fst snd]; auto.
    - destruct Same as (_ & Hsrc & _). congruence.
    - rewrite <- Es1. exact F.
    - rewrite <- Es2; [exact E|]. apply find_In in F. exact F. }
  (* otherwise the rule is one for all services *)
  assert (Nf : forall y, In y rules -> wild y = false -> is_match_but_target y q = Ok false).
  { intros y Hy W. unfold wild in W. destruct (r_service y) as [z|] eqn:Ez; [|discriminate].
    destruct (string_dec z sv) as [->|N]; [|apply no_service; rewrite Ez; cbn; apply String.eqb_neq; congruence].
    destruct (r_arg y) as [b|] eqn:Eb.
    - apply no_arg. rewrite Eb, Qa. cbn. apply String.eqb_neq. intros ->. exact (Nar' y Hy Ez Eb).
    - destruct Nsv. apply MenIn. exists y. auto. }
  destruct (evaluate_filter wild q rules Nf) as [Ef1 Ef2].
  assert (Hr : In r (filter wild rules)) by (rewrite <- Ef1 in F; apply find_In in F; exact F).
  assert (Rs : r_service r = None) by (apply filter_In in Hr as [_ W]; unfold wild in W; destruct (r_service r); [discriminate|reflexivity]).
  assert (Hrr : In r rules) by (apply filter_In in Hr; tauto).
  exists "None". split; [auto|].
  destruct (Other "" "+" eq_refl) as (q2 & Q2 & Same & S2 & A2).
  assert (Ag : forall y, In y (filter wild rules) -> is_match_but_target y q = is_match_but_target y q2).
  { intros y Hy. apply filter_In in Hy as [Hy W]. destruct (Wf y Hy) as [W1 _].
    unfold wild in W. destruct (r_service y) eqn:Ey; [discriminate|]. apply match_cols; [exact Same|rewrite Ey; reflexivity|].
    rewrite (W1 eq_refl). reflexivity. }
  destruct (evaluate_same q q2 _ Same Ag) as [Es1 Es2].
  assert (Hp : In (None, None) (graph_services a rules)) by (apply MenIn; exists r; destruct (Wf r Hrr) as [W _]; auto).
  assert (Hk : skip_service a (None, None) = Ok false).
  { destruct (Sk (None, None) Hp) as [b Hb]. unfold skip_service in *. destruct (g_services a); [reflexivity|discriminate]. }
  apply (Via (None, None) q2 Hp Hk); cbn [fst snd]; auto.
  - destruct Same as (_ & Hsrc & _). congruence.
  - rewrite <- Es1, Ef1. exact F.
  - rewrite <- Es2 by exact Hr. rewrite Ef2. exact E.
Qed.

(** ** Examples and counterexamples *)
Definition opts (full : bool) : gargs := mkArgs true [] [] [] false full.
Definition ex_color (s : string) : string := "#cc0000".
Definition shown (out : res (list string)) (l : string) : bool := match out with Ok o => smem l o | Err _ => false end.

(** the hypotheses are met, and the edge is there *)
Definition ex_graph_rules : list rule := rules_of
  ["qubes.Gpg * work vault ask default_target=vault"; "qubes.Gpg +key sys-net vault allow";
   "* * work @dispvm allow"; "* * @anyvm @anyvm deny"].
Example C86_example :
  NoDup (map fst ex_info) /\ Forall wf_cols ex_graph_rules /\
  (exists out, graph_main ex_info ex_color (opts true) ex_graph_rules = Ok out) /\
  shown (graph_main ex_info ex_color (opts true) ex_graph_rules) (edge "sys-net" "vault" "qubes.Gpg+key allow" "red") = true /\
  shown (graph_main ex_info ex_color (opts true) ex_graph_rules) (edge "work" "vault" "qubes.Gpg ask default_target=vault" "orange") = true /\
  shown (graph_main ex_info ex_color (opts false) ex_graph_rules) (edge "work" "@dispvm" "None" "red") = true /\
  shown (graph_main ex_info ex_color (opts false) ex_graph_rules) (edge "sys-net" "@dispvm" "None" "red") = false.
Proof.
  split; [vm_compute; repeat (constructor; [cbn; intuition discriminate|]); constructor|].
  split; [repeat constructor; cbn; try discriminate; intros ? [= <-]; reflexivity|].
  split; [eexists; vm_compute; reflexivity|]. repeat split; vm_compute; reflexivity.
Qed.

(** A rule for the empty argument hides what is allowed for all others: sys-net may call
    qubes.Gpg in vault with any other argument, and the graph has no edge between them *)
Definition ex_empty_rules : list rule := rules_of ["qubes.Gpg + sys-net vault deny"; "qubes.Gpg * sys-net vault allow"].
Theorem C86_empty_argument_refuted :
  (exists a, evaluate ex_empty_rules (call "qubes.Gpg+sign" "sys-net" "vault") = Ok (RAllow a)) /\
  exists out, graph_main ex_info ex_color (opts true) ex_empty_rules = Ok out /\
    forall label color, ~ In (edge "sys-net" "vault" label color) out.
Proof.
  split; [eexists; vm_compute; reflexivity|]. eexists. split; [vm_compute; reflexivity|].
  intros label color. vm_compute. intros H. repeat (destruct H as [H|H]; [discriminate|]). destruct H.
Qed.

(** A question about a qube that is not there any more: the program dies and shows nothing *)
Theorem C86_gone_qube_refuted :
  graph_main ex_info ex_color (opts true) (rules_of ["qubes.Gpg * work @default ask target=gone"; "qubes.Filecopy * work vault allow"]) = Err EKey.
Proof. vm_compute. reflexivity. Qed.
(** --service, if there is a rule for all services: the program dies *)
Theorem C86_service_option_refuted i color a rules : g_services a <> [] -> mentions rules None None ->
  exists e, graph_main i color a rules = Err e.
Proof.
  intros S (r & Hr & Rs & Ra). destruct (graph_main i color a rules) as [out|e] eqn:M; [|eauto].
  destruct (main_parts _ _ _ _ _ M) as (_ & Sk & _). destruct (Sk (None, None)) as [b Hb].
  - apply nodup_In, in_or_app. left. apply in_map_iff. exists r. rewrite Rs, Ra. auto.
  - unfold skip_service in Hb. destruct (g_services a); [congruence|discriminate].
Qed.
(** An edge from a qube to itself is shown although such a call is refused when it is executed *)
Theorem C86_loop_refuted : let rs := rules_of ["qubes.Gpg * work work allow"] in
  shown (graph_main ex_info ex_color (opts true) rs) (edge "work" "work" "qubes.Gpg allow" "red") = true /\
  exists a, evaluate rs (call "qubes.Gpg" "work" "work") = Ok (RAllow a) /\ allow_execute (call "qubes.Gpg" "work" "work") a = Err (EAccessDenied true).
Proof. cbn zeta. split; [vm_compute; reflexivity|]. eexists. split; vm_compute; reflexivity. Qed.
