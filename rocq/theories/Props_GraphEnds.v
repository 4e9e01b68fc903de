(** C86: when the policy graph cannot be drawn *)
From Coq Require Import String Ascii List Bool Arith Permutation.
From Verif Require Import Base SysInfo Token Rule Policy Graph SpecPolicy SpecGraph LoadAll SelectProofs EvalProofs GraphProofs Props_Policy Props_Graph.
Import ListNotations.
Open Scope string_scope.
Open Scope list_scope.

(** a qube that is not in the description of the system *)
Definition unknown (i : info) (n : string) : Prop := starts "@" n = false /\ dget i n = None.

Lemma each_err {A B} (g : A -> res (list B)) : forall l e, each g l = Err e -> exists x, In x l /\ g x = Err e.
Proof.
  induction l as [|x l IH]; intros e H; [discriminate|]. cbn [each] in H. destruct (g x) as [a|e'] eqn:G.
  - cbn [bind] in H. destruct (each g l) as [b|e'] eqn:R; [discriminate|]. cbn [bind] in H. destruct (IH e) as (y & Hy & Gy); [congruence|]. exists y. split; [right; exact Hy|exact Gy].
  - cbn [bind] in H. exists x. split; [left; reflexivity|congruence].
Qed.
Lemma node_err i color n e : node_line i color n = Err e -> unknown i n.
Proof.
  unfold node_line, unknown. destruct (starts "@" n); [discriminate|]. destruct (dget i n); [discriminate|]. auto.
Qed.
(** The program ends with an error only if --service is given and there is a rule for all
    services (C86_service_option_refuted), or one of the calls it looks at cannot be evaluated,
    or would come from or go to a qube that does not exist (C86_gone_qube_refuted). *)
Theorem C86_fails i color a rules e : NoDup (map fst i) -> Forall wf_cols rules -> graph_main i color a rules = Err e ->
  (g_services a <> [] /\ mentions rules None None) \/
  exists sv ar s t, starts "+" ar = true /\ call_text i t /\ (g_sources a = [] /\ is_name i s \/ In s (g_sources a)) /\
    is_access_denied e = false /\
    (make_request i sv ar s t "" = Err e \/
     exists rs q, (rs = rules \/ rs = filter (fun r => match r_service r with None => true | Some _ => false end) rules) /\
       make_request i sv ar s t "" = Ok q /\
       (evaluate rs q = Err e \/ exists r x, verdict rs q r x /\ (unknown i s \/ unknown i (destination r q)))).
Proof.
  intros Nd Wf H. unfold graph_main in H. destruct (each _ _) as [lines|e'] eqn:E; [discriminate|]. cbn [bind] in H. assert (e' = e) by congruence. subst e'. clear H.
  apply each_err in E as (p & Hp & G). apply (Permutation_in p (l' := graph_services a rules)) in Hp; [|apply Permutation_sym, sort_perm || apply sort_perm].
  unfold graph_services in Hp. apply nodup_In in Hp. apply in_app_or in Hp.
  assert (Plus : forall x, snd p = Some x -> starts "+" x = true).
  { intros x Ex. destruct Hp as [Hp|Hp]; apply in_map_iff in Hp as (y & <- & Hy); cbn [snd] in Ex.
    - rewrite Forall_forall in Wf. destruct (Wf y Hy) as [_ W]. apply W, Ex.
    - unfold named_service in Ex. destruct (split1 "+" y) as [[sv ar]|]; [|discriminate]. cbn [snd] in Ex. assert (x = "+" +++ ar) by congruence. subst x. reflexivity. }
  assert (Srv : fst p = None -> mentions rules None None).
  { intros Ex. destruct Hp as [Hp|Hp]; apply in_map_iff in Hp as (y & <- & Hy); cbn [fst] in Ex.
    - exists y. split; [exact Hy|]. split; [exact Ex|]. rewrite Forall_forall in Wf. destruct (Wf y Hy) as [W _]. apply W, Ex.
    - unfold named_service in Ex. destruct (split1 "+" y) as [[sv ar]|]; discriminate. }
  clear Hp. destruct (skip_service a p) as [b|e'] eqn:Sk.
  2: { left. unfold skip_service in Sk. destruct (g_services a) as [|s1 l1]; [discriminate|]. split; [discriminate|]. destruct (fst p); [discriminate|]. apply Srv. reflexivity. }
  cbn [bind] in G. destruct b; [discriminate|]. right. apply each_err in G as (s & Hs & G). apply each_err in G as (t & Ht & G).
  apply (targets_In i t Nd) in Ht. apply sources_In in Hs.
  unfold combination in G. exists (match fst p with Some s => s | None => "" end), (match snd p with Some s => if String.eqb s "" then "+" else s | None => "+" end), s, t.
  split. { destruct (snd p) as [x|]; [|reflexivity]. destruct (String.eqb_spec x ""); [reflexivity|]. apply Plus. reflexivity. }
  split; [exact Ht|]. split; [exact Hs|]. unfold graph_request in G.
  set (rs := match fst p with None => _ | Some _ => rules end) in G.
  assert (Rs : rs = rules \/ rs = filter (fun r => match r_service r with None => true | Some _ => false end) rules) by (subst rs; destruct (fst p); auto). clearbody rs.
  destruct (make_request i _ _ s t "") as [q|e'] eqn:Q.
  - cbn [bind] in G. destruct (make_request_parts _ _ _ _ _ _ Q) as (_ & _ & _ & _ & Qsrc & _). rewrite Qsrc in G. destruct (find_matching_rule rs q) as [r|e'] eqn:F; cbn [bind] in G.
    + destruct (action_evaluate rs r q) as [x|e'] eqn:A; cbn [bind] in G.
      * unfold handle_single_action in G. cbn [ga_source ga_res ga_rule ga_target ga_service] in G.
        assert (Hd : shown_target (mkAct r (fst p) s (tok_str (q_target q)) x) = destination r q).
        { unfold shown_target, destination, sent_to. cbn [ga_rule ga_target]. destruct (action_target (r_action r)); reflexivity. }
        rewrite Hd in G. destruct (match g_targets a with [] => false | l => negb (smem (destination r q) l) end); [discriminate|].
        assert (V : verdict rs q r x) by (split; [exact F|unfold evaluate; rewrite F; exact A]).
        assert (K : forall n e', node_line i color n = Err e' -> is_access_denied e' = false).
        { intros n e'. unfold node_line. destruct (starts "@" n); [discriminate|]. destruct (dget i n); [discriminate|]. intros B. assert (e' = EKey) by congruence. subst. reflexivity. }
        destruct (node_line i color s) as [n1|e1] eqn:N1; cbn [bind] in G.
        -- destruct (node_line i color (destination r q)) as [n2|e2] eqn:N2; cbn [bind] in G.
           ++ destruct (g_full a); [discriminate|]. destruct (is_ask x); [destruct (g_ask a); discriminate|discriminate].
           ++ assert (e2 = e) by congruence. subst e2. split; [exact (K _ _ N2)|]. right. exists rs, q. split; [exact Rs|]. split; [reflexivity|]. right. exists r, x. split; [exact V|]. right. exact (node_err _ _ _ _ N2).
        -- assert (e1 = e) by congruence. subst e1. split; [exact (K _ _ N1)|]. right. exists rs, q. split; [exact Rs|]. split; [reflexivity|]. right. exists r, x. split; [exact V|]. left. exact (node_err _ _ _ _ N1).
      * destruct (is_access_denied e') eqn:D; [discriminate|]. assert (e' = e) by congruence. subst e'. split; [exact D|]. right. exists rs, q. split; [exact Rs|]. split; [reflexivity|]. left. unfold evaluate. rewrite F. exact A.
    + destruct (is_access_denied e') eqn:D; [discriminate|]. assert (e' = e) by congruence. subst e'. split; [exact D|]. right. exists rs, q. split; [exact Rs|]. split; [reflexivity|]. left. unfold evaluate. rewrite F. reflexivity.
  - cbn [bind] in G. destruct (is_access_denied e') eqn:D; [discriminate|]. assert (e' = e) by congruence. subst e'. split; [exact D|]. left. reflexivity.
Qed.
(** with --service and an argument the graph is drawn *)
Example ex_C86_service_argument :
  match graph_main ex_info ex_color (mkArgs true [] [] ["qubes.Gpg+key"] false true) (rules_of ["qubes.Gpg +key sys-net vault allow"; "qubes.Gpg * work vault deny"]) with
  | Ok out => smem (edge "sys-net" "vault" "qubes.Gpg+key allow" "red") out
  | Err _ => false
  end = true.
Proof. vm_compute. reflexivity. Qed.
