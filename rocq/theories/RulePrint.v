From Coq Require Import String Ascii List Bool Arith Lia.
From Verif Require Import Base SysInfo Token Rule SpecPolicy SpecRule TokenProofs SysInfoProofs RuleProofs.
Import ListNotations.
Open Scope string_scope.
Open Scope list_scope.

(** ** Loaded rules satisfy the well-formedness used by the evaluation theorems *)
Lemma find_exact_redirect s t : find_exact CRedirect s exacts = Some t -> t = TAdmin \/ t = TDisp.
Proof.
  unfold exacts. cbn [find_exact subclass negb instantiate].
  repeat match goal with |- context [if ?b then _ else _] => destruct b end; intros H; inv H; auto.
Qed.
Lemma redirect_wf s t : token_field CRedirect s t -> wf_redirect t.
Proof.
  intros H. apply parse_token_field in H. pose proof H as H0.
  unfold parse_tok in H. destruct (String.eqb s ""); [discriminate|].
  destruct (negb _) eqn:E.
  - inv H. apply parse_tok_name in H0 as (_ & ? & ? & ?). simpl. auto.
  - destruct (find_exact CRedirect s exacts) eqn:Ex.
    + inv H. apply find_exact_redirect in Ex as [-> | ->]; simpl; auto.
    + apply find_prefix_sound in H as (_ & p & k & v & Hin & Hk & Heq & Hv & Hat & Ht); auto.
      simpl in Hin. destruct Hin as [He|[He|[He|[He|[]]]]]; inv He; simpl in Hk; try discriminate.
      simpl. auto.
Qed.

Lemma rule_fields_wf f fs r : rule_fields f fs r -> wf_rule r.
Proof.
  intros H. inv H. unfold wf_rule. simpl.
  match goal with H : action_fields _ _ _ |- _ => inv H end; auto.
  - intros x ->. match goal with H : redirect_param _ "target" _ |- _ => inv H end. eapply redirect_wf; eauto.
  - split; intros x ->.
    + match goal with H : redirect_param _ "target" _ |- _ => inv H end. eapply redirect_wf; eauto.
    + match goal with H : redirect_param _ "default_target" _ |- _ => inv H end. eapply redirect_wf; eauto.
Qed.

Theorem from_line_wf line f r : from_line line f = Ok r -> wf_rule r.
Proof. intros H. apply from_line_spec in H as (fs & _ & H). eapply rule_fields_wf; eauto. Qed.

(** ** Printing *)
Lemma split_ws_cons w c s : w <> "" -> nospace w = true -> is_space c = true ->
  split_ws (w +++ String c s) = w :: split_ws s.
Proof.
  intros Hw Hn Hc. unfold split_ws. rewrite split_ws_word by auto. simpl. rewrite Hc.
  destruct w; [congruence|reflexivity].
Qed.
Lemma split_ws_one w : w <> "" -> nospace w = true -> split_ws w = [w].
Proof.
  intros Hw Hn. rewrite <- (app_nil_s w) at 1. unfold split_ws. rewrite split_ws_word by auto. simpl.
  destruct w; [congruence|reflexivity].
Qed.

Definition default_notify (a : action) : bool := match a with Deny _ => true | _ => false end.
Definition action_autostart (a : action) : bool :=
  match a with Deny _ => true | Allow _ _ _ s => s | Ask _ _ _ _ s => s end.
Definition action_user (a : action) : option string :=
  match a with Deny _ => None | Allow _ u _ _ => u | Ask _ _ u _ _ => u end.

(** rules whose printed form says everything *)
Definition printable (r : rule) : Prop :=
  r_service r <> None /\ action_notify (r_action r) = default_notify (r_action r) /\
  action_autostart (r_action r) = true /\ action_user (r_action r) <> Some "".

Lemma nospace_app a b : nospace (a +++ b) = nospace a && nospace b.
Proof. apply sforall_app. Qed.

Lemma split_opt_part w key o rest ws :
  w <> "" -> nospace w = true -> nospace key = true -> key <> "" ->
  (forall s, o = Some s -> s <> "" /\ nospace s = true) ->
  (forall w', w' <> "" -> nospace w' = true -> split_ws (w' +++ rest) = w' :: ws) ->
  split_ws (w +++ opt_part key o +++ rest) =
    w :: (match o with Some s => [key +++ "=" +++ s] | None => [] end) ++ ws.
Proof.
  intros Hw Hn Hk Hk0 Ho Hr. unfold opt_part. destruct o as [s|].
  - destruct (Ho s eq_refl) as [Hs Hsn]. apply String.eqb_neq in Hs. rewrite Hs.
    change (" " +++ key +++ "=" +++ s) with (String " " (key +++ "=" +++ s)).
    cbn [String.append]. rewrite split_ws_cons by auto. f_equal.
    change ([key +++ "=" +++ s] ++ ws) with ((key +++ "=" +++ s) :: ws). apply Hr.
    + destruct key; [congruence|discriminate].
    + rewrite nospace_app, Hk. exact Hsn.
  - simpl. apply Hr; auto.
Qed.

Lemma nospace_param k v : nospace (k +++ "=" +++ v) = true -> nospace v = true.
Proof. rewrite !nospace_app, !andb_true_iff. tauto. Qed.

Definition printed_params (a : action) : list string :=
  let p k o := match o with Some s => [k +++ "=" +++ s] | None => [] end in
  match a with
  | Deny _ => []
  | Allow t u _ _ => p "target" (option_map tok_str t) ++ p "user" u
  | Ask t d u _ _ => p "target" (option_map tok_str t) ++ p "default_target" (option_map tok_str d) ++ p "user" u
  end.
Definition printed_act (a : action) : string :=
  match a with Deny _ => "deny" | Allow _ _ _ _ => "allow" | Ask _ _ _ _ _ => "ask" end.

Lemma allowed_nonempty c s : allowed_text c s -> s <> "".
Proof. intros H ->. apply parse_tok_complete in H as [t H]. discriminate. Qed.

Lemma redirect_text ps k t : (forall p, In p ps -> nospace p = true) -> redirect_param ps k t ->
  forall s, option_map tok_str t = Some s -> s <> "" /\ nospace s = true.
Proof.
  intros Hps H s Hs. inv H; [discriminate|]. simpl in Hs. inv Hs.
  destruct H1 as (Ha & Ht & _). rewrite Ht. split.
  - eapply allowed_nonempty; eauto.
  - eapply nospace_param. apply Hps. exact H0.
Qed.
Lemma user_text ps u : (forall p, In p ps -> nospace p = true) -> opt_param ps "user" u -> u <> Some "" ->
  forall s, u = Some s -> s <> "" /\ nospace s = true.
Proof.
  intros Hps H Hu s ->. split; [congruence|]. inv H. eapply nospace_param. apply Hps. eauto.
Qed.

Lemma action_str_words act ps a : (forall p, In p ps -> nospace p = true) ->
  action_fields act ps a -> action_user a <> Some "" ->
  split_ws (action_str a) = printed_act a :: printed_params a.
Proof.
  intros Hps H Hu. inv H; cbn [action_str printed_act printed_params].
  - reflexivity.
  - erewrite (split_opt_part "allow" "target" _ (opt_part "user" u)); try reflexivity; try discriminate.
    + eapply redirect_text; eauto.
    + intros w Hw Hn. rewrite <- (app_nil_s (opt_part "user" u)).
      rewrite (split_opt_part w "user" u "" []); try reflexivity; auto; try discriminate.
      * rewrite app_nil_r. reflexivity.
      * eapply user_text; eauto.
      * intros w' ? ?. rewrite app_nil_s. apply split_ws_one; auto.
  - erewrite (split_opt_part "ask" "target"); try reflexivity; try discriminate.
    + eapply redirect_text; eauto.
    + intros w Hw Hn.
      rewrite (split_opt_part w "default_target" _ (opt_part "user" u) (match u with Some s => ["user" +++ "=" +++ s] | None => [] end));
        try reflexivity; auto; try discriminate.
      * eapply redirect_text; eauto.
      * intros w' Hw' Hn'. rewrite <- (app_nil_s (opt_part "user" u)).
        rewrite (split_opt_part w' "user" u "" []); try reflexivity; auto; try discriminate.
        -- rewrite app_nil_r. reflexivity.
        -- eapply user_text; eauto.
        -- intros w'' ? ?. rewrite app_nil_s. apply split_ws_one; auto.
Qed.

(** the printed parameters denote the same action *)
Lemma kv_noeq_inj k v k' v' : noeq k -> noeq k' -> (k +++ "=" +++ v = k' +++ "=" +++ v') -> k = k' /\ v = v'.
Proof. apply kv_inj. Qed.

Lemma printed_collect act ps a : action_fields act ps a -> action_user a <> Some "" ->
  action_notify a = default_notify a -> action_autostart a = true ->
  action_fields (printed_act a) (printed_params a) a.
Proof.
  intros H Hu Hn Ha.
  assert (Hact : exists known, known_params (printed_act a) = Some known).
  { destruct a; eexists; reflexivity. }
  destruct Hact as [known Hk]. apply (action_spec _ _ _ _ Hk).
  assert (Hre : forall ps k t, redirect_param ps k t -> parse_redirect (option_map tok_str t) = Ok t).
  { intros ps' k t Hr. inv Hr; auto. simpl. destruct H1 as (x1 & x2 & x3).
    pose proof x2 as x2'. rewrite x2. assert (Hp : parse_tok CRedirect v = Ok t0).
    { apply parse_token_field. split; auto. }
    rewrite Hp. reflexivity. }
  assert (Hsp : forall k v, noeq k -> split1 "=" (k +++ "=" +++ v) = Some (k, v)) by (intros; apply split_eq; auto).
  inv H; simpl in Hn, Ha; subst; unfold printed_params, printed_act.
  - reflexivity.
  - apply Hre in H1. destruct t as [t|], u as [u|]; cbn [option_map app] in *;
      cbn [collect_params]; rewrite ?Hsp by reflexivity; cbn; unfold make_action; cbn; 
      try (unfold parse_redirect in H1; cbn [option_map] in H1; rewrite H1); reflexivity.
  - apply Hre in H1. apply Hre in H2. destruct t as [t|], d as [d|], u as [u|]; cbn [option_map app] in *;
      cbn [collect_params]; rewrite ?Hsp by reflexivity; cbn; unfold make_action; cbn;
      try (unfold parse_redirect in H1; cbn [option_map] in H1; rewrite H1);
      try (unfold parse_redirect in H2; cbn [option_map] in H2; cbn; rewrite H2); reflexivity.
Qed.

Theorem printed_rule_reads_back line f r :
  from_line line f = Ok r -> printable r -> from_line (rule_str r) f = Ok r.
Proof.
  intros H (Hs & Hn & Ha & Hu). apply from_line_spec in H as (fs & Hf & Hr).
  apply fields_words in Hf. inversion Hr as [sv ar src tgt act ps osv oar ts tt a Hsv Har Hts Htt Hac Hdf]; subst.
  simpl in Hs, Hn, Ha, Hu. repeat (apply Forall_cons_iff in Hf as [? Hf]).
  assert (Hps : forall p, In p ps -> nospace p = true).
  { intros p Hp. rewrite Forall_forall in Hf. apply (Hf p Hp). }
  assert (Ew : split_ws (rule_str (mkRule osv oar ts tt a f)) =
     [sv; ar; src; tgt] ++ printed_act a :: printed_params a).
  { unfold rule_str. cbn [r_service r_arg r_source r_target r_action].
    assert (match osv with Some s => s | None => "None" end = sv) as -> by (inv Hsv; congruence).
    assert (match oar with Some s => if String.eqb s "" then "*" else s | None => "*" end = ar) as ->.
    { inv Har; auto. }
    destruct Hts as (_ & -> & _). destruct Htt as (_ & -> & _).
    change (tab +++ ?x) with (String TAB x). unfold tab, str1. cbn [String.append app].
    rewrite !split_ws_cons by (try reflexivity; tauto).
    erewrite action_str_words; eauto. }
  apply from_line_spec. exists ([sv; ar; src; tgt] ++ printed_act a :: printed_params a).
  split; [apply split_ws_fields; auto|]. cbn [app]. constructor; auto.
  eapply printed_collect; eauto.
Qed.
