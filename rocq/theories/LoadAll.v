(** What holds of every rule that the constructor of rules makes holds of every rule that
    is loaded. *)
From Coq Require Import String Ascii List Bool Arith.
From Verif Require Import Base SysInfo Token Rule FileSys Loader SpecRule SpecLoader RuleProofs RulePrint LoaderProofs.
Import ListNotations.
Open Scope string_scope.
Open Scope list_scope.

Lemma concatM_Forall {A} (P : rule -> Prop) (g : A -> res (list rule)) : forall l rs,
  (forall x r, In x l -> g x = Ok r -> Forall P r) -> concatM g l = Ok rs -> Forall P rs.
Proof.
  induction l as [|x l IH]; intros rs H E; cbn in E; [injection E as <-; constructor|].
  destruct (g x) as [a|] eqn:Gx; [|discriminate]. cbn in E. destruct (concatM g l) as [b|] eqn:El; [|discriminate].
  injection E as <-. apply Forall_app. split; [exact (H x a (or_introl eq_refl) Gx)|].
  apply IH; auto. intros y r Hy. apply H. right. exact Hy.
Qed.
Definition made (P : rule -> Prop) : Prop :=
  (forall line file r, from_line line file = Ok r -> P r) /\
  (forall sv ar line file r, has_char "," line = false -> from_line_service sv ar line file = Ok r -> P r).
Lemma make_rule_made (P : rule -> Prop) : (forall sv ar s t act ps file r, make_rule sv ar s t act ps file = Ok r -> P r) -> made P.
Proof.
  intros M. split.
  - intros line file r E. unfold from_line in E. destruct (split_ws line) as [|? [|? [|? [|? [|? ?]]]]]; try discriminate. eapply M. exact E.
  - intros sv ar line file r _ E. unfold from_line_service in E. destruct (split_ws line) as [|? [|? ?]]; try discriminate.
    destruct (flat_map _ _); [discriminate|]. eapply M. exact E.
Qed.
Lemma service_made P openf (M : made P) : forall fuel sv ar file ls rs, load_service fuel openf sv ar file ls = Ok rs -> Forall P rs.
Proof.
  induction fuel as [|fuel IH]; intros sv ar file ls rs E; [discriminate|]. cbn [load_service] in E.
  revert E. apply concatM_Forall. intros x r _ Hx. unfold service_line in Hx.
  destruct (skip_line (strip x)); [injection Hx as <-; constructor|].
  destruct (starts "!" (compat_subst (strip x))).
  - destruct (split_ws _) as [|d [|p [|? ?]]]; try discriminate; destruct (String.eqb d "!include"); try discriminate.
    destruct (validate_service_and_argument sv ar) as [sa|]; [|discriminate]. cbn [bind] in Hx.
    destruct (openf p) as [fl|]; [|discriminate]. cbn [bind] in Hx. exact (IH _ _ _ _ _ Hx).
  - destruct (from_line_service sv ar _ file) as [y|] eqn:F; [|discriminate]. injection Hx as <-.
    constructor; [|constructor]. exact (proj2 M _ _ _ _ _ (no_comma _) F).
Qed.
Lemma file_made P L (M : made P) : (forall fuel rs, ld_compat L fuel = Ok rs -> Forall P rs) ->
  forall fuel file ls rs, load_file fuel L file ls = Ok rs -> Forall P rs.
Proof.
  intros C. induction fuel as [|fuel IH]; intros file ls rs E; [discriminate|]. cbn [load_file] in E.
  revert E. apply concatM_Forall. intros x r _ Hx. unfold file_line in Hx.
  destruct (skip_line (strip x)); [injection Hx as <-; constructor|].
  destruct (starts "!" (strip x)).
  - destruct (split_ws (strip x)) as [|d ps]; [discriminate|].
    destruct (String.eqb d "!include").
    { destruct ps as [|p [|? ?]]; try discriminate. destruct (ld_open L p) as [fl|]; [|discriminate]. exact (IH _ _ _ Hx). }
    destruct (String.eqb d "!include-dir").
    { destruct ps as [|p [|? ?]]; try discriminate. destruct (ld_dir L p) as [files|]; [|discriminate]. cbn [bind] in Hx.
      revert Hx. apply concatM_Forall. intros y r' _ Hy. destruct (snd y) as [l|]; [|discriminate]. exact (IH _ _ _ Hy). }
    destruct (String.eqb d "!include-service").
    { destruct ps as [|s [|a [|p [|? ?]]]]; try discriminate. unfold include_service in Hx.
      destruct (validate_service_and_argument (Some s) (Some a)) as [sa|]; [|discriminate]. cbn [bind] in Hx.
      destruct (ld_open L p) as [fl|]; [|discriminate]. cbn [bind] in Hx. exact (service_made P _ M _ _ _ _ _ _ Hx). }
    destruct (String.eqb d "!compat-4.0"); [|discriminate]. destruct ps; [|discriminate]. exact (C _ _ Hx).
  - destruct (from_line (strip x) file) as [y|] eqn:F; [|discriminate]. injection Hx as <-.
    constructor; [|constructor]. exact (proj1 M _ _ _ F).
Qed.
Lemma compat_made P f legacy (M : made P) fuel rs : compat_execute f legacy fuel = Ok rs -> Forall P rs.
Proof.
  unfold compat_execute. destruct (compat_files f legacy) as [files|]; [|discriminate]. cbn [bind].
  apply concatM_Forall. intros [[sv ar] n] r _ H.
  destruct (validate_service_and_argument (Some sv) (Some ar)) as [sa|]; [|discriminate]. cbn [bind] in H.
  destruct (open_file f (legacy ++ [n])) as [fl|]; [|discriminate]. cbn [bind] in H.
  destruct (load_service fuel _ _ _ _ _) as [l|] eqn:E; [|discriminate]. cbn [bind] in H.
  apply (service_made P _ M) in E.
  destruct (String.eqb ar "*"); [injection H as <-; exact E|].
  destruct (from_line_service _ _ "@anyvm @anyvm deny" _) as [r1|] eqn:E1; [|discriminate]. cbn [bind] in H.
  destruct (from_line_service _ _ "@anyvm @adminvm deny" _) as [r2|] eqn:E2; [|discriminate]. cbn [bind] in H.
  injection H as <-. apply Forall_app. split; [exact E|].
  constructor; [refine (proj2 M _ _ _ _ _ _ E1); reflexivity|]. constructor; [refine (proj2 M _ _ _ _ _ _ E2); reflexivity|constructor].
Qed.
Theorem loaded_made P f legacy fuel dirs rs : made P -> load_policy f legacy fuel dirs = Ok rs -> Forall P rs.
Proof.
  intros M E. unfold load_policy, os_to_denied in E.
  destruct (select_files f dirs []) as [l|e]; [|destruct e; discriminate]. cbn [bind] in E.
  destruct (load_files f legacy fuel (sort_by name_leb l)) as [rs'|e] eqn:F; [|destruct e; discriminate].
  injection E as <-. revert F. unfold load_files. apply concatM_Forall. intros x r _ H.
  destruct (read_lines f _) as [ls|]; [|discriminate]. cbn [bind] in H. revert H. apply file_made; [exact M|].
  intros fu l' C. exact (compat_made P f legacy M fu l' C).
Qed.

(** the columns of a rule *)
Definition wf_cols (r : rule) : Prop := (r_service r = None -> r_arg r = None) /\ forall a, r_arg r = Some a -> starts "+" a = true.
Lemma made_cols : made wf_cols.
Proof.
  apply make_rule_made. intros sv ar s t act ps file r E. unfold make_rule in E.
  destruct (validate_service_and_argument sv ar) as [[sv' ar']|] eqn:V; [|discriminate]. cbn [bind fst snd] in E.
  assert (W : (sv' = None -> ar' = None) /\ forall a, ar' = Some a -> starts "+" a = true).
  { unfold validate_service_and_argument in V.
    destruct (match star_to_none sv with Some s => _ | None => _ end) as [u|]; [|discriminate]. cbn [bind] in V.
    destruct (star_to_none ar) as [arg0|].
    - destruct (negb (valid_chars arg0)); [discriminate|]. destruct (starts "+" arg0) eqn:P; [|discriminate]. cbn [negb] in V.
      destruct (star_to_none sv); [|discriminate]. cbn [bind] in V. injection V as <- <-. split; [discriminate|]. intros b [= <-]. exact P.
    - cbn [bind] in V. injection V as <- <-. split; [reflexivity|discriminate]. }
  destruct (parse_tok CSource s) as [s1|]; [|discriminate]. destruct (parse_tok CTarget t) as [t1|]; [|discriminate]. cbn [bind] in E.
  destruct (known_params act); [|discriminate]. destruct (collect_params ps []) as [k|]; [|discriminate]. cbn [bind] in E.
  destruct (make_action act k) as [x|]; [|discriminate]. cbn [bind] in E.
  unfold wf_cols. enough (G : r_service r = sv' /\ r_arg r = ar') by (destruct G as [-> ->]; exact W).
  destruct t1; destruct x as [|[?|]|]; try discriminate; injection E as <-; auto.
Qed.
Theorem loaded_cols f legacy fuel dirs rs : load_policy f legacy fuel dirs = Ok rs -> Forall wf_cols rs.
Proof. apply loaded_made. exact made_cols. Qed.

(** a rule that was loaded is what some line of a policy file says, unless its service is
    empty (a file +x in the old directory) *)
Definition is_line (r : rule) : Prop := r_service r <> Some "" -> exists line, from_line line (r_file r) = Ok r.
Lemma with_file line f f' r : from_line line f = Ok r ->
  r_file r = f /\ from_line line f' = Ok (mkRule (r_service r) (r_arg r) (r_source r) (r_target r) (r_action r) f').
Proof.
  unfold from_line. destruct (split_ws line) as [|? [|? [|? [|? [|? ?]]]]]; try discriminate. unfold make_rule.
  destruct (validate_service_and_argument _ _); [|discriminate]. cbn [bind].
  destruct (parse_tok CSource _); [|discriminate]. cbn [bind]. destruct (parse_tok CTarget _) as [t|]; [|discriminate]. cbn [bind].
  destruct (known_params _); [|discriminate]. destruct (collect_params _ _); [|discriminate]. cbn [bind].
  destruct (make_action _ _) as [x|]; [|discriminate]. cbn [bind].
  destruct t; destruct x as [|[?|]|]; try discriminate; intros [= <-]; split; reflexivity.
Qed.
Lemma made_line : made is_line.
Proof.
  split.
  - intros line file r E _. exists line. apply (with_file line file file) in E as Ef. destruct Ef as [-> _]. exact E.
  - intros sv ar line file r Nc E Ns. apply from_line_service_spec in E as (src & tgt & act & ps & Hf & Hr); [|exact Nc].
    assert (Rf : r_file r = file) by (inversion Hr; reflexivity).
    apply fields_words in Hf.
    exists (join " " (field_of sv :: field_of ar :: src :: tgt :: act :: ps)). apply from_line_spec. rewrite Rf.
    exists (field_of sv :: field_of ar :: src :: tgt :: act :: ps). split; [|exact Hr].
    apply split_ws_fields.
    assert (W : Forall (fun w => w <> "" /\ nospace w = true) (field_of sv :: field_of ar :: src :: tgt :: act :: ps)).
    { apply make_rule_spec in Hr. unfold make_rule in Hr.
      destruct (validate_service_and_argument (Some (field_of sv)) (Some (field_of ar))) as [[osv oar]|] eqn:V; [|discriminate].
      assert (Rs : r_service r = osv).
      { cbn [bind fst snd] in Hr. destruct (parse_tok CSource src); [|discriminate]. destruct (parse_tok CTarget tgt) as [t|]; [|discriminate].
        cbn [bind] in Hr. destruct (known_params act); [|discriminate]. destruct (collect_params ps []) as [k|]; [|discriminate]. cbn [bind] in Hr.
        destruct (make_action act k) as [x|]; [|discriminate]. cbn [bind] in Hr.
        destruct t; destruct x as [|[?|]|]; try discriminate; injection Hr as <-; reflexivity. }
      apply validate_spec in V as [V1 V2].
      assert (Cs : forall s, service_chars s -> nospace s = true).
      { intros s Hs. apply valid_chars_spec in Hs. unfold valid_chars, nospace in *. apply sforall_has. intros c Hc.
        assert (R : rpcname_char c = true) by (revert c Hc; apply sforall_has; exact Hs).
        clear -R. revert R. destruct c as [[] [] [] [] [] [] [] []]; vm_compute; congruence. }
      constructor; [|constructor; [|exact Hf]].
      - inversion V1 as [E1|s0 N1 N2 N3 E1 E2]; [split; [discriminate|reflexivity]|]. split; [|apply Cs; exact N2].
        intros K. apply Ns. congruence.
      - inversion V2 as [x E1|s0 a0 N1 E1]; [split; [discriminate|reflexivity]|]. split; [discriminate|apply Cs; exact N1]. }
    revert W. generalize (field_of sv :: field_of ar :: src :: tgt :: act :: ps). intros ws W. clear - W.
    induction W as [|w ws [N1 N2] W IH]; [reflexivity|]. destruct ws as [|w' ws]; [apply split_ws_one; assumption|].
    change (join " " (w :: w' :: ws)) with (w +++ String " " (join " " (w' :: ws))).
    rewrite split_ws_cons by (try reflexivity; assumption). now rewrite IH.
Qed.
Theorem loaded_line f legacy fuel dirs rs : load_policy f legacy fuel dirs = Ok rs -> Forall is_line rs.
Proof. apply loaded_made. exact made_line. Qed.
