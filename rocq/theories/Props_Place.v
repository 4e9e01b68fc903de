(** C90: where the conversion of the old policy puts the rules; C88: when it asks. *)
From Coq Require Import String Ascii List Bool Arith Lia.
From Verif Require DialogProofs.
From Verif Require Import Base SysInfo Token Rule Policy FileSys Loader LineLoader LoadAll Graph Convert SpecPolicy SpecConvert SpecGraph SpecPlace
  TokenProofs RuleProofs ConvertProofs ConvertText ConvertFs ConvertRun RulePrint Props_Policy Props_Loader Props_Graph Props_Convert Props_ConvertEx.
Import ListNotations.
Open Scope string_scope.
Open Scope list_scope.

(** ** What is known of rules that were loaded *)
Definition known_tok (t : tok) : Prop := tok_str t <> "" /\ match t with TName s => starts "@" s = false /\ s <> "*" | _ => True end.
Record known (r : rule) : Prop := {
  kn_src : known_tok (r_source r);
  kn_tgt : known_tok (r_target r);
  kn_act : forall t, sends (r_action r) t -> known_tok t;
  kn_arg : forall a, r_arg r = Some a -> a <> "" }.
Lemma parsed_known c s t : parse_tok c s = Ok t -> known_tok t.
Proof.
  intros P. split.
  - apply parse_tok_sound in P as [-> H]. intros ->. inversion H as [H0|H0|p v H0 H1 H2]; [congruence| |].
    + destruct c; cbn in H0; intuition discriminate.
    + destruct c; cbn in H0; intuition (subst p; discriminate).
  - destruct t; auto. apply parse_tok_name in P as (-> & _ & A & B). auto.
Qed.
Lemma redirect_known s t : parse_redirect s = Ok (Some t) -> known_tok t.
Proof.
  unfold parse_redirect. destruct s as [s|]; [|discriminate]. destruct (parse_tok CRedirect s) as [t'|] eqn:P; [|discriminate].
  cbn. intros E. injection E as ->. eapply parsed_known. exact P.
Qed.
Lemma made_known : made known.
Proof.
  apply make_rule_made. intros sv ar s t act ps file r E. unfold make_rule in E.
  destruct (validate_service_and_argument sv ar) as [[sv' ar']|] eqn:V; [|discriminate]. cbn [bind fst snd] in E.
  destruct (parse_tok CSource s) as [s1|] eqn:P1; [|discriminate]. destruct (parse_tok CTarget t) as [t1|] eqn:P2; [|discriminate]. cbn [bind] in E.
  destruct (known_params act) as [kn|] eqn:K0; [|discriminate]. destruct (collect_params ps []) as [k|]; [|discriminate]. cbn [bind] in E.
  destruct (make_action act k) as [x|] eqn:A; [|discriminate]. cbn [bind] in E.
  assert (G : r = mkRule sv' ar' s1 t1 x file) by (destruct t1; destruct x as [|[?|]|]; congruence). subst r.
  constructor; cbn [r_source r_target r_action r_arg].
  - eapply parsed_known; exact P1.
  - eapply parsed_known; exact P2.
  - unfold make_action in A. rewrite K0 in A. destruct (bool_param k "notify" _) as [n|]; [|discriminate]. destruct (bool_param k "autostart" true) as [au|]; [|discriminate].
    cbn [bind] in A. destruct (negb _); [discriminate|]. destruct (String.eqb act "deny"); [injection A as <-; intros ? []|].
    destruct (parse_redirect (dget k "target")) as [tg|] eqn:R1; [|discriminate]. cbn [bind] in A.
    destruct (String.eqb act "allow"); [injection A as <-; cbn; intros u ->; eapply redirect_known; exact R1|].
    destruct (parse_redirect (dget k "default_target")) as [dt|] eqn:R2; [|discriminate]. cbn [bind] in A. injection A as <-. cbn.
    intros u [-> | ->]; eapply redirect_known; eassumption.
  - intros a Ea. subst ar'. unfold validate_service_and_argument in V. destruct (star_to_none sv) as [s0|]; [destruct (valid_chars_no_plus s0)|];
    cbn [bind] in V; try discriminate; destruct (star_to_none ar) as [a0|]; cbn [bind] in V; try discriminate;
    destruct (negb (valid_chars a0)); cbn [bind] in V; try discriminate; destruct (starts "+" a0) eqn:S; cbn [negb bind] in V; try discriminate;
    assert (a0 = a) by congruence; subst a0; intros ->; discriminate.
Qed.

(** ** Texts and what they stand for *)
Lemma keyword_name t : known_tok t -> is_keyword t = false <-> one_qube t.
Proof.
  intros [_ K]. unfold is_keyword, one_qube. destruct t; split; try (intros E; discriminate); try (intros (n & E); discriminate); eauto.
  intros _. cbn [tok_str]. destruct K as [-> N]. apply String.eqb_neq in N. rewrite N. reflexivity.
Qed.
Lemma str_admin t : known_tok t -> tok_str t = "@adminvm" <-> t = TAdmin.
Proof. intros [_ K]. split; [|intros ->; reflexivity]. destruct t; cbn; try discriminate; auto. intros ->. destruct K; discriminate. Qed.
Lemma str_default t : known_tok t -> tok_str t = "@default" <-> t = TDefault.
Proof. intros [_ K]. split; [|intros ->; reflexivity]. destruct t; cbn; try discriminate; auto. intros ->. destruct K; discriminate. Qed.
Lemma str_disp t : known_tok t -> tok_str t = "@dispvm" <-> t = TDisp.
Proof. intros [_ K]. split; [|intros ->; reflexivity]. destruct t; cbn; try discriminate; auto. intros ->. destruct K; discriminate. Qed.
Lemma str_tmpl t : known_tok t -> tok_str t = "@type:TemplateVM" <-> t = TType "TemplateVM".
Proof.
  intros [_ K]. split; [|intros ->; reflexivity]. destruct t; cbn; try discriminate; auto.
  - intros ->. destruct K; discriminate.
  - intros E. f_equal. congruence.
Qed.
Lemma str_whonix t : known_tok t -> tok_str t = "@tag:whonix-updatevm" <-> t = TTag "whonix-updatevm".
Proof.
  intros [_ K]. split; [|intros ->; reflexivity]. destruct t; cbn; try discriminate; auto.
  - intros ->. destruct K; discriminate.
  - intros E. f_equal. congruence.
Qed.
Lemma dom0_name t : known_tok t -> is_dom0_name (tok_str t) = true <-> dom0_tok t.
Proof.
  intros K. unfold is_dom0_name, dom0_tok. rewrite smem_In. cbn [In]. split.
  - intros [E|[E|[]]]; [right|left; apply str_admin; auto]. destruct t; cbn in E; try discriminate. congruence.
  - intros [-> | ->]; cbn; auto.
Qed.
Lemma part_text k t (l : string) : tok_str t <> "" -> opt_part k (Some (tok_str t)) = " " +++ k +++ "=" +++ tok_str t.
Proof. intros N. unfold opt_part. apply String.eqb_neq in N. rewrite N. reflexivity. Qed.
Lemma part_nil k v : opt_part k v = "" <-> no_user v.
Proof.
  unfold no_user. destruct v as [v|]; cbn; [|tauto]. destruct (String.eqb_spec v "") as [-> |N]; [tauto|].
  split; [discriminate|]. intros [E|E]; congruence.
Qed.
Lemma app_empty a b : a +++ b = "" <-> a = "" /\ b = "".
Proof. destruct a; cbn; split; intros H; try tauto; try discriminate. destruct H; discriminate. Qed.
Lemma part_tok k t : (forall x, t = Some x -> known_tok x) -> opt_part k (option_map tok_str t) = "" <-> t = None.
Proof.
  intros K. destruct t as [t|]; cbn [option_map]; [|tauto]. destruct (K t eq_refl) as [N _]. rewrite (part_text _ _ "" N).
  split; discriminate.
Qed.
Lemma ask_text a : (forall t, sends a t -> known_tok t) -> action_str a = "ask" <-> plain_ask a.
Proof.
  intros K. unfold plain_ask. destruct a as [n|t u n s|t d u n s].
  - split; [discriminate|]. intros (? & ? & ? & E & _); discriminate.
  - split; [cbn; discriminate|]. intros (? & ? & ? & E & _); discriminate.
  - cbn [action_str]. transitivity (opt_part "target" (option_map tok_str t) +++ opt_part "default_target" (option_map tok_str d) +++ opt_part "user" u = "").
    { split; intros E; [|rewrite E; reflexivity]. apply (DialogProofs.app_inj_l "ask" _ ""). exact E. }
    rewrite !app_empty, (part_nil "user"), (part_tok "target"), (part_tok "default_target") by (intros x ->; apply K; cbn; auto).
    split; [intros (-> & -> & N); exists u, n, s; auto|]. intros (? & ? & ? & E & N). injection E as -> -> -> -> ->. auto.
Qed.
Lemma allow_text a : (forall t, sends a t -> known_tok t) -> action_str a = "allow" <-> plain_allow a.
Proof.
  intros K. unfold plain_allow. destruct a as [n|t u n s|t d u n s].
  - split; [discriminate|]. intros (? & ? & ? & E & _); discriminate.
  - cbn [action_str]. transitivity (opt_part "target" (option_map tok_str t) +++ opt_part "user" u = "").
    { split; intros E; [|rewrite E; reflexivity]. apply (DialogProofs.app_inj_l "allow" _ ""). exact E. }
    rewrite !app_empty, (part_nil "user"), (part_tok "target") by (intros x ->; apply K; cbn; auto).
    split; [intros (-> & N); exists u, n, s; auto|]. intros (? & ? & ? & E & N). injection E as -> -> -> ->. auto.
  - split; [cbn; discriminate|]. intros (? & ? & ? & E & _); discriminate.
Qed.
Lemma deny_text a : action_str a = "deny" <-> deny a.
Proof. unfold deny. split; [apply action_str_deny|]. intros (n & ->). reflexivity. Qed.
Lemma act_in_In r l : act_in r l = true <-> In (action_str (r_action r)) l.
Proof. unfold act_in. apply smem_In. Qed.
Lemma allow_letters a : allow a -> contains "allow" (action_str a) = true.
Proof. intros (t & u & n & s & ->). reflexivity. Qed.
Lemma no_letters a : (forall t, sends a t -> known_tok t) -> contains "allow" (action_str a) = true -> allow a \/ ~ allow a /\ ~ deny a /\ ~ plain_ask a.
Proof.
  intros K C. destruct a as [n|t u n s|t d u n s]; [discriminate|left; unfold allow; eauto|right].
  split; [intros (? & ? & ? & ? & E); discriminate|]. split; [intros (? & E); discriminate|]. intros P. apply ask_text in P; [|exact K].
  rewrite P in C. discriminate.
Qed.

(** the file for a service *)
Lemma file_is sv f : target_file (Some sv) = f -> f <> CONFIG_FILE -> In (sv, f) SERVICE_TO_FILE.
Proof. unfold target_file. destruct (dget SERVICE_TO_FILE sv) as [g|] eqn:E; [|congruence]. intros <- _. apply dget_In. exact E. Qed.

Lemma target_ok t : known_tok t ->
  negb (is_keyword t) || String.eqb (tok_str t) "@adminvm" || String.eqb (tok_str t) "@default" = true <->
  one_qube t \/ t = TAdmin \/ t = TDefault.
Proof.
  intros K. rewrite !orb_true_iff, !String.eqb_eq, negb_true_iff, keyword_name, str_admin, str_default by exact K. tauto.
Qed.
Lemma source_ok t : known_tok t ->
  is_keyword t && negb (smem (tok_str t) ["@type:TemplateVM"; "@tag:whonix-updatevm"]) = false <->
  one_qube t \/ t = TType "TemplateVM" \/ t = TTag "whonix-updatevm".
Proof.
  intros K. rewrite andb_false_iff, keyword_name, negb_false_iff, smem_In by exact K. cbn [In].
  pose proof (str_tmpl t K). pose proof (str_whonix t K). intuition.
Qed.
Lemma u2f_target t : known_tok t -> is_keyword t && negb (String.eqb (tok_str t) "@adminvm") = false <-> one_qube t \/ t = TAdmin.
Proof.
  intros K. rewrite andb_false_iff, keyword_name, negb_false_iff, String.eqb_eq, str_admin by exact K. tauto.
Qed.
Lemma disposable_dec t : disposable t \/ ~ disposable t.
Proof.
  unfold disposable. destruct t; try (right; intros [E|(v0 & E)]; discriminate); left; [left; reflexivity|right; eexists; reflexivity].
Qed.
Lemma dom0_dec t : dom0_tok t \/ ~ dom0_tok t.
Proof.
  unfold dom0_tok. destruct t; try (right; intros [E|E]; discriminate); [|auto].
  destruct (string_dec s "dom0") as [-> |N]; [auto|]. right. intros [E|E]; congruence.
Qed.
Definition all_or {P : tok -> Prop} (D : forall t, P t \/ ~ P t) a : (forall t, sends a t -> P t) \/ exists t, sends a t /\ ~ P t.
Proof.
  destruct a as [n|[t|] u n s|[t|] [d|] u n s]; cbn.
  - left. tauto.
  - destruct (D t); [left; intros ? E; congruence|right; eauto].
  - left. discriminate.
  - destruct (D t); [|right; eauto]. destruct (D d); [left; intros ? [E|E]; congruence|right; eauto].
  - destruct (D t); [left; intros ? [E|E]; congruence|right; eauto].
  - destruct (D d); [left; intros ? [E|E]; congruence|right; eauto].
  - left. intros ? [E|E]; discriminate.
Qed.

(** the check of the tool accepts what fits, and besides only [fits_not] *)
Lemma open_target r : known r ->
  contains "@dispvm" (if act_in r ["ask"] then py_opt (option_map tok_str (default_target (r_action r)))
                      else if act_in r ["allow"] then py_opt (option_map tok_str (action_target (r_action r))) else "@dispvm") = true
  <-> ~ plain_ask (r_action r) /\ ~ plain_allow (r_action r).
Proof.
  intros K. pose proof (ask_text _ (kn_act r K)) as A. pose proof (allow_text _ (kn_act r K)) as B.
  destruct (act_in r ["ask"]) eqn:E1.
  - apply act_in_In in E1 as [E1|[]]. symmetry in E1. apply A in E1 as P. destruct P as (u & n & s & -> & N). cbn.
    split; [discriminate|]. intros [X _]. exfalso. apply X. exists u, n, s. auto.
  - assert (NA : ~ plain_ask (r_action r)) by (intros P; apply A in P; assert (act_in r ["ask"] = true) by (apply act_in_In; left; auto); congruence).
    destruct (act_in r ["allow"]) eqn:E2.
    + apply act_in_In in E2 as [E2|[]]. symmetry in E2. apply B in E2 as P. destruct P as (u & n & s & -> & N). cbn.
      split; [discriminate|]. intros [_ X]. exfalso. apply X. exists u, n, s. auto.
    + split; [intros _|reflexivity]. split; [exact NA|]. intros P. apply B in P. assert (act_in r ["allow"] = true) by (apply act_in_In; left; auto). congruence.
Qed.
Lemma compatible_fits r sv : known r -> r_service r = Some sv -> is_rule_compatible r = true ->
  fits (target_file (Some sv)) r \/ fits_not (target_file (Some sv)) r.
Proof.
  intros K S C. unfold is_rule_compatible in C. rewrite S in C.
  destruct (String.eqb_spec sv "qubes.ClipboardPaste") as [-> |N1].
  { left. apply fi_clip; [exact S|]. apply act_in_In in C as [E|[E|[]]]; symmetry in E.
    - left. apply ask_text; [apply K|exact E].
    - right. apply deny_text. exact E. }
  destruct (String.eqb_spec sv "qubes.Filecopy") as [-> |N2].
  { left. apply fi_copy; [exact S|]. apply act_in_In in C as [E|[E|[E|[]]]]; symmetry in E.
    - left. apply ask_text; [apply K|exact E].
    - right. right. apply deny_text. exact E.
    - right. left. apply allow_text; [apply K|exact E]. }
  destruct (String.eqb_spec sv "qubes.UpdatesProxy") as [-> |N3].
  { destruct (is_keyword (r_source r) && _) eqn:E1; [discriminate|]. apply source_ok in E1; [|apply K].
    destruct (contains "allow" _) eqn:E2; [cbn [negb] in C|discriminate]. apply target_ok in C; [|apply K].
    apply no_letters in E2 as [E2|(E2 & E3 & E4)]; [left; apply fi_updates; assumption|right; apply fn_updates; assumption|apply K]. }
  destruct (smem sv ["qubes.OpenInVM"; "qubes.OpenURL"]) eqn:E1.
  { destruct (String.eqb_spec (tok_str (r_target r)) "@dispvm") as [T|T]; [cbn [negb] in C|discriminate].
    apply str_disp in T; [|apply K]. apply open_target in C as [C1 C2]; [|exact K].
    assert (F : r_service r = Some "qubes.OpenInVM" /\ target_file (Some sv) = "50-config-openinvm" \/
                r_service r = Some "qubes.OpenURL" /\ target_file (Some sv) = "50-config-openurl").
    { apply smem_In in E1 as [<-|[<-|[]]]; [left|right]; split; auto. }
    destruct (all_or disposable_dec (r_action r)) as [D|(t & D1 & D2)].
    - left. apply fi_open; assumption.
    - right. eapply fn_open; eassumption. }
  destruct (String.eqb_spec sv "policy.RegisterArgument") as [-> |N4].
  { left. apply fi_register; [exact S|]. destruct (r_arg r) as [a|]; [|discriminate]. apply String.eqb_eq in C. congruence. }
  destruct (smem sv ["u2f.Authenticate"; "u2f.Register"]) eqn:E2.
  { destruct (is_keyword (r_target r) && _) eqn:E3; [discriminate|]. apply u2f_target in E3; [|apply K]. left.
    replace (target_file (Some sv)) with "50-config-u2f" by (apply smem_In in E2 as [<-|[<-|[]]]; reflexivity).
    apply fi_u2f; [|exact E3|].
    - rewrite S. apply smem_In in E2 as [<-|[<-|[]]]; cbn; auto.
    - destruct (r_arg r) as [a|] eqn:A; [|reflexivity]. apply String.eqb_eq in C. destruct (kn_arg r K _ A C). }
  destruct (smem sv ["qubes.InputKeyboard"; "qubes.InputMouse"; "qubes.InputTablet"]) eqn:E3; [|discriminate].
  destruct (is_dom0_name (tok_str (r_target r))) eqn:E4; [cbn [negb] in C|discriminate]. apply dom0_name in E4; [|apply K].
  destruct (is_keyword (r_source r)) eqn:E5; [discriminate|]. apply keyword_name in E5; [|apply K].
  replace (target_file (Some sv)) with "50-config-input" by (apply smem_In in E3 as [<-|[<-|[<-|[]]]]; reflexivity).
  assert (I : In (r_service r) [Some "qubes.InputKeyboard"; Some "qubes.InputMouse"; Some "qubes.InputTablet"])
    by (rewrite S; apply smem_In in E3 as [<-|[<-|[<-|[]]]]; cbn; auto).
  destruct (all_or dom0_dec (r_action r)) as [D|(t & D1 & D2)]; [left; apply fi_input; assumption|right].
  pose proof (kn_act r K _ D1) as Kt. destruct (r_action r) as [n|g u n s|g d u n s] eqn:A; cbn in D1; [destruct D1| |].
  - subst g. cbn in C. apply dom0_name in C; [|exact Kt]. destruct (D2 C).
  - destruct g as [g|]; cbn [action_target default_target] in C.
    + apply dom0_name in C; [|apply (kn_act r K); rewrite A; cbn; auto]. destruct D1 as [D1|D1]; [destruct D2; congruence|]. subst d.
      eapply (fn_input r t u n s); try assumption. exists g. auto.
    + destruct D1 as [D1|D1]; [discriminate|]. subst d. apply dom0_name in C; [|exact Kt]. destruct (D2 C).
Qed.
Lemma fits_compatible file r : known r -> fits file r -> is_rule_compatible r = true /\ target_file (r_service r) = file.
Proof.
  intros K F. unfold is_rule_compatible. inversion F as [? S A|? S A|? S A B C|? ? S A B C D|? S A B C|? S A B|? S A]; subst.
  - rewrite S. split; [|reflexivity]. cbn [String.eqb Ascii.eqb Bool.eqb]. apply act_in_In.
    destruct A as [A|A]; [apply ask_text in A; [|apply K]|apply deny_text in A]; rewrite A; cbn; auto.
  - rewrite S. split; [|reflexivity]. cbn [String.eqb Ascii.eqb Bool.eqb]. apply act_in_In.
    destruct A as [A|[A|A]]; [apply ask_text in A; [|apply K]|apply allow_text in A; [|apply K]|apply deny_text in A]; rewrite A; cbn; auto.
  - rewrite S. split; [|reflexivity]. cbn [String.eqb Ascii.eqb Bool.eqb]. apply source_ok in A; [|apply K]. rewrite A, (allow_letters _ C). cbn [negb].
    apply target_ok; [apply K|exact B].
  - assert (T : negb (String.eqb (tok_str (r_target r)) "@dispvm") = false) by (rewrite A; reflexivity).
    pose proof (proj2 (open_target r K) (conj C D)) as O.
    destruct S as [[S ->]|[S ->]]; rewrite S; (split; [|reflexivity]); rewrite T; exact O.
  - apply keyword_name in A; [|apply K]. apply dom0_name in B; [|apply K]. rewrite A, B. cbn [negb].
    assert (G : match action_target (r_action r) with Some t => is_dom0_name (tok_str t)
                | None => match default_target (r_action r) with Some t => is_dom0_name (tok_str t) | None => true end end = true).
    { destruct (r_action r) as [n|[g|] u n s|[g|] [d|] u n s] eqn:Ea; cbn [action_target default_target]; try reflexivity;
      (apply dom0_name; [apply (kn_act r K); rewrite Ea|apply C]); cbn; auto. }
    rewrite G. destruct S as [<-|[<-|[<-|[]]]]; split; reflexivity.
  - apply u2f_target in A; [|apply K]. rewrite A, B. destruct S as [<-|[<-|[]]]; split; reflexivity.
  - rewrite S, A. split; reflexivity.
Qed.
Lemma user_file r : ~ fits CONFIG_FILE r /\ ~ fits_not CONFIG_FILE r.
Proof.
  unfold CONFIG_FILE. split; intros F.
  - inversion F as [| | |? ? S| | |]. destruct S as [[_ E]|[_ E]]; discriminate.
  - inversion F as [|? ? ? S|]. destruct S as [[_ E]|[_ E]]; discriminate.
Qed.
Lemma planned_file all new services file rs r : saved all new services file rs -> In r rs ->
  In r (legacy_rules all new) /\
  file = (if is_rule_compatible (fst r) then target_file (r_service (fst r)) else CONFIG_FILE).
Proof.
  intros H Hr. unfold saved, rules_to_save in H. apply in_map_iff in H as (f & E & _).
  set (l := map snd (filter (fun x : string * nrule => String.eqb (fst x) f) (flat_map (for_service (legacy_rules all new) new) services))) in *.
  injection E as -> <-.
  assert (S1 : subseq (if String.eqb file INPUT_FILE then split_input [] l else l) l) by (destruct (String.eqb file INPUT_FILE); [apply split_subseq|apply subseq_refl]).
  apply (subseq_In _ _ _ S1) in Hr. unfold l in Hr. apply in_map_iff in Hr as (x & <- & H).
  apply filter_In in H as [H Ef]. apply String.eqb_eq in Ef. apply in_flat_map in H as (sv & _ & H). split.
  - assert (K : In (snd x) (map snd (for_service (legacy_rules all new) new sv))) by (apply in_map; exact H).
    apply (subseq_In _ _ _ (plan_sub _ _ _)) in K. apply of_service_spec in K. tauto.
  - assert (K : In (snd x) (map snd (for_service (legacy_rules all new) new sv))) by (apply in_map; exact H).
    apply (subseq_In _ _ _ (plan_sub _ _ _)) in K. apply of_service_spec in K as [_ K]. rewrite K.
    unfold for_service in H. destruct (_ || _); [destruct H|]. apply in_map_iff in H as (y & <- & _). cbn [fst snd] in *. congruence.
Qed.
(** A rule goes into a file of the configuration tool only if it is of the form that the tool
    has there (or one of the forms [fits_not]); into 30-user only if it is not. *)
Theorem C90_place_partial f fuel all new services file rs r :
  nload_policy f POLICYPATH_OLD (ncompat f POLICYPATH_OLD) fuel [POLICYPATH] = Ok all ->
  saved all new services file rs -> In r rs ->
  (file <> "30-user" -> fits file (fst r) \/ fits_not file (fst r)) /\
  (file = "30-user" -> forall g, ~ fits g (fst r)).
Proof.
  intros Ha S Hr. destruct (planned_file _ _ _ _ _ _ S Hr) as [L F].
  assert (K : known (fst r)).
  { apply (nloaded_made known f fuel all made_known Ha). apply legacy_spec in L as [L _]. exact L. }
  split; intros Ef.
  - destruct (is_rule_compatible (fst r)) eqn:C; [|destruct (Ef F)].
    destruct (r_service (fst r)) as [sv|] eqn:Sv; [|unfold is_rule_compatible in C; rewrite Sv in C; discriminate].
    subst file. apply compatible_fits; assumption.
  - intros g Fg. destruct (fits_compatible g _ K Fg) as [C T]. rewrite C, T in F. subst g. rewrite Ef in Fg. exact (proj1 (user_file (fst r)) Fg).
Qed.

(** the rules of the example above, and where they are written *)
Definition placed (f : fs) (services : list (option string)) : list (string * list string) :=
  flat_map (fun x : string * list nrule => match snd x with [] => [] | _ => [(fst x, map nrule_str (snd x))] end) (rules_to_save (all_of f) (new_of f) services).
Definition ex_place : fs := base ++ [
  old "qubes.ClipboardPaste" ["work vault ask"; "work sys-net allow"];
  old "qubes.OpenInVM" ["work $dispvm allow,target=$dispvm:dvm"; "work vault allow"];
  old "qubes.UpdatesProxy" ["$type:TemplateVM $default allow,target=sys-net"; "$anyvm $default allow,target=sys-net"];
  old "qubes.InputMouse" ["sys-usb dom0 ask,default_target=dom0"; "$anyvm dom0 ask"];
  old "u2f.Register" ["work vault allow"; "work $tag:keys allow"]].
Definition ex_place_services := [Some "qubes.ClipboardPaste"; Some "qubes.OpenInVM"; Some "qubes.UpdatesProxy"; Some "qubes.InputMouse"; Some "u2f.Register"].
Definition t5 (a b c d e : string) : string := a +++ tab +++ b +++ tab +++ c +++ tab +++ d +++ tab +++ e.
Example C90_example :
  nload_policy ex_place POLICYPATH_OLD (ncompat ex_place POLICYPATH_OLD) 9 [POLICYPATH] = Ok (all_of ex_place) /\
  placed ex_place ex_place_services = [
    ("30-user", [t5 "qubes.ClipboardPaste" "*" "work" "sys-net" "allow"; t5 "qubes.OpenInVM" "*" "work" "vault" "allow";
       t5 "qubes.UpdatesProxy" "*" "@anyvm" "@default" "allow target=sys-net"; t5 "qubes.InputMouse" "*" "@anyvm" "dom0" "ask"; t5 "u2f.Register" "*" "work" "@tag:keys" "allow"]);
    ("50-config-clipboard", [t5 "qubes.ClipboardPaste" "*" "work" "vault" "ask"]);
    ("50-config-updates", [t5 "qubes.UpdatesProxy" "*" "@type:TemplateVM" "@default" "allow target=sys-net"]);
    ("50-config-openinvm", [t5 "qubes.OpenInVM" "*" "work" "@dispvm" "allow target=@dispvm:dvm"]);
    ("50-config-input", [t5 "qubes.InputMouse" "*" "sys-usb" "dom0" "ask default_target=dom0"]);
    ("50-config-u2f", [t5 "u2f.Register" "*" "work" "vault" "allow"])].
Proof. vm_compute. split; reflexivity. Qed.
(** The check of the tool has it the wrong way round for files that are opened in disposables:
    it looks at the target= only if there is none. *)
Theorem C90_redirect_refuted : placed (base ++ [old "qubes.OpenInVM" ["work $dispvm allow,target=vault"]]) [Some "qubes.OpenInVM"] =
  [("50-config-openinvm", [t5 "qubes.OpenInVM" "*" "work" "@dispvm" "allow target=vault"])].
Proof. vm_compute. reflexivity. Qed.
Theorem C90_letters_refuted : placed (base ++ [old "qubes.UpdatesProxy" ["work $default ask,default_target=sys-allowed"]]) [Some "qubes.UpdatesProxy"] =
  [("50-config-updates", [t5 "qubes.UpdatesProxy" "*" "work" "@default" "ask default_target=sys-allowed"])].
Proof. vm_compute. reflexivity. Qed.

(** ** When the tool asks *)
Definition full_graph : gargs := mkArgs false [] [] [] false true.
Lemma same_end a b s t : a +++ s = b +++ t -> String.length s = String.length t -> s = t.
Proof.
  revert b. induction a as [|c a IH]; intros b E L.
  - destruct b as [|d b]; [exact E|]. apply (f_equal String.length) in E. cbn in E. rewrite length_app_s in E. lia.
  - destruct b as [|d b]; [apply (f_equal String.length) in E; cbn in E; rewrite length_app_s in E; lia|].
    apply (IH b); [|exact L]. apply str_head in E. tauto.
Qed.
Lemma edge_parts s d l c s' d' l' c' : edge s d l c = edge s' d' l' c' ->
  has_char quote_mark s = false -> has_char quote_mark s' = false ->
  s = s' /\ (has_char quote_mark d = false -> has_char quote_mark d' = false ->
    d = d' /\ l +++ q1 +++ " color=" +++ c +++ "];" +++ nl = l' +++ q1 +++ " color=" +++ c' +++ "];" +++ nl).
Proof.
  unfold edge. intros E S S'.
  assert (G : forall a a' b b', has_char quote_mark a = false -> has_char quote_mark a' = false -> a +++ q1 +++ b = a' +++ q1 +++ b' -> a = a' /\ b = b').
  { intros a a' b b' A A' X. pose proof (EvalSvc.split1_some quote_mark a b A) as H1. pose proof (EvalSvc.split1_some quote_mark a' b' A') as H2.
    change (String quote_mark b) with (q1 +++ b) in H1. change (String quote_mark b') with (q1 +++ b') in H2. rewrite X, H2 in H1. split; congruence. }
  apply (DialogProofs.app_inj_l "  ") in E. apply (DialogProofs.app_inj_l q1) in E. apply G in E as [-> E]; [|exact S|exact S']. split; [reflexivity|].
  intros D D'. apply (DialogProofs.app_inj_l " -> ") in E. apply (DialogProofs.app_inj_l q1) in E. apply G in E as [-> E]; [|exact D|exact D']. split; [reflexivity|].
  apply (DialogProofs.app_inj_l " [label=") in E. apply (DialogProofs.app_inj_l q1) in E. exact E.
Qed.
Lemma edge_end l l' x x' : l +++ q1 +++ " color=" +++ color_of x +++ "];" +++ nl = l' +++ q1 +++ " color=" +++ color_of x' +++ "];" +++ nl ->
  color_of x = color_of x' /\ l = l'.
Proof.
  assert (R : forall l s, l +++ q1 +++ " color=" +++ "red" +++ s = (l +++ q1 +++ " color=") +++ "red" +++ s) by (intros; rewrite !app_assoc_s; reflexivity).
  assert (O : forall l s, l +++ q1 +++ " color=" +++ "orange" +++ s = (l +++ q1 +++ " color=ora") +++ "nge" +++ s) by (intros; rewrite !app_assoc_s; reflexivity).
  intros E. assert (C : color_of x = color_of x').
  { destruct x, x'; try reflexivity; cbn [color_of] in E; rewrite R, O in E; apply same_end in E; try reflexivity; discriminate. }
  split; [exact C|]. rewrite C in E. eapply DialogProofs.app_inj_r. exact E.
Qed.
Lemma not_edge_head s d l c : edge s d l c <> "digraph g {" +++ nl /\ edge s d l c <> "}" +++ nl.
Proof. split; discriminate. Qed.
Lemma not_edge_node i color n s d l x : ~ node_text i color n (edge s d l (color_of x)).
Proof.
  unfold edge. intros H.
  assert (G : exists a b c, (a = "tted];" +++ nl \/ a = " = 3];" +++ nl) /\ (b = "=red];" +++ nl \/ b = "ange];" +++ nl) /\ exists c', c +++ b = c' +++ a).
  { destruct H as [[_ E]|[_ [_ E]]].
    - eexists ("tted];" +++ nl). destruct x; cbn [color_of] in E; [eexists ("=red];" +++ nl)|eexists ("ange];" +++ nl)].
      + eexists ("  " +++ q1 +++ s +++ q1 +++ " -> " +++ q1 +++ d +++ q1 +++ " [label=" +++ q1 +++ l +++ q1 +++ " color"). split; [auto|]. split; [auto|].
        eexists ("  " +++ q1 +++ n +++ q1 +++ " [style = do"). rewrite ?app_assoc_s. rewrite ?app_assoc_s in E. exact E.
      + eexists ("  " +++ q1 +++ s +++ q1 +++ " -> " +++ q1 +++ d +++ q1 +++ " [label=" +++ q1 +++ l +++ q1 +++ " color=or"). split; [auto|]. split; [auto|].
        eexists ("  " +++ q1 +++ n +++ q1 +++ " [style = do"). rewrite ?app_assoc_s. rewrite ?app_assoc_s in E. exact E.
    - eexists (" = 3];" +++ nl). destruct x; cbn [color_of] in E; [eexists ("=red];" +++ nl)|eexists ("ange];" +++ nl)].
      + eexists ("  " +++ q1 +++ s +++ q1 +++ " -> " +++ q1 +++ d +++ q1 +++ " [label=" +++ q1 +++ l +++ q1 +++ " color"). split; [auto|]. split; [auto|].
        eexists ("  " +++ q1 +++ n +++ q1 +++ " [color = " +++ q1 +++ color n +++ q1 +++ ", penwidth"). rewrite ?app_assoc_s. rewrite ?app_assoc_s in E. exact E.
      + eexists ("  " +++ q1 +++ s +++ q1 +++ " -> " +++ q1 +++ d +++ q1 +++ " [label=" +++ q1 +++ l +++ q1 +++ " color=or"). split; [auto|]. split; [auto|].
        eexists ("  " +++ q1 +++ n +++ q1 +++ " [color = " +++ q1 +++ color n +++ q1 +++ ", penwidth"). rewrite ?app_assoc_s. rewrite ?app_assoc_s in E. exact E. }
  destruct G as (a & b & c & A & B & c' & E).
  assert (E' : exists u v, u +++ sdrop (String.length b - 6) b = v +++ sdrop (String.length a - 6) a).
  { destruct A as [-> | ->], B as [-> | ->].
    - exists (c +++ "="), (c' +++ "t"). rewrite !app_assoc_s. exact E.
    - exists (c +++ "a"), (c' +++ "t"). rewrite !app_assoc_s. exact E.
    - exists (c +++ "="), (c' +++ " "). rewrite !app_assoc_s. exact E.
    - exists (c +++ "a"), (c' +++ " "). rewrite !app_assoc_s. exact E. }
  destruct E' as (u & v & E'). apply same_end in E'; destruct A as [-> | ->], B as [-> | ->]; try reflexivity; discriminate.
Qed.
Lemma verify_str i t0 t : verify i t0 = Ok t -> t = t0 \/ t = TDefault.
Proof.
  unfold verify. destruct t0; try discriminate; try (intros E; injection E as <-; auto).
  - destruct (dmem i s); intros E; injection E as <-; auto.
  - destruct (dget i v) as [d|]; [|discriminate]. destruct (d_tmpl d); [|discriminate]. intros E; injection E as <-; auto.
Qed.
Lemma target_no_mark i sv ar s t q : no_marks i -> call_text i t -> make_request i sv ar s t "" = Ok q -> has_char quote_mark (tok_str (q_target q)) = false.
Proof.
  intros Nm Ct M. unfold make_request in M. destruct (negb (starts "+" ar)); [discriminate|].
  destruct (parse_tok CIntended (if String.eqb t "" then "@default" else t)) as [t0|] eqn:P; [|discriminate]. cbn [bind] in M.
  destruct (verify i t0) as [t1|] eqn:V; [|discriminate]. cbn in M. injection M as <-. cbn [q_target].
  apply verify_str in V as [-> | ->]; [|reflexivity]. apply parse_tok_sound in P as [-> _]. destruct (String.eqb t ""); [reflexivity|].
  destruct Ct as [n [(d & H) _]| | |n d H _ _]; [exact (Nm _ _ H)|reflexivity|reflexivity|].
  rewrite has_char_app. rewrite (Nm _ _ H). reflexivity.
Qed.
Lemma find_In rs q r : find_matching_rule rs q = Ok r -> In r rs.
Proof.
  induction rs as [|x rs IH]; cbn; [discriminate|]. destruct (is_match x q) as [[]|]; cbn; [intros E; injection E as ->; auto|auto|discriminate].
Qed.
Lemma dest_no_mark i rules sv ar s t q r x : no_marks i -> no_mark_targets rules -> call_text i t -> make_request i sv ar s t "" = Ok q ->
  verdict rules q r x -> has_char quote_mark (destination r q) = false.
Proof.
  intros Nm Nt Ct M [F _]. unfold destination, sent_to. destruct (action_target (r_action r)) as [g|] eqn:A.
  - exact (Nt r g (find_In _ _ _ F) A).
  - eapply target_no_mark; eassumption.
Qed.
Lemma fresh_service (rules : list rule) : exists sv, forall r, In r rules -> r_service r <> Some sv.
Proof.
  assert (G : exists n, forall r sv, In r rules -> r_service r = Some sv -> String.length sv < n).
  { induction rules as [|x l [n H]]; [exists 0; intros ? ? []|].
    exists (n + S (match r_service x with Some sv => String.length sv | None => 0 end)). intros r sv [<-|Hr] E.
    - rewrite E. lia.
    - specialize (H _ _ Hr E). lia. }
  destruct G as [n H]. assert (L : exists sv, String.length sv = n).
  { clear. induction n as [|n [s <-]]; [exists ""; reflexivity|exists (String "a" s); reflexivity]. }
  destruct L as [sv <-]. exists sv. intros r Hr E. specialize (H _ _ Hr E). lia.
Qed.
Lemma full_edge name s r q x : edge_text full_graph name s r q x =
  Some (edge s (destination r q) (name +++ match r_arg r with Some arg => arg | None => "" end +++ " " +++ action_str (r_action r)) (color_of x)).
Proof. unfold edge_text. cbn [g_full g_skip full_graph]. rewrite app_assoc_s. reflexivity. Qed.
Lemma kept_edges i color rules rules' g g' :
  NoDup (map fst i) -> no_marks i -> no_mark_targets rules -> no_mark_targets rules' -> Forall wf_cols rules -> Forall wf_cols rules' ->
  graph_main i color full_graph rules = Ok g -> graph_main i color full_graph rules' = Ok g' -> incl g g' ->
  forall sv ar s t q r x, make_request i sv ar s t "" = Ok q -> verdict rules q r x -> call_text i t -> is_name i s ->
    (mentions rules (Some sv) (Some ar) \/ ~ mentions rules (Some sv) (Some "+")) ->
    exists name, (name = sv \/ name = "None" /\ r_service r = None) /\
      looks_like i rules' s (destination r q) (name +++ match r_arg r with Some arg => arg | None => "" end +++ " " +++ action_str (r_action r))
        (match x with RAsk _ => true | RAllow _ => false end).
Proof.
  intros Nd Nm Nt Nt' W W' G G' I sv ar s t q r x M V Ct Hs Me.
  assert (H : exists name, (name = sv \/ name = "None" /\ r_service r = None) /\ match edge_text full_graph name s r q x with Some l => In l g | None => True end).
  { refine (C86_complete_partial i color full_graph rules g sv ar s t q r x Nd W G M V Ct _ _ _); [left; auto|left; reflexivity|left; split; [left; reflexivity|exact Me]]. }
  destruct H as (name & N & H). exists name. split; [exact N|]. rewrite full_edge in H. apply I in H.
  set (lb := name +++ _) in *.
  assert (Ms : has_char quote_mark s = false) by (destruct Hs as [(d & Hs) _]; exact (Nm _ _ Hs)).
  assert (Md : has_char quote_mark (destination r q) = false) by exact (dest_no_mark i rules sv ar s t q r x Nm Nt Ct M V).
  destruct (C86_sound i color full_graph rules' g' _ Nd W' G' H) as [E|[E|[(n & E)|(name' & s' & t' & q' & r' & x' & E & Ct' & Hs' & _ & Q)]]].
  - destruct (proj1 (not_edge_head _ _ _ _) E).
  - destruct (proj2 (not_edge_head _ _ _ _) E).
  - destruct (not_edge_node _ _ _ _ _ _ _ E).
  - destruct Hs' as [[_ Hs']|[]]. rewrite full_edge in E. apply (f_equal (fun o => match o with Some z => z | None => "" end)) in E. cbv beta iota in E. symmetry in E.
    assert (Ms' : has_char quote_mark s' = false) by (destruct Hs' as [(d & Hs') _]; exact (Nm _ _ Hs')).
    assert (Md' : has_char quote_mark (destination r' q') = false).
    { destruct Q as [(ar' & M' & V' & _)|(_ & _ & Q)]; [exact (dest_no_mark i rules' name' ar' s' t' q' r' x' Nm Nt' Ct' M' V')|].
      destruct (fresh_service rules') as [sv0 F0]. destruct (Q sv0 "+" eq_refl F0) as (q0 & M0 & V0 & <-). exact (dest_no_mark i rules' sv0 _ s' t' q0 r' x' Nm Nt' Ct' M0 V0). }
    destruct (edge_parts _ _ _ _ _ _ _ _ E Ms Ms') as [<- E']. destruct (E' Md Md') as [D E'']. apply edge_end in E'' as [C L].
    exists name', t', q', r', x'. split; [exact Ct'|]. split; [exact Hs|]. split; [exact D|]. split; [destruct x, x'; try reflexivity; discriminate|].
    split; [exact L|]. destruct Q as [(ar' & M' & V' & _)|(-> & _ & Q)]; [left; eauto|right]. split; [reflexivity|].
    intros sv0 ar0 P F0. destruct (Q sv0 ar0 P F0) as (q0 & M0 & V0 & D0). exists q0. split; [exact M0|]. split; [exact V0|]. congruence.
Qed.
Lemma set_incl a b : set_eqb a b = true -> incl a b /\ incl b a.
Proof.
  unfold set_eqb. intros H. apply andb_true_iff in H as [A B]. rewrite forallb_forall in A, B.
  split; intros x Hx; apply smem_In; auto.
Qed.
(** If the tool ends without a question, every call between qubes that was let through looks
    like one that is let through now, and the other way round. Missing: calls with arguments
    that no rule mentions, if there is a rule for the empty argument; and the call need not be
    the same one (a rule for an argument is only seen in the calls with this argument). *)
Theorem C88_without_question_partial i color fuel services yes f ops rules rules' :
  convert i color fuel services yes f = (ops, Converted) -> NoDup (map fst i) -> no_marks i ->
  load_policy f POLICYPATH_OLD fuel [POLICYPATH] = Ok rules ->
  load_policy (fold_left apply_op ops f) POLICYPATH_OLD fuel [POLICYPATH] = Ok rules' ->
  no_mark_targets rules -> no_mark_targets rules' ->
  forall a b, (a = rules /\ b = rules' \/ a = rules' /\ b = rules) ->
  forall sv ar s t q r x, make_request i sv ar s t "" = Ok q -> verdict a q r x -> call_text i t -> is_name i s ->
    (mentions a (Some sv) (Some ar) \/ ~ mentions a (Some sv) (Some "+")) ->
    exists name, (name = sv \/ name = "None" /\ r_service r = None) /\
      looks_like i b s (destination r q) (name +++ match r_arg r with Some arg => arg | None => "" end +++ " " +++ action_str (r_action r))
        (match x with RAsk _ => true | RAllow _ => false end).
Proof.
  intros E Nd Nm L L' Nt Nt'. apply convert_cases in E as [[_ [e E]]|(all & new & ops1 & r1 & initial & _ & _ & G & Es & H)]; [discriminate|].
  destruct H as [[_ [e E]]|(b1 & names & ops2 & b2 & _ & H)]; [discriminate|]. cbn zeta in H. destruct H as (_ & _ & H).
  destruct H as [[_ [e E]]|(current & G' & H)]; [discriminate|].
  destruct H as [(-> & S & _)|[(_ & _ & _ & E)|(_ & _ & ops3 & r & _ & _ & E)]]; [|discriminate|destruct r; discriminate].
  apply set_incl in S as [S S']. rewrite <- fold_left_app in G'. unfold graph_of in G, G'. rewrite L in G. rewrite L' in G'. cbn [bind] in G, G'.
  pose proof (loaded_cols _ _ _ _ _ L) as W. pose proof (loaded_cols _ _ _ _ _ L') as W'.
  intros a b [[-> ->]|[-> ->]] sv ar s t q r x; [eapply (kept_edges i color rules rules' initial current)|eapply (kept_edges i color rules' rules current initial)]; eassumption.
Qed.
(** a question is asked only if the two graphs are different *)
Theorem C88_question i color fuel services yes f ops : convert i color fuel services yes f = (ops, ConvertedAnyway) ->
  exists rules rules' g g',
    load_policy f POLICYPATH_OLD fuel [POLICYPATH] = Ok rules /\ graph_main i color full_graph rules = Ok g /\
    load_policy (fold_left apply_op ops f) POLICYPATH_OLD fuel [POLICYPATH] = Ok rules' /\ graph_main i color full_graph rules' = Ok g' /\
    exists l, In l g /\ ~ In l g' \/ In l g' /\ ~ In l g.
Proof.
  intros E. apply convert_cases in E as [[_ [e E]]|(all & new & ops1 & r1 & initial & _ & _ & G & Es & H)]; [discriminate|].
  destruct H as [[_ [e E]]|(b1 & names & ops2 & b2 & _ & H)]; [discriminate|]. cbn zeta in H. destruct H as (_ & _ & H).
  destruct H as [[_ [e E]]|(current & G' & H)]; [discriminate|].
  destruct H as [(_ & _ & E)|[(-> & S & _)|(_ & _ & ops3 & r & _ & _ & E)]]; [discriminate| |destruct r; discriminate].
  rewrite <- fold_left_app in G'. unfold graph_of in G, G'.
  destruct (load_policy f POLICYPATH_OLD fuel [POLICYPATH]) as [rules|] eqn:L; [|discriminate].
  destruct (load_policy (fold_left apply_op (ops1 ++ ops2) f) POLICYPATH_OLD fuel [POLICYPATH]) as [rules'|] eqn:L'; [|discriminate].
  exists rules, rules', initial, current. split; [reflexivity|]. split; [exact G|]. split; [reflexivity|]. split; [exact G'|].
  unfold set_eqb in S. apply andb_false_iff in S.
  assert (X : forall a b, forallb (fun x => smem x b) a = false -> exists l, In l a /\ ~ In l b).
  { clear. intros a b. induction a as [|x a IH]; cbn; [discriminate|]. destruct (smem x b) eqn:M; cbn.
    - intros H. destruct (IH H) as (l & A & B). exists l. auto.
    - intros _. exists x. split; [auto|]. intros H. apply smem_In in H. congruence. }
  destruct S as [S|S]; apply X in S as (l & A & B); exists l; auto.
Qed.
(** a conversion without a question *)
Definition ex_quiet : fs := base ++ [old "svc" ["work vault allow,target=vault"; "sys-net vault ask"]; old "other" ["work vault ask,default_target=vault"]].
Definition quiet_after : fs := snd (run true [Some "svc"; Some "other"] ex_quiet).
Definition loaded (f : fs) : list rule := match load_policy f POLICYPATH_OLD 9 [POLICYPATH] with Ok r => r | Err _ => [] end.
Lemma ex_marks : no_marks ex_info.
Proof. intros n d H. apply dget_In in H. apply (in_map fst) in H. vm_compute in H. intuition (subst; reflexivity). Qed.
Lemma marks_check rules : forallb (fun r => match action_target (r_action r) with Some t => negb (has_char quote_mark (tok_str t)) | None => true end) rules = true -> no_mark_targets rules.
Proof.
  intros H r t Hr A. rewrite forallb_forall in H. specialize (H r Hr). cbv beta in H. rewrite A in H. destruct (has_char quote_mark (tok_str t)); [discriminate|reflexivity].
Qed.
Example C88_quiet_example : fst (run true [Some "svc"; Some "other"] ex_quiet) = Converted /\ no_marks ex_info /\
  load_policy ex_quiet POLICYPATH_OLD 9 [POLICYPATH] = Ok (loaded ex_quiet) /\ load_policy quiet_after POLICYPATH_OLD 9 [POLICYPATH] = Ok (loaded quiet_after) /\
  no_mark_targets (loaded ex_quiet) /\ no_mark_targets (loaded quiet_after) /\ length (loaded ex_quiet) = 6 /\
  exists q r x, make_request ex_info "svc" "+" "work" "vault" "" = Ok q /\ verdict (loaded ex_quiet) q r x.
Proof.
  split; [vm_compute; reflexivity|]. split; [exact ex_marks|]. split; [vm_compute; reflexivity|]. split; [vm_compute; reflexivity|].
  split; [apply marks_check; vm_compute; reflexivity|]. split; [apply marks_check; vm_compute; reflexivity|]. split; [vm_compute; reflexivity|].
  eexists _, _, _. split; [vm_compute; reflexivity|]. split; vm_compute; reflexivity.
Qed.
