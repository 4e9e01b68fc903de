(** * C53, C54, C84, C85: the dialog and the notifications of the policy agent *)
From Coq Require Import String Ascii List Bool Arith ZArith Lia.
From Verif Require Import Base SysInfo Token Rule Policy Sanitize SpecPolicy AskProofs Dialog SpecDialog DialogProofs.
From Verif Require PolicyExec ExecProofs Props_Policy EvalSvc.
Import ListNotations.
Open Scope string_scope.
Open Scope list_scope.
Open Scope Z_scope.

(** ** C53: focus stealing *)
(** The dialog does not react unless it has had the focus for a second, without interruption *)
Theorem C53_no_reaction p entries h t w t' ev : history p entries h t w -> t <= t' -> answers ev ->
  (forall t0, focused_since h t0 -> t' < t0 + 1000) ->
  step entries (p_targets p) t' ev w = w.
Proof.
  intros H Ht A N. apply inv_holds in H. assert (C : w_completed w = false).
  { destruct (w_completed w) eqn:C; [|reflexivity]. destruct (i_completed _ _ _ _ _ H C) as (t0 & H1 & H2). apply N in H1. lia. }
  destruct A as [->|[->|[->| ->]]]; cbn [step]; unfold clicked_ok, clicked_cancel; rewrite C; [reflexivity| |reflexivity|reflexivity].
  destruct (get_valid_qube_name _ _ _ _); reflexivity.
Qed.
(** so a call is allowed only by an action of the user in such a window *)
Theorem C53_allowed p entries h t w : history p entries h t w -> answer w <> "deny" ->
  exists h1 t1 ev h2 t0, h = h1 ++ (t1, ev) :: h2 /\ accepts ev /\ focused_since h1 t0 /\ t0 + 1000 <= t1.
Proof.
  intros H A. apply inv_holds in H. apply (i_confirmed _ _ _ _ _ H). unfold answer in A.
  destruct (w_confirmed w) as [[]|]; [reflexivity|congruence|congruence].
Qed.
(** and the OK button is active only then, and only when a target is selected *)
Theorem C53_button p entries h t w : history p entries h t w -> w_ok_sensitive w = true ->
  w_target w <> None /\ exists t0, focused_since h t0 /\ t0 + 1000 <= t.
Proof.
  intros H S. apply inv_holds in H. rewrite (i_ok _ _ _ _ _ H) in S. apply andb_prop in S as [S1 S2]. split.
  - rewrite (i_wanted _ _ _ _ _ H) in S2. destruct (w_target w); [discriminate|discriminate].
  - apply (i_completed _ _ _ _ _ H S1).
Qed.
(** Conversely: once it has had the focus for a second, and the timers that are due have gone
    off, it reacts *)
Theorem C53_reacts p entries h t w t' t0 : history p entries h t w -> t <= t' -> focused_since h t0 -> t0 + 1000 <= t' ->
  (forall id due, In (id, due) (w_timers w) -> t' < due) ->
  w_ok_sensitive w = (match w_target w with Some _ => true | None => false end) /\
  (forall x, w_target w = Some x -> x <> "" -> answer (step entries (p_targets p) t' ClickOk w) = "allow:" +++ x) /\
  answer (step entries (p_targets p) t' ClickCancel w) = "deny" /\
  answer (step entries (p_targets p) t' (Key true) w) = "deny".
Proof.
  intros H Ht F Hd Q. apply inv_holds in H. destruct (i_live _ _ _ _ _ H t0 F) as [C|Hi]; [|apply Q in Hi; lia].
  split; [|split; [|split]].
  - rewrite (i_ok _ _ _ _ _ H), C, (i_wanted _ _ _ _ _ H). destruct (w_target w); reflexivity.
  - intros x Hx Nx. cbn [step]. unfold clicked_ok. rewrite C. unfold answer. cbn [set_confirmed w_confirmed w_target]. rewrite Hx.
    destruct (String.eqb_spec x ""); [congruence|reflexivity].
  - cbn [step]. unfold clicked_cancel. rewrite C. reflexivity.
  - cbn [step]. unfold clicked_cancel. rewrite C. reflexivity.
Qed.

(** ** C54: only targets from the list *)
Lemma display_shown n : shown_as n (display_name n).
Proof.
  unfold display_name. destruct (starts "@dispvm:" n) eqn:E.
  - apply starts_spec in E as [x ->]. left. exists x. auto.
  - right. split; [|reflexivity]. intros base ->. cbn in E. discriminate.
Qed.
Lemma shown_display n x : shown_as n x -> x = display_name n.
Proof.
  unfold display_name. intros [(b & -> & ->)|[N ->]]; [reflexivity|].
  destruct (starts "@dispvm:" n) eqn:E; [|reflexivity]. apply starts_spec in E as [b ->]. destruct (N b eq_refl).
Qed.
(** The answer names a target of the list, which was shown and selected when the dialog was
    closed *)
Theorem C54_listed p entries h t w x : history p entries h t w -> answer w = "allow:" +++ x ->
  In x (p_targets p) /\ In x (p_icons p) /\ exists text, shown_as x text /\ (w_active w = Some text \/ w_typed w = text).
Proof.
  intros H A. assert (Ow : exists w0, open_window p = Some (entries, w0)).
  { clear A. induction H; eauto. }
  destruct Ow as (w0 & Ow). apply entries_spec in Ow as [_ Es]. apply inv_holds in H.
  assert (T : w_target w = Some x).
  { unfold answer in A. destruct (w_confirmed w) as [[]|]; try discriminate. destruct (w_target w) as [y|]; [|discriminate].
    destruct (String.eqb y ""); [discriminate|]. assert (E : "allow:" +++ y = "allow:" +++ x) by exact A. apply app_inj_l in E. now subst. }
  rewrite (i_target _ _ _ _ _ H) in T. apply selected_sound in T as (I & text & D & S). apply Es in D as [Ic ->].
  split; [auto|]. split; [auto|]. exists (display_name x). split; [apply display_shown|]. destruct S as [S|S]; auto.
Qed.
Theorem C54_answers p entries h t w : history p entries h t w ->
  answer w = "deny" \/ exists x, x <> "" /\ answer w = "allow:" +++ x.
Proof.
  intros _. unfold answer. destruct (w_confirmed w) as [[]|]; auto. destruct (w_target w) as [y|]; [|auto].
  destruct (String.eqb_spec y ""); eauto.
Qed.
(** Each target of the list that has an icon can be selected *)
Theorem C85_selectable p entries h t w t' x text : history p entries h t w -> x <> "" ->
  In x (p_targets p) -> In x (p_icons p) -> shown_as x text ->
  w_target (step entries (p_targets p) t' (Changed (Some text) text) w) = Some x /\
  w_target (step entries (p_targets p) t' (Changed None text) w) = Some x.
Proof.
  intros H Nx Ht Hi Sh. assert (Ow : exists w0, open_window p = Some (entries, w0)) by (induction H; eauto).
  destruct Ow as (w0 & Ow). apply entries_spec in Ow as [_ Es]. apply shown_display in Sh. subst text.
  assert (D : dget entries (display_name x) = Some x) by (apply Es; auto).
  assert (V : valid_entry entries (p_targets p) (display_name x) = true) by (apply valid_entry_spec; eauto).
  assert (Nd : String.eqb (display_name x) "" = false).
  { apply String.eqb_neq. unfold display_name. destruct (starts "@dispvm:" x); [discriminate|exact Nx]. }
  cbn [step]. unfold select, combo_change, update_ok_button_sensitivity, request_sensitivity.
  cbn [w_target w_active w_typed]. unfold get_valid_qube_name. rewrite V, Nd, ?V, ?Nd. rewrite D. auto.
Qed.
(** The default target is selected from the start *)
Theorem C85_default p entries w : open_window p = Some (entries, w) -> p_default p <> "" -> p_default p <> p_source p ->
  In (p_default p) (p_targets p) -> In (p_default p) (p_icons p) -> w_target w = Some (p_default p).
Proof.
  intros Ow Nd Ns Ht Hi. pose proof (entries_spec _ _ _ Ow) as [_ Es].
  pose proof (inv_start p entries w 0 Ow) as In0. rewrite (i_target _ _ _ _ _ In0). clear In0.
  unfold open_window in Ow. destruct (sanitize_domain_name (p_source p) true); [|discriminate].
  destruct (sanitize_service_name (p_service p) true); [|discriminate].
  destruct (create_entries (p_icons p) []) as [e'|]; [|discriminate].
  destruct (dget e' (p_source p)); [|discriminate]. assert (e' = entries) by congruence. subst e'.
  destruct (String.eqb_spec (p_default p) ""); [congruence|]. destruct (String.eqb_spec (p_default p) (p_source p)); [congruence|].
  assert (D : dget entries (display_name (p_default p)) = Some (p_default p)) by (apply Es; auto).
  assert (L : in_list entries (p_targets p) (p_default p) = Some (display_name (p_default p))).
  { unfold in_list. destruct (find _ (map fst entries)) as [k|] eqn:Fd.
    - apply find_some in Fd as [F1 F2]. destruct (dget entries k) as [v|] eqn:Dk; [|discriminate].
      apply andb_prop in F2 as [_ F2]. apply String.eqb_eq in F2. subst v. apply Es in Dk as [_ ->]. reflexivity.
    - exfalso. assert (K : In (display_name (p_default p)) (map fst entries)).
      { apply (in_map fst entries (display_name (p_default p), p_default p)). now apply dget_In. }
      pose proof (find_none _ _ Fd _ K) as Z. cbv beta in Z. rewrite D, String.eqb_refl, andb_true_r in Z.
      apply smem_In in Ht. congruence. }
  rewrite L in Ow. assert (W : select entries (p_targets p) (Some (display_name (p_default p))) (display_name (p_default p))
    (combo_change entries (p_targets p) (mkWin None "" 0 false false false None None [])) = w) by congruence.
  rewrite <- W. cbn [select combo_change update_ok_button_sensitivity request_sensitivity w_active w_typed].
  unfold selected, get_valid_qube_name.
  assert (V : valid_entry entries (p_targets p) (display_name (p_default p)) = true) by (apply valid_entry_spec; eauto).
  assert (Nn : String.eqb (display_name (p_default p)) "" = false).
  { apply String.eqb_neq. unfold display_name. destruct (starts "@dispvm:" (p_default p)); [discriminate|exact Nd]. }
  rewrite V, Nn, ?V, ?Nn. exact D.
Qed.

(** ** The policy daemon and the dialog together *)
(** what the daemon asks for *)
Definition asked (q : request) (k : ask_res) : params :=
  mkParams (q_source q) (q_service q) (q_arg q) (k_targets k) (match k_default k with Some d => d | None => "" end) (icon_names (q_info q)).
Lemma icon_disposable i x : wf_info i -> In ("@dispvm:" +++ x) (icon_names i) -> x <> "" /\ starts "@" x = false.
Proof.
  intros W H. unfold icon_names in H. apply in_app_or in H as [H|H].
  - apply in_map_iff in H as ([k d] & E & H). apply filter_In in H as [H _]. cbn [fst] in E.
    assert (D : dget i k = Some d) by (apply In_dget; [apply (wf_nodup i W)|exact H]).
    apply (wf_keys i W) in D as (Pn & _ & [Ek|(u & _ & Ek)]).
    + exfalso. rewrite <- Ek, E in Pn. discriminate.
    + exfalso. rewrite E in Ek. discriminate.
  - apply in_map_iff in H as ([k d] & E & H). apply filter_In in H as [H F]. cbn [fst snd] in *.
    assert (E2 : k = x) by (apply (app_inj_l "@dispvm:" k x); exact E). subst k.
    assert (D : dget i x = Some d) by (apply In_dget; [apply (wf_nodup i W)|exact H]).
    apply (wf_keys i W) in D as (Pn & _ & [Ek|(u & _ & Ek)]).
    + rewrite <- Ek in Pn. unfold plain_name in Pn. destruct (String.eqb_spec x ""); [discriminate|]. split; [auto|].
      destruct (starts "@" x); [discriminate|reflexivity].
    + rewrite Ek in F. discriminate.
Qed.
(** The daemon allows the call exactly if the dialog was answered that way *)
Theorem C54_obeyed je q k entries h t w r evs : wf_info (q_info q) -> history (asked q k) entries h t w ->
  PolicyExec.run_ask PolicyExec.KK_Agent (PolicyExec.allow_type je) (Some (answer w)) q k = (r, evs) ->
  (exists d g, dget (q_info q) (q_source q) = Some d /\ d_guivm d = Some g /\ g <> "") ->
  (answer w = "deny" -> r = Err (EAccessDenied (k_notify k))) /\
  (forall x, answer w = "allow:" +++ x -> In x (k_targets k) /\ r = fst (PolicyExec.run_allow (PolicyExec.allow_type je) q (mkAllow (k_user k) x (k_autostart k) (k_notify k)))).
Proof.
  intros Wi H R (d & g & Hd & Hg & Ng). unfold PolicyExec.run_ask in R. rewrite Hd in R.
  assert (Fg : falsy (d_guivm d) = false) by (rewrite Hg; destruct g; [congruence|reflexivity]). rewrite Fg in R. split.
  - intros A. rewrite A in R. change (String.eqb "deny" "deny") with true in R. cbn in R. congruence.
  - intros x A. destruct (C54_listed _ _ _ _ _ _ H A) as (I & _). cbn [asked p_targets] in I. split; [exact I|].
    destruct (C54_listed _ _ _ _ _ _ H A) as (_ & Ic & _). cbn [asked p_icons] in Ic.
    rewrite A in R. change (String.eqb ("allow:" +++ x) "deny") with false in R. change (starts "allow:" ("allow:" +++ x)) with true in R.
    change (sdrop 6 ("allow:" +++ x)) with x in R. cbv iota in R. unfold PolicyExec.run_response, handle_user_response in R. cbn [negb] in R.
    assert (S : smem x (k_targets k) = true) by (now apply smem_In). rewrite S in R. cbn [negb] in R.
    assert (Fr : from_ask_resolution k x = Ok (mkAllow (k_user k) x (k_autostart k) (k_notify k))).
    { unfold from_ask_resolution. destruct (starts "@dispvm:" x) eqn:E; [|reflexivity].
      apply starts_spec in E as [v ->]. destruct (icon_disposable _ _ Wi Ic) as [Nv Sv].
      rewrite (parse_dispvm CDispTmpl v); [reflexivity|left; reflexivity|exact Nv|exact Sv]. }
    rewrite Fr in R. destruct (PolicyExec.run_allow _ _ _) as [r' evs']. cbn [fst]. congruence.
Qed.
(** Every choice that is offered is in the list that is shown, if the default disposable of the
    caller is based on a template for disposables *)
Lemma icon_qube i n d : wf_info i -> dget i n = Some d -> starts "uuid:" n = false -> In n (icon_names i).
Proof.
  intros W D U. unfold icon_names. apply in_or_app. left. apply in_map_iff. exists (n, d). split; [reflexivity|].
  apply filter_In. split; [now apply dget_In|]. cbn [fst]. now rewrite U.
Qed.
Lemma icon_disp i n d : wf_info i -> dget i n = Some d -> starts "uuid:" n = false -> d_tmpl d = true -> In ("@dispvm:" +++ n) (icon_names i).
Proof.
  intros W D U T. unfold icon_names. apply in_or_app. right. apply in_map_iff. exists (n, d). split; [reflexivity|].
  apply filter_In. split; [now apply dget_In|]. cbn [fst snd]. now rewrite U, T.
Qed.
Lemma plain_not_uuid n : plain_name n = true -> starts "uuid:" n = false.
Proof. unfold plain_name. destruct (starts "uuid:" n); [|reflexivity]. rewrite andb_false_r. discriminate. Qed.
Definition default_disposable_ok (q : request) : Prop :=
  forall d w, dget (q_info q) (q_source q) = Some d -> d_ddisp d = Some w ->
    (forall u, w <> "uuid:" +++ u) /\ exists dw, dget (q_info q) w = Some dw /\ d_tmpl dw = true.
Theorem C85_offered_partial rules r q dt u n a k x : wf_call q -> default_disposable_ok q ->
  ask_evaluate rules r q None dt u n a = Ok (RAsk k) -> In x (k_targets k) -> In x (icon_names (q_info q)).
Proof.
  intros Wc Dd E Hx. apply (ExecProofs.ask_dialog _ _ _ _ _ _ _ _ _ Wc) in E as (Hc & _). apply Hc in Hx as [Ho _].
  destruct Wc as [W _ _ _]. destruct Ho as ((y & (l1 & r0 & l2 & _ & _ & [_ Hl] & _) & Hp) & _ & d & Hd & _).
  destruct Hp as [w d0 Hs Hw| |z N1 N2].
  - destruct (Dd d0 w Hs Hw) as (Nu & dw & Hdw & Ht). eapply icon_disp; eauto.
    destruct (starts "uuid:" w) eqn:Eu; [|reflexivity]. apply starts_spec in Eu as [v ->]. destruct (Nu v eq_refl).
  - eapply icon_qube; [exact W|exact Hd|reflexivity].
  - inversion Hl; subst; try congruence; try (eapply icon_qube; eassumption); try (eapply icon_disp; eassumption).
    + match goal with H : dget _ _ = Some ?d0 |- In (d_name ?d0) _ => apply (wf_keys _ W) in H as (Pn & Dn & _); eapply icon_qube; [exact W|exact Dn|now apply plain_not_uuid] end.
    + match goal with H : dget _ _ = Some ?d0 |- In (_ +++ d_name ?d0) _ => apply (wf_keys _ W) in H as (Pn & Dn & _); eapply icon_disp; [exact W|exact Dn|now apply plain_not_uuid|assumption] end.
Qed.
(** but a rule that redirects to a new disposable, target=@dispvm, offers a choice that the
    dialog cannot show: the user can only refuse *)
Theorem C85_nothing_to_choose p entries h t w : history p entries h t w ->
  (forall x, In x (p_targets p) -> ~ In x (p_icons p)) -> answer w = "deny".
Proof.
  intros H N. destruct (C54_answers _ _ _ _ _ H) as [A|(x & _ & A)]; [exact A|].
  destruct (C54_listed _ _ _ _ _ _ H A) as (I1 & I2 & _). destruct (N x I1 I2).
Qed.
Theorem C85_redirect_refuted : exists rules q k, wf_call q /\ (forall r, In r rules -> wf_rule r) /\ default_disposable_ok q /\
  evaluate rules q = Ok (RAsk k) /\ k_targets k = ["@dispvm"] /\
  forall entries h t w, history (asked q k) entries h t w -> answer w = "deny".
Proof.
  exists (Props_Policy.rules_of ["x * work @dispvm ask target=@dispvm"]), (Props_Policy.call "x" "work" "@dispvm"). eexists.
  split; [apply Props_Policy.call_wf; reflexivity|]. split; [apply Props_Policy.rules_of_wf|]. split.
  - intros d w Hd Hw. vm_compute in Hd. assert (E : d_ddisp d = Some "dvm") by (injection Hd as <-; reflexivity).
    assert (w = "dvm") by congruence. subst w. split; [discriminate|]. eexists. split; [vm_compute; reflexivity|reflexivity].
  - split; [vm_compute; reflexivity|]. split; [reflexivity|]. intros entries h t w H. apply (C85_nothing_to_choose _ _ _ _ _ H).
    intros x Hx Hi. cbn [asked p_targets k_targets p_icons] in *. destruct Hx as [<-|[]]. vm_compute in Hi.
    repeat (destruct Hi as [Hi|Hi]; [discriminate|]). exact Hi.
Qed.
(** The target that is allowed is the one selected when the window closes. GTK closes it some
    time after the click, and until then the selection may still change. *)
Definition ex_params : params := mkParams "work" "qubes.Gpg" "+" ["vault"; "@dispvm:dvm"] "vault" ["work"; "vault"; "dvm"; "@dispvm:dvm"].
Lemma opened p : match open_window p with Some (e, w) => history p e [] 0 w | None => True end.
Proof. destruct (open_window p) as [[e w]|] eqn:E; [|exact I]. now constructor. Qed.
Fixpoint play (e : list (string * string)) (targets : list string) (w : window) (evs : list (Z * event)) : window :=
  match evs with [] => w | (t, ev) :: evs' => play e targets (step e targets t ev w) evs' end.
Fixpoint timely (e : list (string * string)) (targets : list string) (t : Z) (w : window) (evs : list (Z * event)) : Prop :=
  match evs with
  | [] => True
  | (t', ev) :: evs' => t <= t' /\ (forall id, ev = TimerFires id -> exists due, In (id, due) (w_timers w) /\ due <= t') /\
      timely e targets t' (step e targets t' ev w) evs'
  end.
Lemma play_history p e evs : forall h t w, history p e h t w -> timely e (p_targets p) t w evs ->
  exists t', history p e (h ++ evs) t' (play e (p_targets p) w evs).
Proof.
  induction evs as [|[t' ev] evs IH]; intros h t w H T; [exists t; rewrite app_nil_r; exact H|].
  destruct T as (T1 & T2 & T3). cbn [play]. destruct (IH (h ++ [(t', ev)]) t' (step e (p_targets p) t' ev w)) as (t2 & H2); auto.
  - apply history_event with (t := t); auto.
  - exists t2. rewrite <- app_assoc in H2. exact H2.
Qed.
Lemma last_time p e h t w h0 t0 ev : history p e h t w -> h = h0 ++ [(t0, ev)] -> t = t0.
Proof.
  intros H. destruct H as [t w O|h t w t' ev' H L T]; intros E; [destruct h0; discriminate|]. apply app_inj_tail in E as [_ E]. congruence.
Qed.
Theorem C54_changed_after_click_refuted : exists p entries h1 t1 w1 h2 t2 w2,
  history p entries (h1 ++ [(t1, ClickOk)]) t1 w1 /\ answer w1 = "allow:vault" /\
  history p entries ((h1 ++ [(t1, ClickOk)]) ++ h2) t2 w2 /\ answer w2 = "allow:@dispvm:dvm" /\
  (forall t ev, In (t, ev) h2 -> ~ accepts ev).
Proof.
  pose proof (opened ex_params) as O. destruct (open_window ex_params) as [[e w]|] eqn:Eo; [|vm_compute in Eo; discriminate].
  vm_compute in Eo. assert (Ee : e = [("work", "work"); ("vault", "vault"); ("dvm", "dvm"); ("Disposable VM (dvm)", "@dispvm:dvm")]) by congruence.
  assert (Ew : w = mkWin (Some "vault") "vault" 0 false true false (Some "vault") None []) by congruence. clear Eo.
  destruct (play_history ex_params e [(0, StateEvent true true); (1000, TimerFires 1); (1500, ClickOk)] [] 0 w O) as (t1 & H1).
  { subst e w. cbn [timely]. repeat split; try lia; try discriminate. intros id E. exists 1000. split; [|lia]. left. assert (id = 1) by congruence. subst id. reflexivity. }
  exists ex_params, e, [(0, StateEvent true true); (1000, TimerFires 1)], 1500.
  assert (T1 : t1 = 1500).
  { apply (last_time _ _ _ _ _ [(0, StateEvent true true); (1000, TimerFires 1)] 1500 ClickOk H1). reflexivity. }
  subst t1. eexists. exists [(1501, Changed (Some "Disposable VM (dvm)") "Disposable VM (dvm)")].
  destruct (play_history ex_params e [(1501, Changed (Some "Disposable VM (dvm)") "Disposable VM (dvm)")] _ _ _ H1) as (t2 & H2).
  { cbn [timely]. repeat split; try lia. discriminate. }
  exists t2. eexists. split; [exact H1|]. split; [subst e w; vm_compute; reflexivity|]. split; [exact H2|].
  split; [subst e w; vm_compute; reflexivity|]. intros t ev [X|[]] A. assert (ev = Changed (Some "Disposable VM (dvm)") "Disposable VM (dvm)") by congruence.
  subst ev. destruct A; discriminate.
Qed.
Example C53_example : exists e w0 w1,
  open_window ex_params = Some (e, w0) /\
  play e ["vault"; "@dispvm:dvm"] w0 [(0, StateEvent true true); (999, ClickOk); (1000, Activate); (1000, TimerFires 1)] = w1 /\
  w_confirmed w1 = None /\ w_ok_sensitive w1 = true /\ answer (step e ["vault"; "@dispvm:dvm"] 1001 Activate w1) = "allow:vault".
Proof. eexists _, _, _. repeat split; vm_compute; reflexivity. Qed.

(** ** C84: markup *)
(** Whatever the names are, they are shown as they are; nothing in them acts as markup *)
Theorem C84_escaped s : displayed (markup_escape_text s) = Some (plain s).
Proof.
  unfold displayed. rewrite <- (app_nil_s (markup_escape_text s)), display_escape. cbn. now rewrite app_nil_r.
Qed.
Definition service_text (service argument : string) : list (bool * ascii) :=
  match split1 "." service with
  | Some (domain, name) => if String.eqb name "" then strong service else plain (domain +++ ".") ++ strong name
  | None => strong service
  end ++ (if String.eqb argument "+" then [] else plain argument).
Lemma display_strong s rest : display false Text ("<b>" +++ markup_escape_text s +++ "</b>" +++ rest) = option_map (app (strong s)) (display false Text rest).
Proof. rewrite display_open, display_escape, display_close. reflexivity. Qed.
Lemma display_text s rest : display false Text (markup_escape_text s +++ rest) = option_map (app (plain s)) (display false Text rest).
Proof. apply display_escape. Qed.
Lemma list_app a b : list_ascii_of_string (a +++ b) = list_ascii_of_string a ++ list_ascii_of_string b.
Proof. induction a as [|c a IH]; [reflexivity|]. cbn. now rewrite IH. Qed.
Theorem C84_dialog service argument : displayed (escape_and_format_rpc_text service argument) = Some (service_text service argument).
Proof.
  unfold displayed, escape_and_format_rpc_text, service_text.
  assert (A : display false Text (if String.eqb (markup_escape_text argument) "+" then "" else markup_escape_text argument) =
              Some (if String.eqb argument "+" then [] else plain argument)).
  { destruct (String.eqb_spec argument "+") as [->|N].
    - reflexivity.
    - destruct (String.eqb_spec (markup_escape_text argument) "+") as [E|_].
      + exfalso. pose proof (C84_escaped argument) as P. rewrite E in P. cbn in P. unfold plain in P.
        destruct argument as [|c [|c' argument]]; [discriminate| |discriminate]. apply N. cbn in P. congruence.
      + apply C84_escaped. }
  destruct (split1 "." service) as [[domain name]|] eqn:Sp.
  - apply split1_spec in Sp as [-> Nd].
    assert (Sp : split1 "." (markup_escape_text (domain +++ String "." name)) = Some (markup_escape_text domain, markup_escape_text name)).
    { rewrite escape_app. change (markup_escape_text (String "." name)) with (String "." (markup_escape_text name)).
      apply EvalSvc.split1_some. rewrite escape_dot. exact Nd. }
    rewrite Sp. destruct (String.eqb_spec name "") as [->|Nn].
    + change (String.eqb (markup_escape_text "") "") with true. cbv iota. rewrite !app_assoc_s.
      rewrite display_strong, A. reflexivity.
    + destruct (String.eqb_spec (markup_escape_text name) "") as [E|_]; [apply escape_empty in E; congruence|].
      rewrite !app_assoc_s. rewrite display_text. change (".<b>" +++ ?x) with (String "." ("<b>" +++ x)).
      rewrite (display_plain false "." eq_refl eq_refl), display_strong, A. unfold plain. rewrite list_app, map_app, <- !app_assoc. reflexivity.
  - assert (Sp' : split1 "." (markup_escape_text service) = None).
    { apply split1_None. rewrite escape_dot. now apply split1_None. }
    rewrite Sp'. rewrite !app_assoc_s, display_strong, A. reflexivity.
Qed.
(** The notifications *)
Lemma display_lit l rest : has_char "<" l = false -> has_char "&" l = false ->
  display false Text (l +++ rest) = option_map (app (plain l)) (display false Text rest).
Proof.
  induction l as [|c l IH]; intros H1 H2.
  - cbn. destruct (display false Text rest); reflexivity.
  - cbn [has_char] in *. apply orb_false_iff in H1 as [H1 H1']. apply orb_false_iff in H2 as [H2 H2'].
    rewrite Ascii.eqb_sym in H1, H2. cbn [String.append]. rewrite display_plain by assumption. rewrite IH by assumption.
    destruct (display false Text rest); reflexivity.
Qed.
Theorem C84_notification resolution service argument source target :
  let rpc := if String.eqb argument "+" then service else service +++ argument in
  let text (verb before after : string) :=
    option_map displayed (notify_body resolution service argument source target) =
    Some (Some (plain verb ++ strong rpc ++ plain before ++ strong source ++ plain " to " ++ strong target ++ plain after)) in
  (resolution = "allow" -> text "Allowed " " from " "") /\
  (resolution = "deny" -> text "Denied " " from " "") /\
  (resolution = "fail" -> text "Failed to execute " " (from " ")") /\
  (notify_body resolution service argument source target = None <-> ~ In resolution ["allow"; "deny"; "fail"]).
Proof.
  cbv zeta. remember (if String.eqb argument "+" then service else service +++ argument) as rpc eqn:Er.
  assert (G : forall verb before after, has_char "<" verb = false -> has_char "&" verb = false -> has_char "<" before = false -> has_char "&" before = false ->
    has_char "<" after = false -> has_char "&" after = false ->
    displayed (verb +++ "<b>" +++ markup_escape_text rpc +++ "</b>" +++ before +++ "<b>" +++ markup_escape_text source +++ "</b>" +++ " to " +++ "<b>" +++ markup_escape_text target +++ "</b>" +++ after) =
    Some (plain verb ++ strong rpc ++ plain before ++ strong source ++ plain " to " ++ strong target ++ plain after)).
  { intros verb before after H1 H2 H3 H4 H5 H6. unfold displayed. rewrite display_lit, display_strong, display_lit, display_strong by assumption.
    rewrite (display_lit " to ") by reflexivity. rewrite display_strong. rewrite <- (app_nil_s after) at 1. rewrite display_lit by assumption.
    cbn. rewrite app_nil_r. reflexivity. }
  unfold notify_body. rewrite <- Er. cbv zeta.
  split; [|split; [|split]].
  - intros ->. cbn [option_map]. f_equal. rewrite <- (G "Allowed " " from " "") by reflexivity. reflexivity.
  - intros ->. cbn [option_map]. f_equal. rewrite <- (G "Denied " " from " "") by reflexivity. reflexivity.
  - intros ->. cbn [option_map]. f_equal. rewrite <- (G "Failed to execute " " (from " ")") by reflexivity. reflexivity.
  - destruct (String.eqb_spec resolution "allow") as [->|N1]; [split; [discriminate|cbn; tauto]|].
    destruct (String.eqb_spec resolution "deny") as [->|N2]; [split; [discriminate|cbn; tauto]|].
    destruct (String.eqb_spec resolution "fail") as [->|N3]; [split; [discriminate|cbn; tauto]|].
    split; [|reflexivity]. intros _ [X|[X|[X|[]]]]; congruence.
Qed.
Example C84_example : displayed (escape_and_format_rpc_text "qubes.Open" "+<b>x</b>&amp;") =
  Some (plain "qubes." ++ strong "Open" ++ plain "+<b>x</b>&amp;").
Proof. vm_compute. reflexivity. Qed.

(** The dialog opens only if all qubes it would offer have valid names, a disposable being checked
    by the name of its template; and offers exactly them *)
Theorem C85_names p e w : open_window p = Some (e, w) ->
  (forall n, In ("@dispvm:" +++ n) (p_icons p) -> exists r, sanitize_domain_name n true = Ok r) /\
  (forall n, In n (p_icons p) -> starts "@dispvm:" n = false -> exists r, sanitize_domain_name n true = Ok r) /\
  (forall x api, dget e x = Some api <-> In api (p_icons p) /\
     ((exists n, api = "@dispvm:" +++ n /\ x = "Disposable VM (" +++ n +++ ")") \/ starts "@dispvm:" api = false /\ x = api)).
Proof.
  intros O. apply entries_spec in O as [On S]. split; [|split].
  - intros n Hn. apply On in Hn. unfold ok_name, vm_name in Hn. rewrite starts_app in Hn. exact Hn.
  - intros n Hn Nd. apply On in Hn. unfold ok_name, vm_name in Hn. rewrite Nd in Hn. exact Hn.
  - intros x api. rewrite S. unfold display_name. split; intros [H G]; (split; [exact H|]).
    + destruct (starts "@dispvm:" api) eqn:E; [|right; auto]. left. apply starts_spec in E as [n ->]. exists n. split; [reflexivity|exact G].
    + destruct G as [(n & -> & ->)|[E ->]]; [rewrite starts_app; reflexivity|rewrite E; reflexivity].
Qed.
