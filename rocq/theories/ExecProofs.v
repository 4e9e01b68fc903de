From Coq Require Import String Ascii List Bool Arith Lia.
From Verif Require Import Base SysInfo Token Rule Policy PolicyExec SpecPolicy TokenProofs MatchProofs EvalProofs AskProofs.
Import ListNotations.
Open Scope string_scope.
Open Scope list_scope.

Lemma shown_spec t x :
  (if is_dom0 (tok_str t) then "dom0" else tok_str t) = x <-> shown t x.
Proof.
  unfold shown. destruct (is_dom0 (tok_str t)) eqn:E.
  - apply is_dom0_spec in E. intuition congruence.
  - apply is_dom0_false in E. intuition congruence.
Qed.

Lemma filter_autostart_ok i l l' : filter_autostart i l = Ok l' ->
  forall x, In x l' <-> In x l /\ needs_no_start i x.
Proof.
  revert l'. induction l as [|t l IH]; simpl; intros l' H x.
  - inv H. simpl. tauto.
  - apply bind_ok in H as (b & Hb & H). apply bind_ok in H as (l2 & Hl & H). inv H.
    specialize (IH _ Hl x). destruct b.
    + apply needs_no_start_spec in Hb. simpl. rewrite IH. intuition congruence.
    + rewrite IH. split; [tauto|]. intros [[->|Hin] Hn]; auto.
      apply needs_no_start_spec in Hn. congruence.
Qed.

Lemma filter_autostart_total i l : (forall x, In x l -> means_dom0 x \/ starts "@dispvm" x = true \/ exists_qube i x) ->
  exists l', filter_autostart i l = Ok l'.
Proof.
  induction l as [|t l IH]; simpl; intros H; eauto.
  destruct IH as [l' ->]; auto.
  assert (exists b, allow_no_autostart i t = Ok b) as [b ->].
  { unfold allow_no_autostart. destruct (H t (or_introl eq_refl)) as [Hd|[Hd|[d Hd]]].
    - apply is_dom0_spec in Hd. rewrite Hd. eauto.
    - rewrite Hd. destruct (is_dom0 t); eauto.
    - rewrite Hd. destruct (is_dom0 t), (starts "@dispvm" t); eauto. }
  simpl. eauto.
Qed.

Definition base_targets (rules : list rule) (q : request) (t : option tok) : res (list string) :=
  match t with
  | Some t => Ok (if is_dom0 (tok_str t) then ["dom0"] else [tok_str t])
  | None => collect_targets_for_ask rules q
  end.

Lemma base_targets_exact rules q t l : wf_call q -> base_targets rules q t = Ok l ->
  forall x, In x l <-> match t with Some t => shown t x | None => offered rules q x end.
Proof.
  intros W H x. destruct t as [t|]; simpl in H.
  - inv H. rewrite <- shown_spec. destruct (is_dom0 (tok_str t)); simpl; intuition.
  - eapply collect_targets_exact; eauto.
Qed.

Definition default_of (q : request) (dt : option tok) : res (option string) :=
  match dt with
  | None => Ok None
  | Some TDisp => rmap (option_map tok_str) (get_dispvm_template (q_info q) (q_source q))
  | Some t => Ok (Some (if is_dom0 (tok_str t) then "dom0" else tok_str t))
  end.

Lemma default_of_spec q dt : wf_refs (q_info q) ->
  exists o, default_of q dt = Ok o /\ forall x, o = Some x <-> default_choice q dt x.
Proof.
  intros R. unfold default_of, default_choice. destruct dt as [t|].
  - assert (Hg : forall t', exists o, @Ok (option string) (Some (if is_dom0 (tok_str t') then "dom0" else tok_str t')) = Ok o /\
              forall x, o = Some x <-> shown t' x).
    { intros t'. eexists. split; eauto. intros x. rewrite <- shown_spec. split; congruence. }
    destruct t; try (eapply Hg).
    rewrite get_dispvm_template_ok by auto. unfold rmap. cbn [bind]. eexists. split; [reflexivity|].
    intros x. destruct (dget (q_info q) (q_source q)) as [d|]; [destruct (d_ddisp d) as [w|] eqn:Ew|]; simpl.
    + split; [intros H; inv H; eauto|]. intros (d'&w'&Hd&Hw&->). inv Hd. congruence.
    + split; [discriminate|]. intros (d'&w'&Hd&Hw&->). congruence.
    + split; [discriminate|]. intros (d'&w'&Hd&Hw&->). congruence.
  - eexists. split; eauto. intros x. split; [discriminate|tauto].
Qed.

Lemma ask_unfold rules r q t dt u n a :
  ask_evaluate rules r q t dt u n a =
  do _ <- assert_match r q;
  do targets <- base_targets rules q t;
  do targets <- (if a then Ok targets else filter_autostart (q_info q) targets);
  match targets with
  | [] => denied
  | _ => do dflt <- default_of q dt;
         Ok (RAsk (mkAsk targets (match dflt with Some d => if smem d targets then Some d else None | None => None end) u a n))
  end.
Proof. reflexivity. Qed.

(** the dialog of an ask rule *)
Theorem ask_dialog rules r q t dt u n a k :
  wf_call q -> ask_evaluate rules r q t dt u n a = Ok (RAsk k) ->
  (forall x, In x (k_targets k) <-> choice rules q t a x) /\
  (forall x, k_default k = Some x <-> default_choice q dt x /\ In x (k_targets k)) /\
  k_targets k <> [] /\ k_user k = u /\ k_autostart k = a /\ k_notify k = n.
Proof.
  intros Wc H. pose proof Wc as [W R T S]. rewrite ask_unfold in H.
  apply bind_ok in H as (_ & _ & H). apply bind_ok in H as (l & Hl & H).
  apply bind_ok in H as (l' & Hl' & H).
  pose proof (base_targets_exact _ _ _ _ Wc Hl) as Hb.
  assert (Hc : forall x, In x l' <-> choice rules q t a x).
  { intros x. unfold choice. rewrite <- Hb. destruct a.
    - inv Hl'. intuition discriminate.
    - rewrite (filter_autostart_ok _ _ _ Hl'). intuition. }
  destruct l' as [|x0 l0]; [discriminate|].
  destruct (default_of_spec q dt R) as (o & Ho & Hd). rewrite Ho in H. cbn [bind] in H.
  set (l' := x0 :: l0) in *. inv H. cbn [k_targets k_default k_user k_autostart k_notify].
  split; [|split; [|split; [|auto]]]; auto.
  - intros x. rewrite <- Hd. destruct o as [y|].
    + destruct (smem y l') eqn:E.
      * apply smem_In in E. split; [intros H; inv H; auto|]. intros [H _]. auto.
      * apply smem_false in E. split; [discriminate|]. intros [H Hi]. inv H. contradiction.
    + split; [discriminate|]. intros [H _]. discriminate.
  - unfold l'. discriminate.
Qed.

(** what makes an ask rule evaluable *)
Definition ask_ready (rules : list rule) (q : request) (t : option tok) (a : bool) : Prop :=
  match t with
  | Some t => a = false -> means_dom0 (tok_str t) \/ starts "@dispvm" (tok_str t) = true \/
                           exists_qube (q_info q) (tok_str t)
  | None => (exists d u, dget (q_info q) (q_source q) = Some d /\ d_uuid d = Some u) /\
            exists_qube (q_info q) "dom0" /\
            (forall r, In r rules -> caller_applies r q -> expandable (q_info q) (target_spec r))
  end.

Lemma offered_entry rules q x : wf_call q -> exists_qube (q_info q) "dom0" -> offered rules q x ->
  starts "@dispvm" x = true \/ exists_qube (q_info q) x.
Proof.
  intros [W R T S] H0 ((y & (l1&r&l2&_&_&[_ Hl]&_) & Hp) & _ & d & Hd & _).
  inv Hp; auto. unfold entry_qube in Hd. destruct (starts "@dispvm:" x) eqn:E.
  - left. apply starts_split in E as [v ->]. reflexivity.
  - right. exists d. auto.
Qed.

Theorem ask_total rules r q t dt u n a :
  wf_call q -> is_match r q = Ok true -> ask_ready rules q t a ->
  (exists k, ask_evaluate rules r q t dt u n a = Ok (RAsk k)) \/
  (ask_evaluate rules r q t dt u n a = Err (EAccessDenied true) /\
   forall x, ~ choice rules q t a x).
Proof.
  intros Wc Hm Hr. pose proof Wc as [W R T S]. rewrite ask_unfold.
  unfold assert_match. rewrite Hm. cbn [bind].
  assert (exists l, base_targets rules q t = Ok l /\
     (a = false -> forall x, In x l -> means_dom0 x \/ starts "@dispvm" x = true \/ exists_qube (q_info q) x)) as (l & Hl & Ha).
  { destruct t as [t|]; simpl in *.
    - eexists. split; [reflexivity|]. intros Ha x Hx.
      destruct (is_dom0 (tok_str t)) eqn:E; simpl in Hx; destruct Hx as [<-|[]].
      + left. left. reflexivity.
      + auto.
    - destruct Hr as ((d & u0 & Hd & Hu) & H0 & He).
      destruct (collect_targets_total rules q d u0 Wc Hd Hu H0 He) as [l Hl].
      exists l. split; auto. intros _ x Hx. right. eapply offered_entry; eauto.
      eapply collect_targets_exact; eauto. }
  rewrite Hl. cbn [bind]. pose proof (base_targets_exact _ _ _ _ Wc Hl) as Hb.
  assert (exists l', (if a then Ok l else filter_autostart (q_info q) l) = Ok l') as [l' Hl'].
  { destruct a; eauto. apply filter_autostart_total. auto. }
  rewrite Hl'. cbn [bind].
  assert (Hc : forall x, In x l' <-> choice rules q t a x).
  { intros x. unfold choice. rewrite <- Hb. destruct a.
    - inv Hl'. intuition discriminate.
    - rewrite (filter_autostart_ok _ _ _ Hl'). intuition. }
  destruct l' as [|x0 l0].
  - right. split; auto. intros x Hx. apply Hc in Hx. destruct Hx.
  - left. destruct (default_of_spec q dt R) as (o & -> & _). cbn [bind]. eauto.
Qed.

(** ** Answers *)
Lemma user_field_spec u : user_or_default u = user_field u.
Proof. destruct u as [[|? ?]|]; reflexivity. Qed.

Lemma falsy_spec o : falsy o = false <-> exists s, o = Some s /\ s <> "".
Proof.
  destruct o as [s|]; simpl.
  - rewrite String.eqb_neq. split; eauto. intros (s' & H & Hn). inv H. auto.
  - split; [discriminate|]. intros (s & H & _). discriminate.
Qed.

Theorem allow_execute_sound q a s :
  wf_info (q_info q) -> allow_execute q a = Ok s ->
  a_target a <> q_source q /\
  exists lines, allow_answer q (a_user a) (a_target a) (a_autostart a) lines /\ s = join nl lines.
Proof.
  intros W H. unfold allow_execute in H.
  destruct (String.eqb_spec (q_source q) (a_target a)) as [E|E]; [discriminate|].
  split; [congruence|]. destruct (is_dom0 (a_target a)) eqn:E0.
  - apply is_dom0_spec in E0. inv H. eexists. split; [apply aa_dom0; auto|]. rewrite user_field_spec. reflexivity.
  - apply is_dom0_false in E0. destruct (starts "@dispvm:" (a_target a)) eqn:Ed.
    + apply starts_split in Ed as [w Hw]. rewrite Hw in *. change (sdrop 8 ("@dispvm:" +++ w)) with w in H.
      apply bind_ok in H as (d & Hd & H). apply bind_ok in H as (u & Hu & H).
      unfold dgetE in Hd. destruct (dget (q_info q) w) eqn:Eg; inv Hd.
      unfold uuidE in Hu. destruct (d_uuid d) eqn:Eu; inv Hu. inv H.
      eexists. split; [eapply aa_disp; eauto|]. rewrite user_field_spec. reflexivity.
    + apply bind_ok in H as (d & Hd & H). unfold dgetE in Hd.
      destruct (dget (q_info q) (a_target a)) eqn:Eg; inv Hd.
      destruct (String.eqb_spec (d_type d) "RemoteVM") as [Er|Er].
      * destruct (falsy (d_relay d)) eqn:Ef; [discriminate|].
        destruct (falsy (d_transport d)) eqn:Eft; [discriminate|].
        apply falsy_spec in Ef as (rl & Hrl & Hrl0). apply falsy_spec in Eft as (tp & Htp & Htp0).
        rewrite Hrl, Htp in H. cbn [opt_str] in H.
        apply bind_ok in H as (rd & Hrd & H). apply bind_ok in H as (u & Hu & H).
        unfold dgetE in Hrd. destruct (dget (q_info q) rl) eqn:Eg2; inv Hrd.
        unfold uuidE in Hu. destruct (d_uuid rd) eqn:Eu; inv Hu. inv H.
        eexists. split; [eapply aa_remote; eauto|]. reflexivity.
      * apply bind_ok in H as (u & Hu & H).
        unfold uuidE in Hu. destruct (d_uuid d) eqn:Eu; inv Hu. inv H.
        eexists. split; [eapply aa_qube; eauto|]. rewrite user_field_spec. reflexivity.
Qed.

Theorem allow_execute_complete q a lines :
  wf_info (q_info q) -> a_target a <> q_source q ->
  allow_answer q (a_user a) (a_target a) (a_autostart a) lines ->
  allow_execute q a = Ok (join nl lines).
Proof.
  intros W Hne H. unfold allow_execute.
  destruct (String.eqb_spec (q_source q) (a_target a)) as [E|_]; [congruence|].
  inv H.
  - apply is_dom0_spec in H0. rewrite H0. rewrite <- user_field_spec. reflexivity.
  - rewrite H0. rewrite not_dom0_dispvm. change (starts "@dispvm:" ("@dispvm:" +++ w)) with true.
    cbn match. change (sdrop 8 ("@dispvm:" +++ w)) with w.
    unfold dgetE, uuidE. rewrite H1. cbn [bind]. rewrite H2. cbn [bind]. rewrite <- user_field_spec. reflexivity.
  - apply is_dom0_false in H0. rewrite H0.
    assert (starts "@dispvm:" (a_target a) = false) as ->.
    { destruct (starts "@dispvm:" (a_target a)) eqn:E; auto. apply starts_split in E as [w Hw].
      rewrite Hw in *. apply key_not_at in H1; auto; discriminate. }
    unfold dgetE, uuidE. rewrite H1. cbn [bind]. apply String.eqb_neq in H2. rewrite H2, H3. cbn [bind].
    rewrite <- user_field_spec. reflexivity.
  - apply is_dom0_false in H0. rewrite H0.
    assert (starts "@dispvm:" (a_target a) = false) as ->.
    { destruct (starts "@dispvm:" (a_target a)) eqn:E; auto. apply starts_split in E as [w Hw].
      rewrite Hw in *. apply key_not_at in H1; auto; discriminate. }
    unfold dgetE, uuidE. rewrite H1. cbn [bind]. apply String.eqb_eq in H2. rewrite H2, H3, H5.
    unfold falsy, opt_str. apply String.eqb_neq in H4, H6. rewrite H4, H6, H7. cbn [bind]. rewrite H8. reflexivity.
Qed.

(** ** Requests *)
Definition effective_source (source reqsrc : string) : string :=
  if String.eqb reqsrc "" then source else reqsrc.

(** no allowance without authority: [authorised] spells out what stands behind
    an answer other than the refusal *)
Definition runs (q : request) (just_evaluate : bool) (u : option string) (g : string) (a : bool) (s : string) : Prop :=
  if just_evaluate then s = "result=allow"
  else g <> q_source q /\ exists lines, allow_answer q u g a lines /\ s = join nl lines.

Lemma run_allow_sound je q a s evs : wf_info (q_info q) ->
  run_allow (allow_type je) q a = (Ok s, evs) ->
  runs q je (a_user a) (a_target a) (a_autostart a) s.
Proof.
  intros W. unfold runs, run_allow, allow_type. destruct je.
  - unfold ioret. intros H. inv H. auto.
  - intros H. inv H. apply allow_execute_sound in H1; auto.
Qed.

Lemma user_response_sound k b t a : handle_user_response k b t = Ok a ->
  b = true /\ In t (k_targets k) /\ a = mkAllow (k_user k) t (k_autostart k) (k_notify k).
Proof.
  unfold handle_user_response. destruct b; [|discriminate]. simpl.
  destruct (smem t (k_targets k)) eqn:E; [|discriminate]. simpl. apply smem_In in E.
  unfold from_ask_resolution. destruct (starts "@dispvm:" t).
  - intros H. apply bind_ok in H as (t' & Ht & H). inv H.
    apply bind_ok in Ht as (tk & Ht & H). apply parse_tok_sound in Ht as [<- _]. inv H. auto.
  - intros H. inv H. auto.
Qed.

Lemma split_service_spec s a b : split_service s = (a, b) <-> split_service_text s a b.
Proof.
  unfold split_service. split; intros H.
  - destruct (split1 "+" s) as [[x y]|] eqn:E; inv H.
    + apply split1_spec in E as [-> Hx]. change (String "+" y) with ("+" +++ y). constructor. auto.
    + apply split1_None in E. constructor; auto.
  - inv H.
    + assert (split1 "+" (a +++ "+" +++ a0) = Some (a, a0)) as -> by (apply split1_spec; auto). reflexivity.
    + apply split1_None in H0. rewrite H0. reflexivity.
Qed.

Lemma split_service_plus s a b : split_service s = (a, b) -> starts "+" b = true.
Proof. unfold split_service. destruct (split1 "+" s) as [[x y]|]; intros H; inv H; reflexivity. Qed.

Lemma parse_verify_spec i s : wf_info i ->
  match parse_tok CIntended (if String.eqb s "" then "@default" else s) with
  | Ok t0 => match verify i t0 with
             | Ok t => target_of i s t
             | Err e => e = EAccessDenied true /\ forall t, ~ target_of i s t
             end
  | Err e => e = ESyntax /\ forall t, ~ target_of i s t
  end.
Proof.
  intros W. destruct (String.eqb_spec s "") as [->|Hne].
  { simpl. constructor. }
  assert (Hk : forall d, dget i s = Some d -> starts "@" s = false /\ s <> "*").
  { intros d Hd. destruct (key_plain_or_uuid _ _ _ W Hd) as (?&?&?). auto. }
  destruct (parse_tok CIntended s) as [t|e] eqn:E.
  - pose proof (parse_tok_sound _ _ _ E) as [Hs Ha].
    pose proof (parse_tok_wf _ _ _ E) as [_ Hw].
    destruct t; simpl in Hs; subst s; cbn [verify] in *.
    + destruct Hw as [Hw1 Hw2]. unfold dmem. destruct (dget i s0) as [d|] eqn:Ed.
      * apply to_name. exists d; auto.
      * apply to_unknown; auto. intros [d Hd]. congruence.
    + cbn in E. discriminate.
    + constructor.
    + cbn in E. discriminate.
    + constructor.
    + cbn in E. discriminate.
    + cbn in E. discriminate.
    + constructor.
    + destruct (dget i v) as [d|] eqn:Ed; [destruct (d_tmpl d) eqn:Et|].
      * eapply (to_tmpl i v d); eauto.
      * split; auto. intros t Ht. inv Ht; try congruence; try (simpl in *; congruence).
        destruct H as [d' Hd]. apply key_not_at in Hd; auto; discriminate.
      * split; auto. intros t Ht. inv Ht; try congruence; try (simpl in *; congruence).
        destruct H as [d' Hd]. apply key_not_at in Hd; auto; discriminate.
    + cbn in E. discriminate.
  - pose proof (parse_tok_err _ _ _ E). subst e. split; auto. intros t Ht.
    assert (Hx : exists t', parse_tok CIntended s = Ok t').
    { inv Ht; try congruence; eauto; try (eexists; reflexivity).
      - apply parse_tok_complete. eapply (at_valued _ _ "@dispvm:" v); simpl; auto.
        + destruct (key_plain_or_uuid _ _ _ W H) as (?&?&?). auto.
        + eapply key_not_at; eauto.
      - apply parse_tok_complete. destruct H as [d Hd]. destruct (key_plain_or_uuid _ _ _ W Hd) as (?&?&?).
        apply at_plain; auto.
      - apply parse_tok_complete. apply at_plain; auto. }
    destruct Hx. congruence.
Qed.

Theorem make_request_sound i sv ar source target reqsrc service q : wf_info i ->
  split_service service = (sv, ar) ->
  make_request i sv ar source target reqsrc = Ok q -> call_of i source target service reqsrc q.
Proof.
  intros W Hs H. unfold make_request in H. rewrite (split_service_plus _ _ _ Hs) in H. cbn [negb] in H.
  pose proof (parse_verify_spec i target W) as HP.
  apply bind_ok in H as (t0 & Ht0 & H). rewrite Ht0 in HP.
  apply bind_ok in H as (t & Ht & H). rewrite Ht in HP.
  apply split_service_spec in Hs.
  destruct (String.eqb_spec reqsrc "") as [->|Hr].
  - inv H. constructor; simpl; auto. constructor. auto.
  - destruct (dget i reqsrc) as [d|] eqn:Ed; [|discriminate].
    destruct (String.eqb_spec (d_type d) "RemoteVM"); [|discriminate]. simpl in H.
    destruct (d_relay d) as [rl|] eqn:Er; [|discriminate].
    destruct (String.eqb_spec rl source); [|discriminate]. subst. inv H.
    constructor; simpl; auto. eapply co_relayed; eauto.
Qed.

Theorem make_request_complete i sv ar source target reqsrc service q : wf_info i ->
  split_service service = (sv, ar) ->
  call_of i source target service reqsrc q ->
  exists q', make_request i sv ar source target reqsrc = Ok q' /\
    q_service q' = q_service q /\ q_arg q' = q_arg q /\ q_source q' = q_source q /\
    q_target q' = q_target q /\ q_info q' = i /\ q_reqsrc q' = reqsrc.
Proof.
  intros W Hs [H1 H2 H3 H4 H5]. unfold make_request. rewrite (split_service_plus _ _ _ Hs). cbn [negb].
  apply split_service_spec in H2. rewrite Hs in H2. inv H2.
  pose proof (parse_verify_spec (q_info q) target W) as HP.
  destruct (parse_tok CIntended _) as [t0|]; [|exfalso; eapply HP; eauto].
  cbn [bind]. destruct (verify (q_info q) t0) as [t|]; [|exfalso; eapply HP; eauto]. cbn [bind].
  assert (t = q_target q) as ->.
  { assert (HN : forall s d, dget (q_info q) s = Some d -> s <> "" /\ starts "@" s = false)
      by (intros s d Hd; destruct (key_plain_or_uuid _ _ _ W Hd) as (?&?&?); auto).
    assert (HE : forall s, exists_qube (q_info q) s -> s <> "" /\ starts "@" s = false)
      by (intros s [d Hd]; eauto).
    inv HP; inv H5; auto; try congruence. 
    all: exfalso; first
      [ match goal with H : exists_qube _ _ |- _ => destruct (HE _ H) as [? Hx]; cbn in Hx; congruence end
      | match goal with H : starts "@" _ = false |- _ => cbn in H; congruence end ]. }
  inversion H3 as [Hr Hq|d Hr Hd Hty Hrl Hq].
  - rewrite Hr. simpl. eexists. split; [reflexivity|]. simpl. repeat split; auto; congruence.
  - apply String.eqb_neq in Hr. rewrite Hr, Hd. apply String.eqb_eq in Hty. rewrite Hty. simpl. rewrite Hrl.
    rewrite String.eqb_refl. eexists. split; [reflexivity|]. simpl. repeat split; congruence.
Qed.

Theorem make_request_refused i sv ar source target reqsrc service : wf_info i ->
  split_service service = (sv, ar) ->
  (forall q, ~ call_of i source target service reqsrc q) ->
  exists e, make_request i sv ar source target reqsrc = Err e /\ is_access_denied e = true.
Proof.
  intros W Hs Hn.
  destruct (make_request i sv ar source target reqsrc) as [q|e] eqn:E.
  - exfalso. eapply Hn. eapply make_request_sound; eauto.
  - exists e. split; auto. unfold make_request in E. rewrite (split_service_plus _ _ _ Hs) in E. cbn [negb] in E.
    pose proof (parse_verify_spec i target W) as HP.
    destruct (parse_tok CIntended _) as [t0|e0]; cbn [bind] in E; [|inv E; destruct HP as [-> _]; auto].
    destruct (verify i t0); cbn [bind] in E; [|inv E; destruct HP as [-> _]; auto].
    destruct (String.eqb reqsrc ""); [discriminate|].
    destruct (dget i reqsrc) as [d|]; [|inv E; auto].
    destruct (negb _); [inv E; auto|]. destruct (d_relay d); [|inv E; auto].
    destruct (String.eqb s source); [discriminate|inv E; auto].
Qed.

(** ** The whole request *)

(** what stands behind an answer [s] other than the refusal *)
Definition authorised (rules : list rule) (q : request) (agent : option string)
  (just_evaluate assume_yes : bool) (s : string) (evs : list event) : Prop :=
  exists r, first_applicable rules q r /\
  match r_action r with
  | Deny _ => False
  | Allow t u n a =>
      exists g, grants (q_info q) (q_source q) (sent_to t q) g /\
        (a = false -> needs_no_start (q_info q) g) /\ runs q just_evaluate u g a s
  | Ask t dt u n a =>
      exists g, choice rules q t a g /\ runs q just_evaluate u g a s /\
        if assume_yes then g = tok_str (q_target q)
        else just_evaluate = false /\ agent = Some ("allow:" +++ g) /\
             exists d guivm targets dflt evs',
               dget (q_info q) (q_source q) = Some d /\ d_guivm d = Some guivm /\ guivm <> "" /\
               evs = EvAsk guivm (q_source q) (q_service q) (q_arg q) targets dflt :: evs' /\
               (forall x, In x targets <-> choice rules q t a x) /\
               (dflt = "" \/ default_choice q dt dflt /\ In dflt targets)
  end.

Lemma run_response_sound je q k b t s evs : wf_info (q_info q) ->
  run_response (allow_type je) q k b t = (Ok s, evs) ->
  b = true /\ In t (k_targets k) /\ runs q je (k_user k) t (k_autostart k) s.
Proof.
  intros W. unfold run_response. destruct (handle_user_response k b t) as [a|e] eqn:E; [|discriminate].
  intros H. apply run_allow_sound in H; auto. apply user_response_sound in E as (?&?&->). auto.
Qed.

Theorem answer_authorised policy sysinfo agent source target service je ay reqsrc s evs :
  handle_request policy sysinfo agent source target service je ay reqsrc = (Ok s, evs) ->
  s <> "result=deny" ->
  exists rules i q, policy = Ok rules /\ sysinfo = Some i /\
    ((forall r, In r rules -> wf_rule r) -> wf_info i -> wf_refs i -> starts "@" source = false ->
     (forall r, In r rules -> no_uuid_disp q r) ->
     call_of i source target service reqsrc q /\ authorised rules q agent je ay s evs).
Proof.
  unfold handle_request. intros H Hd.
  destruct sysinfo as [i|]; [|inv H; congruence].
  destruct (split_service service) as [sv ar] eqn:Es.
  destruct policy as [rules|e0].
  2:{ exfalso. unfold ioret in H. destruct e0; simpl in H; try (inv H; congruence).
      all: try (destruct notify; simpl in H).
      all: try destruct je; simpl in H; try destruct (dget i source); inv H; congruence. }
  destruct (make_request i sv ar source target reqsrc) as [q|e0] eqn:Eq.
  2:{ exfalso. unfold ioret in H. destruct e0; simpl in H; try (inv H; congruence).
      all: try (destruct notify; simpl in H).
      all: try destruct je; simpl in H; try destruct (dget i source); inv H; congruence. }
  exists rules, i, q. split; auto. split; auto. intros Hwr Wi Wr Hsrc Hnu.
  split; [eapply make_request_sound; eauto|].
  assert (Wc : wf_call q) by (eapply make_request_wf; eauto).
  destruct (evaluate rules q) as [rs|e0] eqn:Ee.
  2:{ exfalso. unfold ioret in H. destruct e0; simpl in H; try (inv H; congruence).
      all: try (destruct notify; simpl in H).
      all: try destruct je; simpl in H; try destruct (dget i source); inv H; congruence. }
  destruct (run_resolution (ask_type je ay) (allow_type je) agent q rs) as [r evs'] eqn:Er.
  assert (r = Ok s /\ evs' = evs) as [-> ->].
  { destruct r as [s'|e0]; [inv H; auto|]. exfalso.
    destruct e0; simpl in H; try (inv H; congruence).
    all: try (destruct notify; simpl in H).
    all: try destruct je; simpl in H; try destruct (dget i source); inv H; congruence. }
  clear H.
  apply evaluate_sound in Ee; auto.
  destruct Ee as (r & Hfa & Hact). exists r. split; auto.
  destruct (r_action r) as [n|t u n a|t dt u n a]; auto.
  - destruct Hact as (g & Hg & Ha & ->). exists g. split; auto. split; auto.
    simpl in Er. apply run_allow_sound in Er; auto. apply Wc.
  - destruct Hact as (k & -> & Hev & Hu & Ha & Hn).
    apply ask_dialog in Hev as (Hc & Hdf & _ & _ & _ & _); auto. simpl in Er.
    unfold run_ask, ask_type in Er. destruct ay.
    + apply run_response_sound in Er as (_ & Hin & Hr); [|apply Wc]. subst.
      exists (tok_str (q_target q)). split; [apply Hc; auto|]. auto.
    + destruct je; [unfold ioret in Er; inv Er; congruence|].
      destruct (dget (q_info q) (q_source q)) as [d|] eqn:Ed; [|discriminate].
      destruct (falsy (d_guivm d)) eqn:Ef; [discriminate|].
      apply falsy_spec in Ef as (gv & Hgv & Hgv0). rewrite Hgv in Er. cbn [opt_str] in Er.
      destruct agent as [ans|]; [|discriminate].
      destruct (String.eqb ans "deny") eqn:E1; [discriminate|].
      destruct (starts "allow:" ans) eqn:E2; [|discriminate].
      apply starts_split in E2 as [g ->]. change (sdrop 6 ("allow:" +++ g)) with g in Er.
      destruct (run_response (allow_type false) q k true g) as [r' ev'] eqn:Err.
      inv Er. apply run_response_sound in Err as (_ & Hin & Hr); [|apply Wc].
      exists g. split; [apply Hc; auto|]. split; auto. split; auto. split; auto.
      exists d, gv. eexists. eexists. eexists. split; [eauto|]. split; auto. split; auto. split; [reflexivity|].
      split; auto. unfold opt_str. destruct (k_default k) as [x|] eqn:Ek; auto. right. apply Hdf; auto.
Qed.

(** an exception of the user interface, a refusal or an answer outside the
    offered choices never lets a call through *)
Theorem user_refusal_binding je q k agent s evs :
  run_ask KK_Agent (allow_type je) agent q k = (Ok s, evs) ->
  exists g, agent = Some ("allow:" +++ g) /\ In g (k_targets k).
Proof.
  unfold run_ask. destruct (dget (q_info q) (q_source q)) as [d|]; [|discriminate].
  destruct (falsy (d_guivm d)); [discriminate|].
  destruct agent as [ans|]; [|discriminate].
  destruct (String.eqb ans "deny"); [discriminate|].
  destruct (starts "allow:" ans) eqn:E2; [|discriminate].
  apply starts_split in E2 as [g ->]. change (sdrop 6 ("allow:" +++ g)) with g.
  unfold run_response. destruct (handle_user_response k true g) as [a|] eqn:E; [|discriminate].
  intros _. apply user_response_sound in E as (_&?&_). eauto.
Qed.

(** every entry of a dialog without redirect can be granted *)
Lemma parse_dispvm_entry w : w <> "" -> starts "@" w = false ->
  rmap tok_str (parse_tok CDispTmpl ("@dispvm:" +++ w)) = Ok ("@dispvm:" +++ w).
Proof. intros H1 H2. rewrite parse_dispvm; simpl; auto. Qed.

Theorem offered_can_be_granted rules q k g d u :
  wf_call q -> In g (k_targets k) -> offered rules q g ->
  dget (q_info q) (entry_qube g) = Some d -> d_uuid d = Some u -> d_type d <> "RemoteVM" ->
  exists a lines, handle_user_response k true g = Ok a /\ a_target a = g /\
    allow_answer q (k_user k) g (k_autostart k) lines /\
    allow_execute q a = Ok (join nl lines).
Proof.
  intros Wc Hin Hof Hd Hu Ht. pose proof Wc as [W R T S].
  assert (Ha : handle_user_response k true g = Ok (mkAllow (k_user k) g (k_autostart k) (k_notify k))).
  { unfold handle_user_response. apply smem_In in Hin. rewrite Hin. simpl. unfold from_ask_resolution.
    destruct (starts "@dispvm:" g) eqn:E; auto.
    apply starts_split in E as [w ->]. change (entry_qube ("@dispvm:" +++ w)) with w in Hd.
    destruct (key_plain_or_uuid _ _ _ W Hd) as (?&?&?). rewrite parse_dispvm_entry; auto. }
  assert (Hne : g <> q_source q).
  { intros ->. destruct Hof as (_ & Hs & _). apply Hs. left. auto. }
  assert (Hl : exists lines, allow_answer q (k_user k) g (k_autostart k) lines).
  { destruct (starts "@dispvm:" g) eqn:E.
    - apply starts_split in E as [w ->]. eexists. eapply aa_disp; eauto.
    - unfold entry_qube in Hd. rewrite E in Hd.
      destruct (is_dom0 g) eqn:E0.
      + apply is_dom0_spec in E0. eexists. apply aa_dom0; auto.
      + apply is_dom0_false in E0. eexists. eapply aa_qube; eauto. }
  destruct Hl as [lines Hl]. eexists. exists lines. split; [eauto|]. split; auto. split; auto.
  apply allow_execute_complete; auto.
Qed.

(** the caller is never its own target, under any designation, when the target
    is designated by name *)
Theorem no_loopback_by_name q a s : wf_call q -> allow_execute q a = Ok s ->
  starts "uuid:" (q_source q) = false -> starts "uuid:" (a_target a) = false ->
  ~ same_qube (q_info q) (q_source q) (a_target a).
Proof.
  intros [W R T S] H Hs Ht Hq. apply allow_execute_sound in H as [Hne _]; auto.
  apply same_qube_plain in Hq; auto.
Qed.

(** ** Dialog entries and direct calls *)
Definition retarget (q : request) (t : tok) : request :=
  mkRequest (q_service q) (q_arg q) (q_source q) t (q_reqsrc q) (q_relay q) (q_info q).

Lemma lists_covers i src t n d : wf_info i -> dget i n = Some d -> plain_name n = true ->
  ~ means_dom0 n -> (forall z, means_dom0 z -> dget i z <> Some d) ->
  lists i t n <-> covers i src t (TName n).
Proof.
  intros W Hd Hp H0 Hz. pose proof (plain_not_uuid _ Hp) as Hu. pose proof (plain_not_at _ Hp) as Hat.
  pose proof (key_name _ _ _ W Hd Hu) as Hn.
  assert (Hdt : forall w, ~ disp_template i src (TName n) w) by (intros w H; inv H).
  split.
  - clear Hdt. revert Hd Hp H0 Hz Hu Hat Hn. intros Hd Hp H0 Hz Hu Hat Hn H. revert Hd Hp H0 Hz Hu Hat Hn.
    destruct H as [s d0 Hs|n0 d0 Hs Hu0|n0 d0 Hs Hu0 Ht0| | |n0 d0 Hs Hu0 Hm
      |n0 d0 Hs Hu0 Ht0| |v n0 d0 Hs Hu0 Ht0|v n0 d0 Hs Hu0 Ht0| |v d0 Hs Ht0|v n0 d0 Hs Hu0 Ht0 Ht1];
      intros Hd Hp H0 Hz Hu Hat Hn; try discriminate.
    + assert (d0 = d) by (destruct (wf_keys _ W _ _ Hs) as (_ & Hs2 & _); congruence).
      subst d0. apply cov_name.
      * intros Hm. eapply Hz; eauto.
      * right. exists d. auto.
    + constructor.
    + apply cov_anyvm. exact H0.
    + apply (cov_type i src v (TName n0) d0); auto.
    + apply (cov_tag i src v (TName n0) d0); auto.
  - intros H. inversion H as [s t0 Hs Hm Ht Ht'|s t0 Hs Hm Ht Ht'|t0 Ht Ht'|t0 Hm Ht Ht'|t0 Hm Ht Ht'|Ht Ht'
      |v t0 d0 Hg Hv Ht Ht'|v t0 d0 Hg Hv Ht Ht'|Ht Ht'|v w t0 Hg Hv Ht Ht'|v w t0 d0 Hg Hv Hv2 Hv3 Ht Ht'];
      try discriminate; try (exfalso; eapply Hdt; eauto; fail); simpl in *; try contradiction.
    + destruct Hm as [->|(d' & H1 & H2)].
      * rewrite Hn at 2. apply li_name. auto.
      * rewrite Hd in H2. inv H2. apply li_name. auto.
    + eapply li_wild_name; eauto.
    + eapply li_any_name; eauto.
    + rewrite Hd in Hg. inv Hg. eapply li_type; eauto.
    + rewrite Hd in Hg. inv Hg. eapply li_tag; eauto.
Qed.

Theorem offered_names_agree rules q n d :
  wf_info (q_info q) -> dget (q_info q) n = Some d -> plain_name n = true ->
  ~ means_dom0 n -> (forall z, means_dom0 z -> dget (q_info q) z <> Some d) ->
  (forall r, In r rules -> redirect_of r = None) ->
  entry_open rules q n <->
  exists r, first_applicable rules (retarget q (TName n)) r /\ ~ is_deny_rule r.
Proof.
  intros W Hd Hp H0 Hz Hr.
  assert (Hsp : forall r, In r rules -> (speaks r q n <-> applies r (retarget q (TName n)))).
  { intros r Hin. unfold speaks, applies, caller_applies. simpl.
    assert (target_spec r = r_target r) as -> by (unfold target_spec; rewrite (Hr r Hin); auto).
    rewrite (lists_covers (q_info q) (q_source q) (r_target r) n d); auto. tauto. }
  split.
  - intros (l1&r&l2&->&H1&H2&H3). exists r. split; auto. exists l1, l2. split; auto. split.
    + intros r' Hin Ha. apply (H1 r' Hin). apply Hsp; auto. apply in_app_iff. auto.
    + apply Hsp; auto. apply in_app_iff. simpl. auto.
  - intros (r & (l1&l2&->&H1&H2) & H3). exists l1, r, l2. split; auto. split; [|split]; auto.
    + intros r' Hin Ha. apply (H1 r' Hin). apply Hsp; auto. apply in_app_iff. auto.
    + apply Hsp; auto. apply in_app_iff. simpl. auto.
Qed.

(** ** Later rules are irrelevant *)
Lemma find_matching_prefix l1 l2 l2' q r : find_matching_rule (l1 ++ [r]) q = Ok r ->
  is_match r q = Ok true ->
  find_matching_rule (l1 ++ r :: l2) q = Ok r -> find_matching_rule (l1 ++ r :: l2') q = Ok r.
Proof.
  intros _ Hm. induction l1 as [|x l1 IH]; simpl.
  - rewrite Hm. auto.
  - destruct (is_match x q) as [[|]|]; simpl; auto.
Qed.
