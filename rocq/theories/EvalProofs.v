From Coq Require Import String Ascii List Bool Arith Lia.
From Verif Require Import Base SysInfo Token Rule Policy SpecPolicy TokenProofs MatchProofs.
Import ListNotations.
Open Scope string_scope.
Open Scope list_scope.

(** ** Requests *)
Lemma verify_call_target i t t' : verify i t = Ok t' -> call_target i t'.
Proof.
  destruct t; simpl; try discriminate; intros H; try (inv H; constructor).
  - unfold dmem in H. destruct (dget i s) eqn:E; inv H; constructor. exists d. auto.
  - destruct (dget i v) as [d|] eqn:E; [|discriminate]. destruct (d_tmpl d) eqn:Et; [|discriminate].
    inv H. econstructor; eauto.
Qed.

Lemma make_request_wf i service argument source target reqsrc q :
  wf_info i -> wf_refs i -> starts "@" source = false ->
  make_request i service argument source target reqsrc = Ok q -> wf_call q.
Proof.
  intros W R Hs. unfold make_request.
  destruct (negb (starts "+" argument)); [discriminate|]. intros H.
  apply bind_ok in H as (t0 & _ & H). apply bind_ok in H as (t & Hv & H).
  apply verify_call_target in Hv.
  destruct (String.eqb reqsrc "").
  - inv H. constructor; auto.
  - destruct (dget i reqsrc) as [d|] eqn:Ed; [|discriminate].
    destruct (negb _); [discriminate|]. destruct (d_relay d); [|discriminate].
    destruct (String.eqb _ _); [|discriminate]. inv H. constructor; auto.
    simpl. eapply key_not_at; eauto.
Qed.

Lemma make_request_info i service argument source target reqsrc q :
  make_request i service argument source target reqsrc = Ok q ->
  q_info q = i /\ q_service q = service /\ q_arg q = argument.
Proof.
  unfold make_request.
  destruct (negb (starts "+" argument)); [discriminate|]. intros H.
  apply bind_ok in H as (t0 & _ & H). apply bind_ok in H as (t & Hv & H).
  destruct (String.eqb reqsrc "").
  - inv H. auto.
  - destruct (dget i reqsrc) as [d|] eqn:Ed; [|discriminate].
    destruct (negb _); [discriminate|]. destruct (d_relay d); [|discriminate].
    destruct (String.eqb _ _); [|discriminate]. inv H. auto.
Qed.

(** ** Rule matching *)
Lemma opt_match_spec p x : opt_match p x = true <-> service_covers p x.
Proof.
  unfold opt_match, service_covers. destruct p; [rewrite String.eqb_eq|]; split; auto.
  - intros ->; auto.
  - intros [H|H]; congruence.
Qed.

Lemma is_match_but_target_total r q : exists b, is_match_but_target r q = Ok b.
Proof.
  unfold is_match_but_target. destruct (negb _); eauto. destruct (negb _); eauto.
  apply match_source_total.
Qed.

Lemma is_match_but_target_correct r q b :
  wf_call q -> is_match_but_target r q = Ok b -> (b = true <-> caller_applies r q).
Proof.
  intros [W R T S]. unfold is_match_but_target, caller_applies.
  rewrite <- !opt_match_spec.
  destruct (opt_match (r_service r) (q_service q)); simpl.
  2:{ intros H. inv H. split; [discriminate|]. intros (?&?&?). discriminate. }
  destruct (opt_match (r_arg r) (q_arg q)); simpl.
  2:{ intros H. inv H. split; [discriminate|]. intros (?&?&?). discriminate. }
  intros H. rewrite (match_source_correct _ _ _ _ W R S H). tauto.
Qed.

Lemma caller_applies_iff r q : wf_call q ->
  caller_applies r q <-> is_match_but_target r q = Ok true.
Proof.
  intros W. destruct (is_match_but_target_total r q) as [b H].
  pose proof (is_match_but_target_correct r q b W H) as C. rewrite H. destruct b; split; auto; intros.
  - apply C; auto.
  - exfalso. apply C in H0. discriminate.
  - discriminate.
Qed.

Definition no_uuid_disp (q : request) (r : rule) : Prop :=
  ~ (uuid_dispvm (r_target r) /\ q_target q = TDisp).

Lemma is_match_correct r q b :
  wf_call q -> no_uuid_disp q r -> is_match r q = Ok b -> (b = true <-> applies r q).
Proof.
  intros Wc Hu H. unfold is_match in H. apply bind_ok in H as (m & Hm & H).
  pose proof (is_match_but_target_correct _ _ _ Wc Hm) as C.
  unfold applies. destruct m.
  - destruct Wc as [W R T S].
    rewrite (match_tok_correct _ _ _ _ _ W R (or_introl T) Hu H). intuition.
  - inv H. intuition; discriminate.
Qed.

Lemma is_match_total r q : wf_call q -> dispvm_ready q -> exists b, is_match r q = Ok b.
Proof.
  intros [W R T S] D. unfold is_match. destruct (is_match_but_target_total r q) as [b ->]. simpl.
  destruct b; eauto. apply match_tok_total; auto.
Qed.

(** ** Finding the rule *)
Lemma find_matching_rule_sound rules q r :
  wf_call q -> (forall r', In r' rules -> no_uuid_disp q r') ->
  find_matching_rule rules q = Ok r -> first_applicable rules q r.
Proof.
  intros Wc. induction rules as [|r0 rules IH]; simpl; [discriminate|]. intros Hu H.
  apply bind_ok in H as (m & Hm & H).
  pose proof (is_match_correct _ _ _ Wc (Hu r0 (or_introl eq_refl)) Hm) as C.
  destruct m.
  - inv H. exists [], rules. simpl. repeat split; auto; try tauto; apply C; auto.
  - destruct IH as (l1 & l2 & -> & H1 & H2); auto.
    exists (r0 :: l1), l2. repeat split; auto; try apply H2.
    intros r' [->|Hin]; auto. intros Ha. apply C in Ha. discriminate.
Qed.

Lemma first_applicable_find rules q r :
  wf_call q -> dispvm_ready q -> (forall r', In r' rules -> no_uuid_disp q r') ->
  first_applicable rules q r -> find_matching_rule rules q = Ok r.
Proof.
  intros Wc D Hu (l1 & l2 & -> & H1 & H2). induction l1 as [|r0 l1 IH]; simpl.
  - destruct (is_match_total r q Wc D) as [b Hb]. rewrite Hb. simpl.
    assert (b = true). { eapply is_match_correct; eauto. apply Hu. apply in_or_app. right. left. auto. }
    subst. auto.
  - destruct (is_match_total r0 q Wc D) as [b Hb]. rewrite Hb. simpl.
    destruct b.
    + exfalso. apply (H1 r0); [left; auto|].
      eapply (is_match_correct r0 q true); eauto. apply Hu. left. auto.
    + apply IH; intros; [apply Hu; right; auto| apply H1; right; auto].
Qed.

Lemma none_applicable_find rules q :
  wf_call q -> dispvm_ready q -> (forall r', In r' rules -> no_uuid_disp q r') ->
  none_applicable rules q -> find_matching_rule rules q = Err (EAccessDenied true).
Proof.
  intros Wc D Hu H. induction rules as [|r0 l1 IH]; simpl; auto.
  destruct (is_match_total r0 q Wc D) as [b Hb]. rewrite Hb. simpl. destruct b.
  - exfalso. apply (H r0); [left; auto|]. eapply (is_match_correct r0 q true); eauto. apply Hu. left. auto.
  - apply IH; intros; [apply Hu; right; auto| intros r' Hr'; apply H; right; auto].
Qed.

(** ** Allow *)
Lemma reparse_redirect t : wf_redirect t -> parse_tok CIntended (tok_str t) = Ok t.
Proof.
  destruct t; simpl; try tauto; try reflexivity.
  - intros (H1 & H2 & H3). unfold parse_tok. apply String.eqb_neq in H1, H3. rewrite H1, H2, H3. auto.
  - intros (Hv & Ha). destruct v as [|a v]; [congruence|].
    assert (Ha' : Ascii.eqb "@" a = false) by (simpl in Ha; rewrite andb_true_r in Ha; auto).
    unfold parse_tok; cbn. rewrite Ha'. reflexivity.
Qed.

Lemma key_plain_or_uuid i k d : wf_info i -> dget i k = Some d ->
  k <> "" /\ starts "@" k = false /\ k <> "*".
Proof.
  intros W H. destruct (wf_keys i W _ _ H) as (Hp & _ & [->|(u & _ & ->)]).
  - unfold plain_name in Hp. rewrite !andb_true_iff, !negb_true_iff, !String.eqb_neq in Hp. tauto.
  - repeat split; discriminate.
Qed.

Lemma reparse_call_target i t : wf_info i -> call_target i t -> parse_tok CIntended (tok_str t) = Ok t.
Proof.
  intros W H. destruct H as [s [d Hd]| | | |v d Hd Ht]; try reflexivity.
  - apply (reparse_redirect (TName s)). simpl. eapply key_plain_or_uuid; eauto.
  - apply (reparse_redirect (TDispTmpl v)). simpl.
    destruct (key_plain_or_uuid _ _ _ W Hd) as (?&?&?). auto.
Qed.

Lemma sent_to_reparse redirect q : wf_call q -> (forall x, redirect = Some x -> wf_redirect x) ->
  parse_tok CIntended (tok_str (sent_to redirect q)) = Ok (sent_to redirect q).
Proof.
  intros W H. destruct redirect; simpl.
  - apply reparse_redirect; auto.
  - eapply reparse_call_target; destruct W; eauto.
Qed.

Lemma grants_fun i src t g g' : grants i src t g -> grants i src t g' -> g = g'.
Proof. intros H H'. inv H; inv H'; auto. congruence. Qed.

Lemma needs_no_start_spec i g : allow_no_autostart i g = Ok true <-> needs_no_start i g.
Proof.
  unfold allow_no_autostart, needs_no_start. destruct (is_dom0 g) eqn:E.
  - apply is_dom0_spec in E. tauto.
  - apply is_dom0_false in E. destruct (starts "@dispvm" g).
    + split; [discriminate|]. intros [|[? _]]; [contradiction|discriminate].
    + destruct (dget i g) as [d|].
      * split.
        -- intros H. right. split; auto. exists d. split; auto. injection H as H. apply String.eqb_eq; auto.
        -- intros [|[_ (d' & H1 & H2)]]; [contradiction|]. inv H1. rewrite H2. reflexivity.
      * split; [discriminate|]. intros [|[_ (d' & H1 & H2)]]; [contradiction|discriminate].
Qed.

Lemma starts_dispvm_colon w : starts "@dispvm" ("@dispvm:" +++ w) = true.
Proof. destruct w; reflexivity. Qed.
Lemma not_dom0_dispvm w : is_dom0 ("@dispvm:" +++ w) = false.
Proof. destruct w; reflexivity. Qed.

Lemma allow_no_autostart_total i src t g : wf_info i -> grants i src t g ->
  exists b, allow_no_autostart i g = Ok b.
Proof.
  intros W H. unfold allow_no_autostart. destruct (is_dom0 g) eqn:E0; eauto.
  destruct (starts "@dispvm" g) eqn:E; eauto.
  inv H.
  - destruct H0 as [d ->]. eauto.
  - discriminate.
  - rewrite starts_dispvm_colon in E. discriminate.
  - rewrite starts_dispvm_colon in E. discriminate.
Qed.

(** what verification and @dispvm/@adminvm resolution compute *)
Definition resolve (i : info) (src : string) (t0 : tok) : res string :=
  do t <- verify i t0;
  if String.eqb (tok_str t) "@default" then denied
  else match t with
       | TDisp => do tmpl <- get_dispvm_template i src;
                  match tmpl with None => denied | Some tm => Ok (tok_str tm) end
       | TAdmin => Ok "dom0"
       | _ => Ok (tok_str t)
       end.

Lemma resolve_spec i src t0 : wf_info i -> wf_refs i ->
  (forall x, t0 <> TType x) -> (forall x, t0 <> TTag x) -> (forall x, t0 <> TDispTag x) ->
  t0 <> TWild -> t0 <> TAny ->
  (exists g, resolve i src t0 = Ok g /\ grants i src t0 g) \/
  (resolve i src t0 = Err (EAccessDenied true) /\ forall g, ~ grants i src t0 g).
Proof.
  intros W R N1 N2 N3 N4 N5. unfold resolve. destruct t0; simpl; try congruence.
  - unfold dmem. destruct (dget i s) as [d|] eqn:E; simpl.
    + destruct (String.eqb_spec s "@default").
      * subst. apply key_not_at in E; auto. discriminate.
      * left. eexists. split; eauto. constructor. exists d; auto.
    + right. split; auto. intros g H. inv H. match goal with X : exists_qube _ _ |- _ => destruct X; congruence end.
  - left. eexists; split; eauto. constructor.
  - right. split; auto. intros g H. inv H.
  - rewrite get_dispvm_template_ok by auto. destruct (dget i src) as [d|] eqn:E; simpl.
    + destruct (d_ddisp d) as [w|] eqn:Ew; simpl.
      * left. eexists. split; eauto. econstructor; eauto.
      * right. split; auto. intros g H. inv H. congruence.
    + right. split; auto. intros g H. inv H. congruence.
  - destruct (dget i v) as [d|] eqn:E; simpl.
    + destruct (d_tmpl d) eqn:Et; simpl.
      * left. eexists. split; eauto. econstructor; eauto.
      * right. split; auto. intros g H. inv H. congruence.
    + right. split; auto. intros g H. inv H. congruence.
Qed.

Lemma allow_evaluate_unfold r q target user notify autostart :
  allow_evaluate r q target user notify autostart =
  do _ <- assert_match r q;
  do t0 <- parse_tok CIntended (tok_str (sent_to target q));
  do tgt <- resolve (q_info q) (q_source q) t0;
  do ok <- (if autostart then Ok true else allow_no_autostart (q_info q) tgt);
  if ok then Ok (RAllow (mkAllow user tgt autostart notify)) else Err (EAccessDenied notify).
Proof.
  unfold allow_evaluate, resolve. destruct (assert_match r q); simpl; auto.
  unfold sent_to. destruct (parse_tok CIntended _); simpl; auto.
  destruct (verify _ a0); simpl; auto. destruct (String.eqb _ _); simpl; auto.
Qed.

(** The verdict of a matching allow rule *)
Lemma allow_verdict r q target user notify autostart :
  wf_call q -> (forall x, target = Some x -> wf_redirect x) ->
  is_match r q = Ok true ->
  let ev := allow_evaluate r q target user notify autostart in
  (exists g, grants (q_info q) (q_source q) (sent_to target q) g /\
             (autostart = false -> needs_no_start (q_info q) g) /\
             ev = Ok (RAllow (mkAllow user g autostart notify))) \/
  ((forall g, ~ grants (q_info q) (q_source q) (sent_to target q) g) /\ ev = Err (EAccessDenied true)) \/
  (exists g, grants (q_info q) (q_source q) (sent_to target q) g /\ autostart = false /\
             ~ needs_no_start (q_info q) g /\ ev = Err (EAccessDenied notify)).
Proof.
  intros Wc Hr Hm ev. subst ev. rewrite allow_evaluate_unfold. unfold assert_match. rewrite Hm. simpl.
  rewrite sent_to_reparse by auto. simpl.
  pose proof Wc as [W R T S].
  assert (Hk : let t0 := sent_to target q in (forall x, t0 <> TType x) /\ (forall x, t0 <> TTag x) /\
           (forall x, t0 <> TDispTag x) /\ t0 <> TWild /\ t0 <> TAny).
  { destruct target as [t|]; simpl.
    - specialize (Hr t eq_refl). destruct t; simpl in Hr; try contradiction; repeat split; congruence.
    - destruct T; repeat split; congruence. }
  destruct Hk as (K1&K2&K3&K4&K5).
  destruct (resolve_spec (q_info q) (q_source q) (sent_to target q) W R K1 K2 K3 K4 K5)
    as [(g & -> & Hg)|(-> & Hn)]; simpl.
  - destruct autostart; simpl.
    + left. exists g. repeat split; auto. discriminate.
    + destruct (allow_no_autostart_total _ _ _ _ W Hg) as [b Hb]. rewrite Hb. simpl. destruct b.
      * left. exists g. repeat split; auto. intros _. apply needs_no_start_spec; auto.
      * right. right. exists g. repeat split; auto. rewrite <- needs_no_start_spec. congruence.
  - right. left. auto.
Qed.

(** ** Ask never yields an allow by itself *)
Lemma ask_evaluate_shape rules r q t d u n a res :
  ask_evaluate rules r q t d u n a = Ok res -> exists k, res = RAsk k /\
    k_user k = u /\ k_autostart k = a /\ k_notify k = n /\ k_targets k <> [] /\
    (forall x, k_default k = Some x -> In x (k_targets k)).
Proof.
  unfold ask_evaluate. intros H.
  apply bind_ok in H as (x0 & _ & H). apply bind_ok in H as (ts & _ & H).
  apply bind_ok in H as (ts' & _ & H). destruct ts' as [|x l]; [discriminate|].
  apply bind_ok in H as (dd & _ & H). inv H. eexists. split; eauto. cbn [k_user k_autostart k_notify k_targets k_default]. repeat split; auto.
  - discriminate.
  - intros y Hy. destruct dd as [z|]; [|discriminate]. destruct (smem z (x :: l)) eqn:E; [|discriminate].
    inv Hy. apply smem_In in E. auto.
Qed.

Lemma first_applicable_match rules q r : wf_call q ->
  find_matching_rule rules q = Ok r -> is_match r q = Ok true.
Proof.
  intros W. induction rules as [|r0 rules IH]; simpl; [discriminate|]. intros H.
  apply bind_ok in H as (m & Hm & H). destruct m; auto. inv H. auto.
Qed.

(** Everything a successful evaluation implies *)
Lemma evaluate_sound rules q res :
  wf_call q -> (forall r, In r rules -> wf_rule r) ->
  (forall r', In r' rules -> no_uuid_disp q r') ->
  evaluate rules q = Ok res ->
  exists r, first_applicable rules q r /\
    match r_action r with
    | Deny _ => False
    | Allow t u n a => exists g, grants (q_info q) (q_source q) (sent_to t q) g /\
        (a = false -> needs_no_start (q_info q) g) /\ res = RAllow (mkAllow u g a n)
    | Ask t d u n a => exists k, res = RAsk k /\ ask_evaluate rules r q t d u n a = Ok res /\
        k_user k = u /\ k_autostart k = a /\ k_notify k = n
    end.
Proof.
  intros Wc Hw Hu H. unfold evaluate in H. apply bind_ok in H as (r & Hf & H).
  pose proof (find_matching_rule_sound _ _ _ Wc Hu Hf) as F. exists r. split; auto.
  pose proof (first_applicable_match _ _ _ Wc Hf) as Hm.
  assert (Hin : In r rules). { destruct F as (l1&l2&->&_). apply in_or_app. right. left. auto. }
  specialize (Hw r Hin). unfold action_evaluate in H. unfold wf_rule in Hw.
  destruct (r_action r) as [n|t u n a|t d u n a] eqn:Ea; [discriminate| |].
  - destruct (allow_verdict r q t u n a Wc Hw Hm) as [(g&?&?&He)|[(_&He)|(g&?&?&?&He)]];
      rewrite H in He; [inv He; eauto|discriminate|discriminate].
  - destruct (ask_evaluate_shape _ _ _ _ _ _ _ _ _ H) as (k&->&?&?&?&_). exists k. auto.
Qed.
