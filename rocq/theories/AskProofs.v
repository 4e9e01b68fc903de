From Coq Require Import String Ascii List Bool Arith Lia.
From Verif Require Import Base SysInfo Token Rule Policy SpecPolicy TokenProofs MatchProofs EvalProofs.
Import ListNotations.
Open Scope string_scope.
Open Scope list_scope.

(** ** Sets *)
Lemma set_add_In y x l : In y (set_add x l) <-> y = x \/ In y l.
Proof.
  unfold set_add. destruct (smem x l) eqn:E.
  - apply smem_In in E. split; auto. intros [->|]; auto.
  - rewrite in_app_iff. simpl. intuition.
Qed.
Lemma set_remove_In y x l : In y (set_remove x l) <-> y <> x /\ In y l.
Proof.
  unfold set_remove. rewrite filter_In, negb_true_iff, String.eqb_neq. intuition.
Qed.
Lemma set_union_In y a b : In y (set_union a b) <-> In y a \/ In y b.
Proof.
  unfold set_union. revert a. induction b as [|x b IH]; simpl; intros a; [tauto|].
  rewrite IH, set_add_In. intuition.
Qed.
Lemma set_diff_In y a b : In y (set_diff a b) <-> In y a /\ ~ In y b.
Proof. unfold set_diff. rewrite filter_In, negb_true_iff, smem_false. tauto. Qed.

(** ** Expansion *)
Lemma uuid_to_name_name i s d : wf_info i -> dget i s = Some d -> uuid_to_name i s = Ok (d_name d).
Proof.
  intros W H. unfold uuid_to_name. destruct (starts "uuid:" s) eqn:E.
  - unfold dgetE. rewrite H. reflexivity.
  - destruct (starts "@dispvm:uuid:" s) eqn:E2.
    + pose proof (key_not_at _ _ _ W H). destruct s; [discriminate|].
      apply starts_split in E2 as [v Hv]. rewrite Hv in *. discriminate.
    + f_equal. eapply key_name; eauto.
Qed.

Lemma yield_intended_plain n : plain_name n = true -> yield_intended n = Ok [n].
Proof. intros H. unfold yield_intended. rewrite parse_tok_plain by auto. reflexivity. Qed.

Lemma parse_dispvm c v : In "@dispvm:" (value_keywords c) -> v <> "" -> starts "@" v = false ->
  parse_tok c ("@dispvm:" +++ v) = Ok (TDispTmpl v).
Proof.
  intros Hc Hv Ha. destruct v as [|a v]; [congruence|].
  assert (Ha' : Ascii.eqb "@" a = false) by (simpl in Ha; rewrite andb_true_r in Ha; auto).
  destruct c; simpl in Hc; unfold parse_tok; cbn; rewrite ?Ha'; cbn; rewrite ?andb_false_r; reflexivity.
Qed.

Lemma yield_dispvm_plain n : plain_name n = true -> yield_dispvm n = Ok ["@dispvm:" +++ n].
Proof.
  intros H. unfold yield_dispvm. rewrite parse_dispvm; simpl; auto.
  - apply plain_not_empty; auto.
  - apply plain_not_at; auto.
Qed.

(** the plain entries of a system description *)
Lemma expand_domains_spec i f (P : string -> dom -> string -> Prop) :
  wf_info i ->
  (forall n d, In (n, d) i -> starts "uuid:" n = false ->
     exists l, f n d = Ok l /\ forall x, In x l <-> P n d x) ->
  exists l, expand_domains f i = Ok l /\
    forall x, In x l <-> exists n d, dget i n = Some d /\ starts "uuid:" n = false /\ P n d x.
Proof.
  intros W Hf.
  assert (Hgen : forall l0, (forall n d, In (n, d) l0 -> In (n, d) i) ->
    exists l, expand_domains f l0 = Ok l /\
      forall x, In x l <-> exists n d, In (n, d) l0 /\ starts "uuid:" n = false /\ P n d x).
  { induction l0 as [|[n d] l0 IH]; simpl; intros Hin.
    - exists []. split; auto. intros x. simpl. split; [tauto|]. intros (n&d&[]&_).
    - destruct IH as (l & Hl & Hx); [intros; apply Hin; auto|].
      destruct (starts "uuid:" n) eqn:E.
      + exists l. split; auto. intros x. rewrite Hx. split.
        * intros (n'&d'&?&?&?). exists n', d'. auto.
        * intros (n'&d'&[He|?]&?&?); [inv He; congruence|]. exists n', d'. auto.
      + destruct (Hf n d (Hin _ _ (or_introl eq_refl)) E) as (a & Ha & HaP).
        rewrite Ha, Hl. simpl. exists (a ++ l). split; auto. intros x.
        rewrite in_app_iff, HaP, Hx. split.
        * intros [?|(n'&d'&?&?&?)]; [exists n, d; auto|exists n', d'; auto].
        * intros (n'&d'&[He|?]&?&?); [inv He; auto|right; exists n', d'; auto]. }
  destruct (Hgen i (fun n d H => H)) as (l & Hl & Hx). exists l. split; auto.
  intros x. rewrite Hx. split; intros (n&d&?&?&?); exists n, d; repeat split; auto.
  - apply In_dget; auto. apply wf_nodup; auto.
  - apply dget_In; auto.
Qed.

Lemma in_plain i n d : wf_info i -> In (n, d) i -> starts "uuid:" n = false ->
  plain_name n = true /\ n = d_name d.
Proof.
  intros W Hin E. apply In_dget in Hin; [|apply wf_nodup; auto].
  pose proof (key_name _ _ _ W Hin E). destruct (wf_keys i W _ _ Hin) as (Hp&_&_). subst. auto.
Qed.

(** rule targets for which expansion does not crash *)
Definition expandable (i : info) (t : tok) : Prop :=
  match t with TDispTmpl v => exists_qube i v | _ => True end.

Lemma expand_spec i t : wf_info i -> expandable i t ->
  exists l, expand i t = Ok l /\ forall x, In x l <-> lists i t x.
Proof.
  intros W He. destruct t; cbn [expand].
  - unfold dmem. destruct (dget i s) as [d|] eqn:E.
    + rewrite (uuid_to_name_name _ _ _ W E). simpl.
      destruct (wf_keys i W _ _ E) as (Hp & Hn & _).
      rewrite yield_intended_plain by auto. eexists. split; eauto. intros x. simpl. split.
      * intros [<-|[]]. constructor; auto.
      * intros H. inv H. left. congruence.
    + eexists. split; eauto. simpl. intros x. split; [tauto|]. intros H. inv H. congruence.
  - edestruct (expand_domains_spec i (fun name d => do a <- yield_intended name;
       do b <- (if d_tmpl d then yield_dispvm name else Ok []); Ok (a ++ b))
       (fun n d x => x = n \/ (d_tmpl d = true /\ x = "@dispvm:" +++ n)) W) as (l & Hl & Hx).
    { intros n d Hin Hu. destruct (in_plain _ _ _ W Hin Hu) as [Hp _].
      rewrite yield_intended_plain by auto. simpl. destruct (d_tmpl d) eqn:Et.
      - rewrite yield_dispvm_plain by auto. eexists. split; [reflexivity|]. intros x. simpl. intuition congruence.
      - eexists. split; [reflexivity|]. intros x. simpl. intuition congruence. }
    rewrite Hl. simpl. eexists. split; eauto. intros x. rewrite in_app_iff, Hx. simpl. split.
    + intros [(n&d&Hd&Hu&[->|[Ht ->]])|[<-|[]]]; [eapply li_wild_name|eapply li_wild_tmpl|apply li_wild_disp]; eauto.
    + intros H. inv H; [left|left|right]; eauto 10.
  - eexists. split; eauto. simpl. intros x. split; [intros [<-|[]]; constructor|intros H; inv H; auto].
  - edestruct (expand_domains_spec i (fun name d => do a <- (if is_dom0 name then Ok [] else yield_intended name);
       do b <- (if d_tmpl d then yield_dispvm name else Ok []); Ok (a ++ b))
       (fun n d x => (~ means_dom0 n /\ x = n) \/ (d_tmpl d = true /\ x = "@dispvm:" +++ n)) W) as (l & Hl & Hx).
    { intros n d Hin Hu. destruct (in_plain _ _ _ W Hin Hu) as [Hp _].
      destruct (is_dom0 n) eqn:E0.
      - apply is_dom0_spec in E0. simpl. destruct (d_tmpl d) eqn:Et.
        + rewrite yield_dispvm_plain by auto. eexists. split; [reflexivity|]. intros x. simpl. intuition congruence.
        + eexists. split; [reflexivity|]. intros x. simpl. intuition congruence.
      - apply is_dom0_false in E0. rewrite yield_intended_plain by auto. simpl. destruct (d_tmpl d) eqn:Et.
        + rewrite yield_dispvm_plain by auto. eexists. split; [reflexivity|]. intros x. simpl. intuition congruence.
        + eexists. split; [reflexivity|]. intros x. simpl. intuition congruence. }
    rewrite Hl. simpl. eexists. split; eauto. intros x. rewrite in_app_iff, Hx. simpl. split.
    + intros [(n&d&Hd&Hu&[[? ->]|[Ht ->]])|[<-|[]]]; [eapply li_any_name|eapply li_any_tmpl|apply li_any_disp]; eauto.
    + intros H. inv H; [left|left|right]; eauto 10.
  - eexists. split; eauto. simpl. intros x. split; [tauto|]. intros H. inv H.
  - edestruct (expand_domains_spec i (fun name d => if String.eqb (d_type d) v then yield_intended name else Ok [])
       (fun n d x => d_type d = v /\ x = n) W) as (l & Hl & Hx).
    { intros n d Hin Hu. destruct (in_plain _ _ _ W Hin Hu) as [Hp _].
      destruct (String.eqb_spec (d_type d) v).
      - rewrite yield_intended_plain by auto. eexists. split; [reflexivity|]. intros x. simpl. intuition congruence.
      - eexists. split; [reflexivity|]. intros x. simpl. intuition congruence. }
    exists l. split; auto. intros x. rewrite Hx. split.
    + intros (n&d&?&?&?&->). econstructor; eauto.
    + intros H. inv H. eauto 10.
  - edestruct (expand_domains_spec i (fun name d => if smem v (d_tags d) then yield_intended name else Ok [])
       (fun n d x => In v (d_tags d) /\ x = n) W) as (l & Hl & Hx).
    { intros n d Hin Hu. destruct (in_plain _ _ _ W Hin Hu) as [Hp _].
      destruct (smem v (d_tags d)) eqn:E.
      - apply smem_In in E. rewrite yield_intended_plain by auto. eexists. split; [reflexivity|]. intros x. simpl. intuition congruence.
      - apply smem_false in E. eexists. split; [reflexivity|]. intros x. simpl. intuition congruence. }
    exists l. split; auto. intros x. rewrite Hx. split.
    + intros (n&d&?&?&?&->). econstructor; eauto.
    + intros H. inv H. eauto 10.
  - eexists. split; eauto. simpl. intros x. split; [intros [<-|[]]; constructor|intros H; inv H; auto].
  - destruct He as [d Hd]. unfold dgetE. rewrite Hd. cbn [bind].
    destruct (wf_keys i W _ _ Hd) as (Hp & Hn & Hk).
    assert (Hu : uuid_to_name i ("@dispvm:" +++ v) = Ok ("@dispvm:" +++ d_name d)).
    { unfold uuid_to_name. change (starts "uuid:" ("@dispvm:" +++ v)) with false. cbn [andb].
      replace (starts "@dispvm:uuid:" ("@dispvm:" +++ v)) with (starts "uuid:" v)
        by (destruct v; reflexivity).
      change (sdrop 8 ("@dispvm:" +++ v)) with v.
      destruct (starts "uuid:" v) eqn:E.
      - unfold dgetE. rewrite Hd. reflexivity.
      - rewrite (key_name _ _ _ W Hd E) at 1. reflexivity. }
    destruct (d_tmpl d) eqn:Et.
    + cbn [tok_str]. rewrite Hu. unfold rmap. cbn [bind]. eexists. split; [reflexivity|]. intros x. cbn [In]. split.
      * intros [<-|[]]. eapply (li_disptmpl i v d); eauto.
      * intros H. inv H. left. congruence.
    + eexists. split; eauto. simpl. intros x. split; [tauto|]. intros H. inv H. congruence.
  - edestruct (expand_domains_spec i (fun name d => if smem v (d_tags d) && d_tmpl d then yield_dispvm name else Ok [])
       (fun n d x => In v (d_tags d) /\ d_tmpl d = true /\ x = "@dispvm:" +++ n) W) as (l & Hl & Hx).
    { intros n d Hin Hu. destruct (in_plain _ _ _ W Hin Hu) as [Hp _].
      destruct (smem v (d_tags d)) eqn:E; simpl; [destruct (d_tmpl d) eqn:Et|].
      - apply smem_In in E. rewrite yield_dispvm_plain by auto. eexists. split; [reflexivity|]. intros x. simpl. intuition congruence.
      - eexists. split; [reflexivity|]. intros x. simpl. intuition congruence.
      - apply smem_false in E. eexists. split; [reflexivity|]. intros x. simpl. intuition congruence. }
    exists l. split; auto. intros x. rewrite Hx. split.
    + intros (n&d&?&?&?&?&->). econstructor; eauto.
    + intros H. inv H. eauto 10.
Qed.

(** entries are never uuid designations, so the second uuid_to_name is identity *)
Lemma lists_no_uuid i t x : wf_info i -> lists i t x ->
  uuid_to_name i x = Ok x.
Proof.
  intros W H. unfold uuid_to_name.
  assert (Hd : forall n d, dget i n = Some d -> starts "uuid:" n = false ->
     starts "uuid:" n = false /\ starts "@dispvm:uuid:" n = false).
  { intros n d Hd Hu. split; auto. destruct (starts "@dispvm:uuid:" n) eqn:E; auto.
    apply starts_split in E as [v ->]. apply key_not_at in Hd; auto; discriminate. }
  assert (Hd2 : forall n d, dget i n = Some d -> starts "uuid:" n = false ->
     starts "uuid:" ("@dispvm:" +++ n) = false /\ starts "@dispvm:uuid:" ("@dispvm:" +++ n) = false).
  { intros n d _ Hu. split; auto; rewrite <- Hu; destruct n; reflexivity. }
  assert (Hx : starts "uuid:" x = false /\ starts "@dispvm:uuid:" x = false).
  { inv H; eauto; try (split; reflexivity).
    - destruct (wf_keys i W _ _ H0) as (Hp & Hn & _). eapply Hd; eauto. apply plain_not_uuid; auto.
    - destruct (wf_keys i W _ _ H0) as (Hp & Hn & _). eapply Hd2; eauto. apply plain_not_uuid; auto. }
  destruct Hx as [-> ->]. reflexivity.
Qed.

Lemma expansion_set_In i l y : (forall x, In x l -> uuid_to_name i x = Ok x) ->
  In y (expansion_set i l) <-> In y l.
Proof.
  induction l as [|x l IH]; simpl; intros H; [tauto|].
  rewrite (H x (or_introl eq_refl)). rewrite set_add_In, IH; [|auto]. intuition.
Qed.

Lemma target_spec_action r :
  (match action_target (r_action r) with Some t => t | None => r_target r end) = target_spec r.
Proof. unfold target_spec, redirect_of, action_target. destruct (r_action r); auto. Qed.

Lemma is_deny_spec r : is_deny (r_action r) = true <-> is_deny_rule r.
Proof.
  unfold is_deny_rule. destruct (r_action r); simpl; split; eauto; try discriminate; intros [? H]; discriminate.
Qed.

(** entries after processing the rules from the last one up *)
Lemma collect_loop_spec q : wf_call q ->
  forall rules init, (forall r, In r rules -> caller_applies r q -> expandable (q_info q) (target_spec r)) ->
  exists l, collect_loop (rev rules) q init = Ok l /\
   forall x, In x l <-> (entry_open rules q x \/
                         (In x init /\ forall r, In r rules -> ~ speaks r q x)).
Proof.
  intros Wc. pose proof Wc as [W R T S].
  assert (Happ : forall a b init, collect_loop (a ++ b) q init =
            do t <- collect_loop a q init; collect_loop b q t).
  { induction a as [|r a IH]; simpl; intros b init; auto.
    destruct (is_match_but_target r q) as [m|]; simpl; auto. destruct m; auto.
    destruct (expand _ _); simpl; auto. }
  induction rules as [|r rules IH]; simpl; intros init He.
  - exists init. split; auto. intros x. split.
    + intros H. right. auto.
    + intros [(l1&r&l2&H&_)|[H _]]; auto. destruct l1; discriminate.
  - destruct (IH init) as (l & Hl & Hx); [auto|]. rewrite Happ, Hl. simpl.
    destruct (is_match_but_target_total r q) as [m Hm]. rewrite Hm. simpl.
    pose proof (is_match_but_target_correct _ _ _ Wc Hm) as C.
    assert (Hcons : forall x, ~ speaks r q x -> (entry_open (r :: rules) q x \/
              (In x init /\ forall r', r = r' \/ In r' rules -> ~ speaks r' q x)) <->
              (entry_open rules q x \/ (In x init /\ forall r', In r' rules -> ~ speaks r' q x))).
    { intros x Hns. split.
      - intros [(l1&r1&l2&H&H1&H2&H3)|[H1 H2]].
        + destruct l1 as [|r0 l1]; simpl in H; inv H; [contradiction|].
          left. exists l1, r1, l2. repeat split; auto; try apply H2. intros; apply H1; right; auto.
        + right. auto.
      - intros [(l1&r1&l2&->&H1&H2&H3)|[H1 H2]].
        + left. exists (r :: l1), r1, l2. repeat split; auto; try apply H2. intros r' [<-|]; auto.
        + right. split; auto. intros r' [<-|]; auto. }
    destruct m.
    + assert (Hc : caller_applies r q) by (apply C; auto).
      rewrite target_spec_action.
      destruct (expand_spec (q_info q) (target_spec r) W) as (ex & Hex & Hli).
      { apply He; auto. }
      rewrite Hex. simpl.
      assert (Hes : forall y, In y (expansion_set (q_info q) ex) <-> speaks r q y).
      { intros y. rewrite expansion_set_In.
        - rewrite Hli. unfold speaks. tauto.
        - intros x Hin. eapply lists_no_uuid; eauto. apply Hli; auto. }
      eexists. split; [reflexivity|]. intros x.
      destruct (is_deny (r_action r)) eqn:Ed.
      * apply is_deny_spec in Ed. rewrite set_diff_In, Hes, Hx. split.
        -- intros [H1 H2]. apply Hcons; auto.
        -- intros H. assert (Hns : ~ speaks r q x).
           { intros Hsp. destruct H as [(l1&r1&l2&H&H1&H2&H3)|[H1 H2]].
             - destruct l1 as [|r0 l1]; simpl in H; inv H; [contradiction|]. apply (H1 r0); simpl; auto.
             - apply (H2 r); auto. }
           split; auto. apply Hcons in H; auto.
      * assert (Hnd : ~ is_deny_rule r) by (rewrite <- is_deny_spec; congruence).
        rewrite set_union_In, Hes, Hx. split.
        -- intros [H|H].
           ++ destruct H as [(l1&r1&l2&->&H1&H2&H3)|[H1 H2]].
              ** destruct (is_match_but_target_total r q) as [b Hb].
                 assert (Hdec : speaks r q x \/ ~ speaks r q x).
                 { destruct (in_dec string_dec x (expansion_set (q_info q) ex)) as [i|n].
                   - left. apply Hes; auto.
                   - right. intros Hs. apply n. apply Hes; auto. }
                 destruct Hdec as [Hs|Hs].
                 --- left. exists [], r, (l1 ++ r1 :: l2). repeat split; auto; try apply Hs; simpl; tauto.
                 --- apply Hcons; auto. left. exists l1, r1, l2. auto.
              ** assert (Hdec : speaks r q x \/ ~ speaks r q x).
                 { destruct (in_dec string_dec x (expansion_set (q_info q) ex)) as [i|n].
                   - left. apply Hes; auto.
                   - right. intros Hs. apply n. apply Hes; auto. }
                 destruct Hdec as [Hs|Hs].
                 --- left. exists [], r, rules. repeat split; auto; try apply Hs; simpl; tauto.
                 --- apply Hcons; auto.
           ++ left. exists [], r, rules. repeat split; auto; try apply H; simpl; tauto.
        -- intros H. assert (Hdec : speaks r q x \/ ~ speaks r q x).
           { destruct (in_dec string_dec x (expansion_set (q_info q) ex)) as [i|n].
             - left. apply Hes; auto.
             - right. intros Hs. apply n. apply Hes; auto. }
           destruct Hdec as [Hs|Hs]; auto. left. apply Hcons; auto.
    + eexists. split; [reflexivity|]. intros x. rewrite Hx. symmetry. apply Hcons.
      intros [Hc _]. apply C in Hc. discriminate.
Qed.

(** a successful collection means every specification could be expanded *)
Lemma collect_loop_expandable q : wf_call q -> forall rs init l,
  collect_loop rs q init = Ok l ->
  forall r, In r rs -> caller_applies r q -> expandable (q_info q) (target_spec r).
Proof.
  intros Wc. induction rs as [|r0 rs IH]; simpl; intros init l H r Hin Hc; [tauto|].
  destruct (is_match_but_target_total r0 q) as [m Hm]. rewrite Hm in H. simpl in H.
  pose proof (is_match_but_target_correct _ _ _ Wc Hm) as C.
  destruct m.
  - rewrite target_spec_action in H. apply bind_ok in H as (ex & Hex & H).
    destruct Hin as [->|Hin]; [|eauto].
    unfold expandable. destruct (target_spec r); auto. simpl in Hex.
    unfold dgetE in Hex. destruct (dget (q_info q) v) eqn:E; [|discriminate]. exists d. auto.
  - destruct Hin as [->|Hin]; [|eauto]. apply C in Hc. discriminate.
Qed.

(** the sentinel entries after the "@dispvm" and "@adminvm" replacements *)
Definition present (q : request) (targets : list string) : list string :=
  let t1 := if smem "@dispvm" targets then
              let t' := set_remove "@dispvm" targets in
              match dget (q_info q) (q_source q) with
              | Some d => match d_ddisp d with
                          | Some w => set_add ("@dispvm:" +++ w) t' | None => t' end
              | None => t' end
            else targets in
  if smem "@adminvm" t1 then set_add "dom0" (set_remove "@adminvm" t1) else t1.

Lemma present_In q targets x :
  In x (present q targets) <-> exists y, In y targets /\ presented q y x.
Proof.
  unfold present.
  set (t1 := if smem "@dispvm" targets then _ else targets).
  assert (H1 : forall z, In z t1 <-> (In z targets /\ z <> "@dispvm") \/
     (In "@dispvm" targets /\ exists d w, dget (q_info q) (q_source q) = Some d /\
        d_ddisp d = Some w /\ z = "@dispvm:" +++ w)).
  { intros z. unfold t1. destruct (smem "@dispvm" targets) eqn:E.
    - apply smem_In in E. destruct (dget (q_info q) (q_source q)) as [d|] eqn:Ed;
        [destruct (d_ddisp d) as [w|] eqn:Ew|].
      + rewrite set_add_In, set_remove_In. split.
        * intros [->|[]]; [right; eauto 10|left; auto].
        * intros [[]|(_&d'&w'&Hd&Hw&->)]; auto. inv Hd. left. congruence.
      + rewrite set_remove_In. split; [tauto|]. intros [[]|(_&d'&w'&Hd&Hw&->)]; auto. inv Hd. congruence.
      + rewrite set_remove_In. split; [tauto|]. intros [[]|(_&d'&w'&Hd&Hw&->)]; auto. congruence.
    - apply smem_false in E. split; [|intros [[]|[]]; tauto].
      intros Hz. left. split; auto. congruence. }
  assert (Ha : In "@adminvm" t1 <-> In "@adminvm" targets).
  { rewrite H1. split; [intros [[]|(_&d&w&_&_&?)]; auto; discriminate|]. intros; left; split; auto; discriminate. }
  assert (H2 : In x (if smem "@adminvm" t1 then set_add "dom0" (set_remove "@adminvm" t1) else t1) <->
     (In x t1 /\ x <> "@adminvm") \/ (In "@adminvm" targets /\ x = "dom0")).
  { destruct (smem "@adminvm" t1) eqn:E.
    - apply smem_In in E. rewrite set_add_In, set_remove_In. tauto.
    - apply smem_false in E. split.
      + intros Hx. left. split; auto. congruence.
      + intros [[]|[]]; auto. tauto. }
  rewrite H2, H1. split.
  - intros [[[[Hx Hn]|(Hd&d&w&Hg&Hw&->)] Hna]|[Hx ->]].
    + exists x. split; auto. constructor; auto.
    + exists "@dispvm". split; auto. econstructor; eauto.
    + exists "@adminvm". split; auto. constructor.
  - intros (y & Hy & Hp). inv Hp.
    + left. split; [|discriminate]. right. eauto 10.
    + right. auto.
    + left. auto.
Qed.

Lemma drop_internal_ok i l l' : drop_internal i l = Ok l' ->
  forall x, In x l' <-> In x l /\ exists d, dget i (entry_qube x) = Some d /\ d_internal d = false.
Proof.
  revert l'. induction l as [|t l IH]; simpl; intros l' H x.
  - inv H. simpl. tauto.
  - apply bind_ok in H as (d & Hd & H). apply bind_ok in H as (l2 & Hl & H). inv H.
    unfold dgetE in Hd. destruct (dget i (choice_name t)) as [d'|] eqn:E; inv Hd.
    specialize (IH _ Hl x). change (entry_qube x) with (choice_name x) in *.
    destruct (d_internal d) eqn:Ei.
    + rewrite IH. split; [tauto|]. intros [[->|Hin] H]; auto. destruct H as (d2 & H2 & H3). congruence.
    + simpl. rewrite IH. split.
      * intros [->|[Hin H]]; auto. split; auto. eauto.
      * intros [[->|Hin] H]; auto.
Qed.

Lemma drop_internal_total i l : (forall x, In x l -> exists_qube i (entry_qube x)) ->
  exists l', drop_internal i l = Ok l'.
Proof.
  induction l as [|t l IH]; simpl; intros H; eauto.
  destruct (H t (or_introl eq_refl)) as [d Hd]. destruct IH as [l' Hl]; auto.
  change (entry_qube t) with (choice_name t) in Hd. unfold dgetE. rewrite Hd. simpl.
  rewrite Hl. simpl. eauto.
Qed.

(** names of the calling qube *)
Definition own_names (q : request) : res (string * string) :=
  if starts "uuid:" (q_source q) then
    do d <- dgetE (q_info q) (q_source q); Ok (q_source q, d_name d)
  else
    do d <- dgetE (q_info q) (q_source q);
    match d_uuid d with Some u => Ok ("uuid:" +++ u, q_source q) | None => Err EKey end.

Lemma own_names_spec q u n x : wf_info (q_info q) -> own_names q = Ok (u, n) ->
  (same_qube (q_info q) (q_source q) x <-> x = u \/ x = n).
Proof.
  intros W. unfold own_names, dgetE.
  destruct (dget (q_info q) (q_source q)) as [d|] eqn:E;
    [|destruct (starts "uuid:" (q_source q)); discriminate].
  destruct (wf_keys _ W _ _ E) as (Hp & Hn & Hk).
  destruct (starts "uuid:" (q_source q)) eqn:Eu; simpl.
  - intros H. inv H. destruct (key_uuid _ _ _ W E Eu) as (u & Hu & Hs).
    unfold same_qube. rewrite E. split.
    + intros [->|(d' & Hd & Hx)]; auto. inv Hd.
      destruct (wf_keys _ W _ _ Hx) as (_&_&[->|(u'&Hu'&->)]); auto. left. congruence.
    + intros [->| ->]; auto. right. exists d. auto.
  - destruct (d_uuid d) as [u'|] eqn:Hu; [|discriminate]. intros H. inv H.
    pose proof (key_name _ _ _ W E Eu) as Hs. unfold same_qube. rewrite E. split.
    + intros [->|(d' & Hd & Hx)]; auto. inv Hd.
      destruct (wf_keys _ W _ _ Hx) as (_&_&[->|(u2&Hu2&->)]); [right; congruence|left; replace u2 with u' by congruence; reflexivity].
    + intros [->| ->]; auto. right. exists d. split; auto. eapply wf_uuid; eauto.
Qed.

Lemma collect_unfold rules q : wf_refs (q_info q) ->
  collect_targets_for_ask rules q =
  do su <- own_names q;
  do targets <- collect_loop (rev rules) q [];
  drop_internal (q_info q) (set_remove (fst su) (set_remove (snd su) (present q targets))).
Proof.
  intros R. unfold collect_targets_for_ask, own_names.
  assert (Hb : forall A B C (x : res A) (f : A -> res B) (g : B -> res C),
     bind (bind x f) g = bind x (fun a => bind (f a) g)) by (intros A B C [] f g; reflexivity).
  match goal with |- bind ?a _ = bind ?b _ => destruct b as [[u n]|] end; simpl; auto.
  destruct (collect_loop (rev rules) q []) as [targets|]; simpl; auto.
  unfold present. rewrite get_dispvm_template_ok by auto.
  destruct (smem "@dispvm" targets); simpl; auto.
  destruct (dget (q_info q) (q_source q)) as [d|]; simpl; auto.
  destruct (d_ddisp d); simpl; auto.
Qed.

Theorem collect_targets_exact rules q l :
  wf_call q -> collect_targets_for_ask rules q = Ok l ->
  forall x, In x l <-> offered rules q x.
Proof.
  intros Wc H x. pose proof Wc as [W R T S]. rewrite collect_unfold in H by auto.
  apply bind_ok in H as ([u n] & Hsu & H). apply bind_ok in H as (targets & Ht & H).
  rewrite (drop_internal_ok _ _ _ H). simpl. rewrite !set_remove_In, present_In.
  destruct (collect_loop_spec q Wc rules []) as (l2 & Hl2 & Hspec).
  { intros r Hr. eapply collect_loop_expandable; eauto. apply in_rev in Hr. auto. }
  rewrite Hl2 in Ht. inv Ht. unfold offered.
  rewrite (own_names_spec _ _ _ x W Hsu).
  split.
  - intros [(Hu & Hn & y & Hy & Hp) Hi]. split; [|split]; auto; [|tauto].
    exists y. split; auto. apply Hspec in Hy as [Hy|[[] _]]. auto.
  - intros ((y & Hy & Hp) & Hne & Hi). split; auto. split; [tauto|]. split; [tauto|].
    exists y. split; auto. apply Hspec. auto.
Qed.

(** what each listed entry denotes *)
Lemma lists_entry i t y : wf_info i -> lists i t y ->
  y = "@dispvm" \/ y = "@adminvm" \/ exists_qube i (entry_qube y).
Proof.
  intros W H.
  assert (Hn : forall n d, dget i n = Some d -> exists_qube i (entry_qube n)).
  { intros n d Hd. unfold entry_qube. destruct (starts "@dispvm:" n) eqn:E; [|exists d; auto].
    apply starts_split in E as [v ->]. apply key_not_at in Hd; auto. discriminate. }
  assert (Hd : forall n d, dget i n = Some d -> exists_qube i (entry_qube ("@dispvm:" +++ n))).
  { intros n d Hd. exists d. exact Hd. }
  inv H; eauto; right; right.
  - destruct (wf_keys _ W _ _ H0) as (_ & H & _). eauto.
  - destruct (wf_keys _ W _ _ H0) as (_ & H & _). eauto.
Qed.

Theorem collect_targets_total rules q d u :
  wf_call q -> dget (q_info q) (q_source q) = Some d -> d_uuid d = Some u ->
  exists_qube (q_info q) "dom0" ->
  (forall r, In r rules -> caller_applies r q -> expandable (q_info q) (target_spec r)) ->
  exists l, collect_targets_for_ask rules q = Ok l.
Proof.
  intros Wc Hd Hu H0 He. pose proof Wc as [W R T S]. rewrite collect_unfold by auto.
  assert (Hsu : exists su, own_names q = Ok su).
  { unfold own_names, dgetE. rewrite Hd. simpl. rewrite Hu. destruct (starts "uuid:" (q_source q)); eauto. }
  destruct Hsu as [su ->]. simpl.
  destruct (collect_loop_spec q Wc rules [] He) as (l & -> & Hl). simpl.
  apply drop_internal_total. intros x Hx. apply set_remove_In in Hx as [_ Hx].
  apply set_remove_In in Hx as [_ Hx]. apply present_In in Hx as (y & Hy & Hp).
  apply Hl in Hy as [(l1&r&l2&_&_&[_ Hli]&_)|[[] _]].
  apply lists_entry in Hli; auto. inv Hp.
  - change (entry_qube ("@dispvm:" +++ w)) with w. eapply R; eauto.
  - exact H0.
  - destruct Hli as [->|[->|?]]; auto; contradiction.
Qed.
