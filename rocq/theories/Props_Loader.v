(** Properties C20-C26: loading the policy.

    Statements use SpecLoader.v, SpecRule.v and SpecPolicy.v. *)
From Coq Require Import String Ascii List Bool Arith Lia Permutation Sorting.
From Verif Require Import Base SysInfo Token Rule Policy PolicyExec FileSys Loader
  SpecPolicy SpecRule SpecLoader
  TokenProofs MatchProofs EvalProofs AskProofs ExecProofs SysInfoProofs RuleProofs RulePrint Props_Policy
  TextProofs LoaderProofs SelectProofs LoaderExt.
Import ListNotations.
Open Scope string_scope.
Open Scope list_scope.

(** ** C20 Shadowing and order *)

Lemma load_files_mono f legacy fuel fuel' sel rs : fuel <= fuel' ->
  load_files f legacy fuel sel = Ok rs -> load_files f legacy fuel' sel = Ok rs.
Proof.
  intros Hf. apply concatM_mono. intros x r _ H. apply bind_ok in H as (ls & -> & H). cbn [bind].
  eapply load_file_mono; [|exact Hf|exact H]. intros g g' rs' Hg. cbn. apply compat_execute_mono. exact Hg.
Qed.
Lemma load_policy_mono f legacy fuel fuel' dirs rs : fuel <= fuel' ->
  load_policy f legacy fuel dirs = Ok rs -> load_policy f legacy fuel' dirs = Ok rs.
Proof.
  intros Hf. unfold load_policy. rewrite !os_to_denied_ok. intros H.
  apply bind_ok in H as (l & -> & H). cbn [bind]. eapply load_files_mono; eauto.
Qed.

(** A load that succeeds yields exactly the policy stored in the directories:
    see [chosen] (shadowing, byte order) and [chosen_rules] (rules in order). *)
Theorem C20_loaded_policy f legacy dirs rs : wf_fs f ->
  (exists fuel, load_policy f legacy fuel dirs = Ok rs) <->
  exists sel, chosen f dirs sel /\ chosen_rules f legacy sel rs.
Proof. intros W. exact (load_policy_spec f legacy dirs rs W). Qed.

(** ... and both the files and the rules are determined by the directories *)
Theorem C20_unique f legacy dirs rs rs' : wf_fs f ->
  policy_of f legacy dirs rs -> policy_of f legacy dirs rs' -> rs = rs'.
Proof.
  intros W H H'. apply load_policy_spec in H as (n & H); auto. apply load_policy_spec in H' as (n' & H'); auto.
  apply (load_policy_mono _ _ _ (max n n')) in H; [|lia].
  apply (load_policy_mono _ _ _ (max n n')) in H'; [|lia]. congruence.
Qed.

(** a name is taken from the first directory that has it and only from there *)
Theorem C20_shadowing f dirs sel d n : chosen f dirs sel ->
  In (d, n) sel <->
  exists before after, dirs = before ++ d :: after /\ policy_file f d n /\
    forall d', In d' before -> ~ policy_file f d' n.
Proof. intros (_&_&_&H). apply H. Qed.

(** the order of directory entries (and the enumeration order of the file
    system as a whole) is irrelevant: same result, same error *)
Theorem C20_listing_order f f' legacy fuel dirs : wf_fs f -> Permutation f f' ->
  load_policy f legacy fuel dirs = load_policy f' legacy fuel dirs.
Proof.
  intros W P. assert (W' : wf_fs f').
  { unfold wf_fs in *. eapply Permutation_NoDup; [|exact W]. apply Permutation_map. exact P. }
  apply load_policy_same_tree; auto. intros p. left.
  assert (G : forall g n, wf_fs g -> fget g p = Some n <-> In (p, n) g).
  { clear. intros g n. unfold wf_fs. induction g as [|[q m] g IH]; simpl; intros N; [split; [discriminate|tauto]|].
    inv N. destruct (path_eqb_spec p q) as [->|Hn].
    - split; [intros E; inv E; auto|]. intros [E|Hin]; [inv E; auto|].
      exfalso. apply H1. apply in_map_iff. exists (q, n). auto.
    - rewrite IH; auto. split; auto. intros [E|]; auto. inv E. congruence. }
  destruct (fget f p) as [n|] eqn:E.
  - symmetry. apply G; auto. apply G in E; auto. eapply Permutation_in; eauto.
  - destruct (fget f' p) as [n|] eqn:E'; auto.
    apply G in E'; auto. apply Permutation_sym in P. apply (Permutation_in _ P) in E'. apply G in E'; auto. congruence.
Qed.

(** ** C21 Bad file names stop the load *)

Lemma select_err f : forall dirs final e, select_files f dirs final = Err e ->
  e = EOs \/ e = EAccessDenied true.
Proof.
  induction dirs as [|d dirs IH]; intros final e; cbn [select_files]; [discriminate|].
  unfold iterdir. destruct (is_dir f d); cbn [bind]; [|intros H; inv H; auto].
  unfold filter_filepaths. destruct (forallb _ _); cbn [bind]; [apply IH|]. intros H. inv H. auto.
Qed.

Theorem C21_bad_name_refused f legacy fuel dirs d n : wf_fs f ->
  In d dirs -> policy_file f d n -> ~ plain_filename n ->
  load_policy f legacy fuel dirs = Err (EAccessDenied true).
Proof.
  intros W Hd Hp Hn. unfold load_policy.
  destruct (select_files f dirs []) as [l|e] eqn:E; cbn [bind].
  - exfalso. apply Hn. assert (C : chosen f dirs (sort_by name_leb l)) by (apply select_chosen; eauto).
    destruct C as (_&C&_). eapply C; eauto.
  - apply select_err in E as [->| ->]; reflexivity.
Qed.
(** a directory that cannot be listed stops the load too *)
Theorem C21_missing_dir_refused f legacy fuel dirs d : wf_fs f ->
  In d dirs -> fget f d <> Some NDir ->
  load_policy f legacy fuel dirs = Err (EAccessDenied true).
Proof.
  intros W Hd Hn. unfold load_policy.
  destruct (select_files f dirs []) as [l|e] eqn:E; cbn [bind].
  - exfalso. apply Hn. assert (C : chosen f dirs (sort_by name_leb l)) by (apply select_chosen; eauto).
    destruct C as (C&_). apply C; auto.
  - apply select_err in E as [->| ->]; reflexivity.
Qed.
(** only policy files are loaded, and every policy file name is *)
Theorem C21_only_policy_files f dirs sel : chosen f dirs sel ->
  (forall d n, In (d, n) sel -> policy_file f d n /\ plain_filename n) /\
  (forall d n, In d dirs -> policy_file f d n -> exists d', In (d', n) sel).
Proof.
  intros (Hd&Hp&_&Hs). split.
  - intros d n H. apply Hs in H as (b&a&->&H&_). split; auto. eapply Hp; eauto. apply in_app_iff. simpl. auto.
  - intros d n Hin Hf. assert (In n (map snd sel)) as Hm by (apply (first_in_names f dirs sel Hs); eauto).
    apply in_map_iff in Hm as ([d' n'] & E & H). cbn in E. subst. eauto.
Qed.
(** hidden files, files with other suffixes and other objects do not matter *)
Theorem C21_ignored f f' dirs sel :
  (forall d, In d dirs -> fget f d = fget f' d) ->
  (forall d n, In d dirs -> policy_file f d n <-> policy_file f' d n) ->
  chosen f dirs sel <-> chosen f' dirs sel.
Proof.
  assert (G : forall f f', (forall d, In d dirs -> fget f d = fget f' d) ->
    (forall d n, In d dirs -> policy_file f d n <-> policy_file f' d n) ->
    chosen f dirs sel -> chosen f' dirs sel).
  { clear. intros f f' Hd Hp (A&B&C&D). repeat split.
    - intros d Hin. rewrite <- Hd; auto.
    - intros d n Hin Hf. eapply B; eauto. apply Hp; auto.
    - exact C.
    - intros Hin. apply D in Hin as (b&a&->&H&Hn). exists b, a. split; auto.
      assert (I : forall d', In d' (b ++ [d]) -> In d' (b ++ d :: a)).
      { intros d'. rewrite !in_app_iff. simpl. tauto. }
      split. { apply Hp; auto. apply I, in_app_iff. simpl. auto. }
      intros d' Hin. rewrite <- Hp; auto. apply I, in_app_iff. auto.
    - intros (b&a&->&H&Hn). apply D. exists b, a. split; auto.
      assert (I : forall d', In d' (b ++ [d]) -> In d' (b ++ d :: a)).
      { intros d'. rewrite !in_app_iff. simpl. tauto. }
      split. { apply Hp; auto. apply I, in_app_iff. simpl. auto. }
      intros d' Hin. rewrite Hp; auto. apply I, in_app_iff. auto. }
  intros Hd Hp. split; apply G; auto.
  - intros d Hin. symmetry. auto.
  - intros d n Hin. symmetry. auto.
Qed.

(** ** C22 All or nothing *)

Lemma fields_fun s a b : fields s a -> fields s b -> a = b.
Proof. intros H H'. apply split_ws_fields in H, H'. congruence. Qed.
Lemma file_lines_fun f p a b : file_lines f p a -> file_lines f p b -> a = b.
Proof. intros (c&E&_&->) (c'&E'&_&->). congruence. Qed.
Lemma opens_fun f base p file ls file' ls' : opens_at f base p file ls -> opens_at f base p file' ls' ->
  file = file' /\ ls = ls'.
Proof. intros (->&H) (->&H'). split; auto. eapply file_lines_fun; eauto. Qed.
Lemma policy_dir_fun f d a b : policy_dir f d a -> policy_dir f d b -> a = b.
Proof.
  intros (_&S&I&_) (_&S'&I'&_). apply (sorted_unique lt_bytes); auto.
  - intros x _. apply lt_irrefl.
  - intros x y _ _ H1 H2. apply (lt_irrefl x). eapply lt_trans; eauto.
  - intros x. rewrite I, I'. tauto.
Qed.
Lemma lists_fun f base p fs1 fs2 : lists_at f base p fs1 -> lists_at f base p fs2 -> fs1 = fs2.
Proof.
  intros (n1&D1&F1) (n2&D2&F2). assert (E : n1 = n2) by (eapply policy_dir_fun; eauto). subst n2. clear D1 D2.
  revert fs2 F2. induction F1 as [|n [x y] l l' [E1 E2] _ IH]; intros fs2 F2; inv F2; auto.
  destruct y0 as [x' y']. cbn [fst snd] in *. destruct H1 as [E1' E2']. f_equal; auto.
  subst. f_equal. eapply file_lines_fun; eauto.
Qed.

Lemma text_rules_app opens lists legacy file a b rs :
  text_rules opens lists legacy file (a ++ b) rs <->
  exists r1 r2, text_rules opens lists legacy file a r1 /\ text_rules opens lists legacy file b r2 /\ rs = r1 ++ r2.
Proof.
  split.
  - revert rs. induction a as [|l a IH]; intros rs H.
    + exists [], rs. split; [constructor|auto].
    + cbn [app] in H. remember (l :: a ++ b) as ls eqn:E. destruct H; inv E.
      * apply IH in H0 as (r1&r2&A&B&->). exists r1, r2. split; [|auto]. constructor; auto.
      * apply IH in H3 as (r1&r2&A&B&->). exists (r :: r1), r2. split; [|auto]. eapply tr_rule; eauto.
      * apply IH in H2 as (r1&r2&A&B&->). exists (rs1 ++ r1), r2. rewrite app_assoc. split; [|auto]. eapply tr_include; eauto.
      * apply IH in H2 as (r1&r2&A&B&->). exists (rs1 ++ r1), r2. rewrite app_assoc. split; [|auto]. eapply tr_include_dir; eauto.
      * apply IH in H3 as (r1&r2&A&B&->). exists (rs1 ++ r1), r2. rewrite app_assoc. split; [|auto]. eapply tr_include_service; eauto.
      * apply IH in H1 as (r1&r2&A&B&->). exists (rs1 ++ r1), r2. rewrite app_assoc. split; [|auto]. eapply tr_compat; eauto.
  - intros (r1&r2&A&B&->). revert r1 A. induction a as [|l a IH]; intros r1 A.
    + remember [] as ls eqn:E. destruct A; inv E. exact B.
    + cbn [app]. remember (l :: a) as ls eqn:E. destruct A; inv E; try rewrite <- app_assoc.
      * constructor; auto.
      * cbn [app]. eapply tr_rule; eauto.
      * eapply tr_include; eauto.
      * eapply tr_include_dir; eauto.
      * eapply tr_include_service; eauto.
      * eapply tr_compat; eauto.
Qed.
Lemma text_rules_line opens lists legacy file ls rs l :
  text_rules opens lists legacy file ls rs -> In l ls ->
  exists r1, text_rules opens lists legacy file [l] r1.
Proof.
  intros H Hin. apply in_split in Hin as (a&b&->).
  apply text_rules_app in H as (r1&r2&_&H&_). change (l :: b) with ([l] ++ b) in H.
  apply text_rules_app in H as (r3&r4&H&_). eauto.
Qed.
Lemma service_rules_app opens sv ar file a b rs :
  service_rules opens sv ar file (a ++ b) rs ->
  exists r1 r2, service_rules opens sv ar file a r1 /\ service_rules opens sv ar file b r2 /\ rs = r1 ++ r2.
Proof.
  revert rs. induction a as [|l a IH]; intros rs H.
  - exists [], rs. split; [constructor|auto].
  - cbn [app] in H. remember (l :: a ++ b) as ls eqn:E. destruct H; inv E.
    + apply IH in H0 as (r1&r2&A&B&->). exists r1, r2. split; [|auto]. constructor; auto.
    + apply IH in H6 as (r1&r2&A&B&->). exists (r :: r1), r2. split; [|auto]. eapply sr_rule; eauto.
    + apply IH in H6 as (r1&r2&A&B&->). exists (rs1 ++ r1), r2. rewrite app_assoc. split; [|auto]. eapply sr_include; eauto.
Qed.
Lemma service_rules_line opens sv ar file ls rs l :
  service_rules opens sv ar file ls rs -> In l ls ->
  exists r1, service_rules opens sv ar file [l] r1.
Proof.
  intros H Hin. apply in_split in Hin as (a&b&->).
  apply service_rules_app in H as (r1&r2&_&H&_). change (l :: b) with ([l] ++ b) in H.
  apply service_rules_app in H as (r3&r4&H&_). eauto.
Qed.

Lemma blank_split b l b' l' : blanks b -> begins l -> blanks b' -> begins l' ->
  b +++ l = b' +++ l' -> b = b' /\ l = l'.
Proof.
  revert b'. induction b as [|c b IH]; intros b' B L B' L' E; destruct b' as [|c' b'].
  - auto.
  - exfalso. destruct L as (x&s&->&Hx). cbn in E. inv E. cbn in B'. unfold blanks in B'. cbn in B'.
    rewrite Hx in B'. discriminate.
  - exfalso. destruct L' as (x&s&->&Hx). cbn in E. inv E. unfold blanks in B. cbn in B.
    rewrite Hx in B. discriminate.
  - cbn in E. inv E. unfold blanks in *. cbn in B, B'. apply andb_prop in B as [_ B]. apply andb_prop in B' as [_ B'].
    destruct (IH b' B L B' L' H1) as [-> ->]. auto.
Qed.
Lemma inert_begins b l : blanks b -> begins l -> inert (b +++ l) -> starts "#" l = true.
Proof. intros B L H. apply skip_inert in H. rewrite begins_skip in H; auto. Qed.

Lemma service_good f base sv ar file ls rs : service_rules (opens_at f base) sv ar file ls rs ->
  forall x, service_reached (opens_at f base) ls x -> good_service_line (opens_at f base) sv ar x.
Proof.
  intros H x R. revert file rs H.
  induction R as [ls x Hin|ls b l l' p file' ls' x Hin Hb Hl Hs Hbang Hf Ho R IH]; intros file rs H.
  - destruct (service_rules_line _ _ _ _ _ _ _ H Hin) as (r1 & H1). clear H Hin.
    remember [x] as one eqn:E. destruct H1; inv E.
    + left. assumption.
    + right. exists b, l, l'. repeat (split; auto). left. split; auto. exists file, src, tgt, act, ps, r. auto.
    + right. exists b, l, l'. repeat (split; auto). right. split; auto. exists p, file', ls'. auto.
  - destruct (service_rules_line _ _ _ _ _ _ _ H Hin) as (r1 & H1). clear H Hin.
    remember [b +++ l] as one eqn:E. destruct H1; inv E.
    + apply inert_begins in H; auto. exfalso.
      apply (proj2 (compat_subst_spec _ _)) in Hs. subst l'.
      destruct l as [|c s]; [discriminate|]. cbn in H. apply andb_prop in H as [Hc _]. apply Ascii.eqb_eq in Hc. subst c.
      assert (G : legacy_spelling (String "#" s) (String "#" (compat_subst s))).
      { apply ls_char; [discriminate|discriminate|apply compat_subst_spec; reflexivity]. }
      apply compat_subst_spec in G. rewrite G in Hbang. discriminate.
    + match goal with E : _ +++ _ = _ +++ _ |- _ =>
        first [destruct (blank_split _ _ _ _ H H0 Hb Hl E) as [-> ->]
              |destruct (blank_split _ _ _ _ Hb Hl H H0 E) as [<- <-]] end.
      apply (proj2 (compat_subst_spec _ _)) in Hs. apply (proj2 (compat_subst_spec _ _)) in H2. congruence.
    + match goal with E : _ +++ _ = _ +++ _ |- _ =>
        first [destruct (blank_split _ _ _ _ H H0 Hb Hl E) as [-> ->]
              |destruct (blank_split _ _ _ _ Hb Hl H H0 E) as [<- <-]] end.
      apply (proj2 (compat_subst_spec _ _)) in Hs. apply (proj2 (compat_subst_spec _ _)) in H1. subst l' l'0.
      pose proof (fields_fun _ _ _ Hf H3) as Ef. inv Ef.
      destruct (opens_fun _ _ _ _ _ _ _ Ho H4) as [-> ->]. eapply IH; eauto.
Qed.

Lemma fields_bang_not_inert l d ps : fields l (d :: ps) -> starts "!" d = true -> ~ inert l.
Proof.
  intros H Hd. eapply fields_not_inert; eauto. destruct d as [|c d]; [discriminate|].
  cbn in *. apply andb_prop in Hd as [Hd _]. apply Ascii.eqb_eq in Hd. subst c. reflexivity.
Qed.

Theorem text_good f base legacy file ls rs :
  text_rules (opens_at f base) (lists_at f base) legacy file ls rs ->
  forall x, reached (opens_at f base) (lists_at f base) ls x ->
  good_line (opens_at f base) (lists_at f base) legacy x.
Proof.
  intros H x R. revert file rs H.
  induction R as [ls x Hin|ls l p file' ls' x Hin Hf Ho R IH|ls l p files file' ls' x Hin Hf Hl Hin' R IH];
    intros file rs H; destruct (text_rules_line _ _ _ _ _ _ _ H Hin) as (r1 & H1); clear H Hin.
  - remember [x] as one eqn:E. destruct H1; inv E; unfold good_line.
    + auto.
    + right. left. split; auto. exists file, ws, r. auto.
    + right. right. left. exists p, file', ls'. auto.
    + right. right. right. left. exists p, files. auto.
    + do 4 right. left. exists s, a, p, sv, ar, file', ls'. repeat (split; auto). eapply service_good; eauto.
    + do 5 right. eauto.
  - remember [l] as one eqn:E. destruct H1; inv E;
      try (match goal with K : fields l ?z |- _ => match z with ["!include"; p] => fail 1 | _ => pose proof (fields_fun _ _ _ Hf K) as EE; inv EE end end).
    + exfalso. eapply (fields_bang_not_inert l); [exact Hf|reflexivity|auto].
    + exfalso. apply H0. eapply fields_directive; [exact Hf|reflexivity].
    + pose proof (fields_fun _ _ _ Hf H) as Ef. inv Ef.
      destruct (opens_fun _ _ _ _ _ _ _ Ho H0) as [-> ->]. eapply IH; eauto.
  - remember [l] as one eqn:E. destruct H1; inv E;
      try (match goal with K : fields l ?z |- _ => match z with ["!include-dir"; p] => fail 1 | _ => pose proof (fields_fun _ _ _ Hf K) as EE; inv EE end end).
    + exfalso. eapply (fields_bang_not_inert l); [exact Hf|reflexivity|auto].
    + exfalso. apply H0. eapply fields_directive; [exact Hf|reflexivity].
    + pose proof (fields_fun _ _ _ Hf H) as Ef. inv Ef.
      pose proof (lists_fun _ _ _ _ _ Hl H0). subst files0.
      clear - IH Hin' H1. revert rs1 H1.
      induction files as [|[g gs] files IHf]; intros rs1 H1; [destruct Hin'|].
      remember ((g, gs) :: files) as fl eqn:E. destruct H1; inv E.
      destruct Hin' as [E|Hin']; [inv E; eapply IH; eauto|]. eapply IHf; eauto.
Qed.

Lemma chosen_rules_in f legacy sel rs d n : chosen_rules f legacy sel rs -> In (d, n) sel ->
  exists ls rs1, file_lines f (d ++ [n]) ls /\ file_rules f legacy d (path_str (d ++ [n])) ls rs1.
Proof.
  induction 1 as [|d' n' sel ls rs1 rs2 Hl Hr _ IH]; [intros []|].
  intros [E|Hin]; auto. inv E. eauto.
Qed.

(** a malformed line anywhere in what is reached refuses the load *)
Theorem C22_malformed_refused f legacy fuel dirs sel d n ls x : wf_fs f ->
  chosen f dirs sel -> In (d, n) sel -> file_lines f (d ++ [n]) ls ->
  reached (opens_at f d) (lists_at f d) ls x ->
  ~ good_line (opens_at f d) (lists_at f d) (legacy_policy f legacy) x ->
  exists e, load_policy f legacy fuel dirs = Err e.
Proof.
  intros W C Hin Hl R G. destruct (load_policy f legacy fuel dirs) as [rs|e] eqn:E; [|eauto].
  exfalso. apply G. assert (P : policy_of f legacy dirs rs) by (apply load_policy_spec; eauto).
  destruct P as (sel' & C' & Hr).
  assert (sel' = sel) as ->.
  { apply select_chosen in C as (l&El&->); auto. apply select_chosen in C' as (l'&El'&->); auto. congruence. }
  destruct (chosen_rules_in _ _ _ _ _ _ Hr Hin) as (ls' & rs1 & Hl' & Ht).
  pose proof (file_lines_fun _ _ _ _ Hl Hl'). subst ls'. eapply text_good; eauto.
Qed.

(** so does a chosen file that cannot be read *)
Theorem C22_unreadable_refused f legacy fuel dirs sel d n : wf_fs f ->
  chosen f dirs sel -> In (d, n) sel -> (forall ls, ~ file_lines f (d ++ [n]) ls) ->
  exists e, load_policy f legacy fuel dirs = Err e.
Proof.
  intros W C Hin Hl. destruct (load_policy f legacy fuel dirs) as [rs|e] eqn:E; [|eauto].
  exfalso. assert (P : policy_of f legacy dirs rs) by (apply load_policy_spec; eauto).
  destruct P as (sel' & C' & Hr).
  assert (sel' = sel) as ->.
  { apply select_chosen in C as (l&El&->); auto. apply select_chosen in C' as (l'&El'&->); auto. congruence. }
  destruct (chosen_rules_in _ _ _ _ _ _ Hr Hin) as (ls' & rs1 & Hl' & _). eapply Hl; eauto.
Qed.

(** the legacy policy is all or nothing as well *)
Theorem C22_legacy_lines f d rs s a n ls x : legacy_policy f d rs ->
  legacy_file f d n -> named_for n s a -> file_lines f (d ++ [n]) ls ->
  service_reached (opens_at f d) ls x ->
  exists sv ar, service_arg s a sv ar /\ good_service_line (opens_at f d) sv ar x.
Proof.
  intros (l&(_&_&Hl)&Hr) Hn Ha Hf R. assert (Hin : In (s, a, n) l) by (apply Hl; auto). clear Hl Hn Ha.
  induction Hr as [|s' n' l sv ar ls' rs1 rs2 Hsa Hf' Hs _ IH|s' a' n' l sv ar ls' rs1 rs2 Hne Hsa Hf' Hs _ IH].
  - destruct Hin.
  - destruct Hin as [E|Hin]; auto. inv E. exists sv, ar. split; auto.
    pose proof (file_lines_fun _ _ _ _ Hf Hf'). subst. eapply service_good; eauto.
  - destruct Hin as [E|Hin]; auto. inv E. exists sv, ar. split; auto.
    pose proof (file_lines_fun _ _ _ _ Hf Hf'). subst. eapply service_good; eauto.
Qed.

(** success: the policy is the rules of every line of every file, in order *)
Theorem C22_rules_of_all_lines f legacy fuel dirs rs : wf_fs f ->
  load_policy f legacy fuel dirs = Ok rs ->
  exists sel rss, chosen f dirs sel /\ rs = concat rss /\
    Forall2 (fun (x : path * string) r => exists ls, file_lines f (fst x ++ [snd x]) ls /\
               file_rules f legacy (fst x) (path_str (fst x ++ [snd x])) ls r) sel rss.
Proof.
  intros W E. assert (P : policy_of f legacy dirs rs) by (apply load_policy_spec; eauto).
  destruct P as (sel & C & Hr). exists sel.
  assert (G : exists rss, rs = concat rss /\
    Forall2 (fun (x : path * string) r => exists ls, file_lines f (fst x ++ [snd x]) ls /\
               file_rules f legacy (fst x) (path_str (fst x ++ [snd x])) ls r) sel rss).
  { clear C E. induction Hr as [|d n sel ls rs1 rs2 Hl Hr _ IH]; [exists []; auto|].
    destruct IH as (rss&->&F). exists (rs1 :: rss). split; auto. constructor; eauto. }
  destruct G as (rss&->&F). eauto.
Qed.

(** ** C23 Includes are spliced in place *)

Lemma same_rule_refl r : same_rule r r. Proof. repeat split. Qed.
Lemma Forall2_same_refl rs : Forall2 same_rule rs rs.
Proof. induction rs; constructor; auto using same_rule_refl. Qed.
Lemma Forall2_app_same a b a' b' : Forall2 same_rule a a' -> Forall2 same_rule b b' ->
  Forall2 same_rule (a ++ b) (a' ++ b').
Proof. apply Forall2_app. Qed.
Lemma rule_fields_file file file' ws r : rule_fields file ws r ->
  exists r', rule_fields file' ws r' /\ same_rule r r'.
Proof. intros H. destruct H. eexists. split; [econstructor; eauto|]. repeat split. Qed.
(** the name of the file does not matter for what its lines say *)
Lemma text_rules_file opens lists legacy file file' ls rs :
  text_rules opens lists legacy file ls rs ->
  exists rs', text_rules opens lists legacy file' ls rs' /\ Forall2 same_rule rs rs'.
Proof.
  revert rs. induction ls as [|l ls IH]; intros rs H.
  - remember [] as x eqn:E. destruct H; inv E. exists []. split; constructor.
  - remember (l :: ls) as x eqn:E. destruct H; inv E.
    + apply IH in H0 as (rs'&A&B). exists rs'. split; auto. constructor; auto.
    + apply IH in H3 as (rs'&A&B). destruct (rule_fields_file _ file' _ _ H2) as (r'&R&S).
      exists (r' :: rs'). split; [eapply tr_rule; eauto|constructor; auto].
    + apply IH in H2 as (rs'&A&B). exists (rs1 ++ rs'). split; [eapply tr_include; eauto|].
      apply Forall2_app_same; auto using Forall2_same_refl.
    + apply IH in H2 as (rs'&A&B). exists (rs1 ++ rs'). split; [eapply tr_include_dir; eauto|].
      apply Forall2_app_same; auto using Forall2_same_refl.
    + apply IH in H3 as (rs'&A&B). exists (rs1 ++ rs'). split; [eapply tr_include_service; eauto|].
      apply Forall2_app_same; auto using Forall2_same_refl.
    + apply IH in H1 as (rs'&A&B). exists (rs1 ++ rs'). split; [eapply tr_compat; eauto|].
      apply Forall2_app_same; auto using Forall2_same_refl.
Qed.

(** [loads f legacy base file ls rs]: a file with these lines in directory [base] yields [rs] *)
Definition loads (f : fs) (legacy base : path) (file : string) (ls : list string) (rs : list rule) : Prop :=
  exists fuel, load_file fuel (file_loader f legacy base) file ls = Ok rs.

Theorem C23_in_place f legacy base file before l after p file' ls' rs : wf_fs f ->
  fields l ["!include"; p] -> opens_at f base p file' ls' ->
  loads f legacy base file (before ++ l :: after) rs <->
  exists r1 r2 r3, loads f legacy base file before r1 /\ loads f legacy base file' ls' r2 /\
    loads f legacy base file after r3 /\ rs = r1 ++ r2 ++ r3.
Proof.
  intros W Hf Ho. unfold loads. rewrite load_file_spec by auto. unfold file_rules.
  rewrite text_rules_app. split.
  - intros (r1&r2&A&B&->). remember (l :: after) as x eqn:E.
    destruct B; inv E; try (match goal with K : fields l ?z |- _ => match z with ["!include"; p] => fail 1 | _ => pose proof (fields_fun _ _ _ Hf K) as EE; inv EE end end).
    + exfalso. eapply (fields_bang_not_inert l); [exact Hf|reflexivity|auto].
    + exfalso. apply H0. eapply fields_directive; [exact Hf|reflexivity].
    + pose proof (fields_fun _ _ _ Hf H) as Ef. inv Ef.
      destruct (opens_fun _ _ _ _ _ _ _ Ho H0) as [-> ->].
      exists r1, rs1, rs2. rewrite !load_file_spec by auto. auto.
  - intros (r1&r2&r3&A&B&C&->). apply load_file_spec in A, B, C; auto.
    exists r1, (r2 ++ r3). split; auto. split; auto. eapply tr_include; eauto.
Qed.

Theorem C23_as_if_written f legacy base file before l after p file' ls' : wf_fs f ->
  fields l ["!include"; p] -> opens_at f base p file' ls' ->
  (forall rs, loads f legacy base file (before ++ l :: after) rs ->
     exists rs', loads f legacy base file (before ++ ls' ++ after) rs' /\ Forall2 same_rule rs rs') /\
  (forall rs', loads f legacy base file (before ++ ls' ++ after) rs' ->
     exists rs, loads f legacy base file (before ++ l :: after) rs /\ Forall2 same_rule rs rs').
Proof.
  intros W Hf Ho. split; intros rs H.
  - apply (C23_in_place _ _ _ _ _ _ _ _ _ _ _ W Hf Ho) in H as (r1&r2&r3&A&B&C&->).
    unfold loads in *. rewrite load_file_spec in A, B, C by auto.
    destruct (text_rules_file _ _ _ _ file _ _ B) as (r2'&B'&S).
    exists (r1 ++ r2' ++ r3). split.
    + apply load_file_spec; auto. apply text_rules_app. exists r1, (r2' ++ r3). split; auto. split; auto.
      apply text_rules_app. exists r2', r3. auto.
    + auto using Forall2_app_same, Forall2_same_refl.
  - unfold loads in H. rewrite load_file_spec in H by auto. unfold file_rules in H.
    apply text_rules_app in H as (r1&r23&A&H&->). apply text_rules_app in H as (r2&r3&B&C&->).
    destruct (text_rules_file _ _ _ _ file' _ _ B) as (r2'&B'&S).
    exists (r1 ++ r2' ++ r3). split.
    + apply (C23_in_place _ _ _ _ _ _ _ _ _ _ _ W Hf Ho). exists r1, r2', r3. unfold loads. rewrite !load_file_spec by auto. auto.
    + apply Forall2_app_same; auto using Forall2_same_refl. apply Forall2_app_same; auto using Forall2_same_refl.
      clear - S. induction S as [|r r' l l' (a&b&c&d&e) _ IH]; constructor; auto. unfold same_rule. intuition congruence.
Qed.

(** rules that are the same give the same decision *)
Lemma same_rule_match r r' q : same_rule r r' -> is_match r q = is_match r' q /\
  is_match_but_target r q = is_match_but_target r' q.
Proof.
  destruct r, r'. intros (a&b&c&d&e). cbn in *. subst. split; reflexivity.
Qed.
Theorem C23_same_decision rs rs' q : Forall2 same_rule rs rs' -> evaluate rs q = evaluate rs' q.
Proof.
  intros F.
  assert (C : forall init, collect_loop (rev rs) q init = collect_loop (rev rs') q init).
  { assert (F' : Forall2 same_rule (rev rs) (rev rs')).
    { clear q. induction F; simpl; [constructor|]. apply Forall2_app; auto. }
    clear F. induction F' as [|r r' l l' S _ IH]; intros init; cbn [collect_loop]; auto.
    destruct (same_rule_match _ _ q S) as [_ E]. rewrite E. destruct S as (_&_&_&e4&e5). rewrite e4, e5.
    destruct (is_match_but_target r' q) as [[]|]; cbn [bind]; auto.
    destruct (expand _ _); cbn [bind]; auto. }
  assert (T : forall r r', same_rule r r' -> action_evaluate rs r q = action_evaluate rs' r' q).
  { intros r r' S. unfold action_evaluate. destruct S as (e1&e2&e3&e4&e5). rewrite e5.
    assert (M : assert_match r q = assert_match r' q).
    { unfold assert_match. rewrite (proj1 (same_rule_match r r' q (conj e1 (conj e2 (conj e3 (conj e4 e5)))))). reflexivity. }
    destruct (r_action r'); auto.
    - unfold allow_evaluate. rewrite M. reflexivity.
    - unfold ask_evaluate. rewrite M. unfold collect_targets_for_ask. rewrite C. reflexivity. }
  unfold evaluate. revert T. generalize rs at 1 3. generalize rs' at 1 3. intros a b T. clear C.
  induction F as [|r r' l l' S _ IH]; cbn [find_matching_rule bind]; auto.
  rewrite (proj1 (same_rule_match _ _ q S)). destruct (is_match r' q) as [[]|]; cbn [bind]; auto.
Qed.

(** ** C24 Service includes are confined *)

Lemma service_rules_confined opens sv ar s a file ls rs : service_arg s a sv ar ->
  service_rules opens sv ar file ls rs -> forall r, In r rs -> r_service r = sv /\ r_arg r = ar.
Proof.
  intros Hsa H. induction H as [| | file b l l' ls src tgt act ps r rs _ _ _ _ _ _ Hr _ IH|]; intros r0 Hin.
  - destruct Hin.
  - auto.
  - destruct Hin as [<-|Hin]; auto.
    clear - Hr Hsa. remember (field_of sv :: field_of ar :: src :: tgt :: act :: ps) as ws eqn:E.
    destruct Hr as [sv0 ar0 ? ? ? ? osv oar ? ? ? Hs0 Ha0 _ _ _ _]. inv E. cbn [r_service r_arg].
    apply (proj1 (service_arg_validate _ _ _ _)) in Hsa. apply validate_idem in Hsa. unfold validated in Hsa.
    assert (V : service_arg (field_of sv) (field_of ar) osv oar) by (split; auto).
    apply (proj1 (service_arg_validate _ _ _ _)) in V. rewrite <- validate_field in V. rewrite V in Hsa.
    inversion Hsa. auto.
  - apply in_app_iff in Hin as [Hin|Hin]; auto.
Qed.

Theorem C24_confined f legacy base file l s a p rs r q : wf_fs f ->
  fields l ["!include-service"; s; a; p] -> loads f legacy base file [l] rs -> In r rs ->
  applies r q -> (s = "*" \/ q_service q = s) /\ (a = "*" \/ q_arg q = a).
Proof.
  intros W Hf H Hin Hap. unfold loads in H. rewrite load_file_spec in H by auto.
  remember [l] as x eqn:E.
  destruct H; inv E; try (match goal with K : fields l ?z |- _ => match z with ["!include-service"; s; a; p] => fail 1 | _ => pose proof (fields_fun _ _ _ Hf K) as EE; inv EE end end).
  - exfalso. eapply (fields_bang_not_inert l); [exact Hf|reflexivity|auto].
  - exfalso. apply H0. eapply fields_directive; [exact Hf|reflexivity].
  - pose proof (fields_fun _ _ _ Hf H) as Ef. inv Ef.
    remember [] as x eqn:E. destruct H3; inv E. rewrite app_nil_r in Hin.
    destruct (service_rules_confined _ _ _ _ _ _ _ _ H0 H2 _ Hin) as [Es Ea].
    destruct Hap as ((Cs&Ca&_)&_). rewrite Es in Cs. rewrite Ea in Ca. destruct H0 as [Fs Fa].
    split; [destruct Fs; [auto|]|].
    + right. destruct Cs as [Cs|Cs]; [discriminate|]. injection Cs as Cs. auto.
    + clear Fs Cs. destruct Fa; [auto|]. right. destruct Ca as [Ca|Ca]; [discriminate|].
      injection Ca as Ca. symmetry. exact Ca.
Qed.

(** ** C25 Legacy argument-specific policy is final *)

Lemma legacy_split f d l rs s a n : legacy_rules f d l rs -> In (s, a, n) l -> a <> "*" ->
  exists l1 l2 rs1 own rs2 sv ar ls, l = l1 ++ (s, a, n) :: l2 /\
    legacy_rules f d l1 rs1 /\ service_arg s a sv ar /\ file_lines f (d ++ [n]) ls /\
    service_rules (opens_at f d) sv ar (path_str (d ++ [n])) ls own /\
    rs = rs1 ++ own ++ closing sv ar (path_str (d ++ [n])) ++ rs2.
Proof.
  intros H. induction H as [|s' n' l sv ar ls rs1 rs2 Hsa Hf Hs Hr IH|s' a' n' l sv ar ls rs1 rs2 Hne Hsa Hf Hs Hr IH]; intros Hin Ha.
  - destruct Hin.
  - destruct Hin as [E|Hin]; [inv E; congruence|].
    destruct (IH Hin Ha) as (l1&l2&r1&own&r2&sv1&ar1&ls1&->&H1&H2&H3&H4&->).
    exists ((s', "*", n') :: l1), l2, (rs1 ++ r1), own, r2, sv1, ar1, ls1.
    rewrite <- app_assoc. repeat (split; auto). econstructor; eauto.
  - destruct Hin as [E|Hin].
    + inv E. exists [], l, [], rs1, rs2, sv, ar, ls. split; [reflexivity|]. split; [constructor|]. auto.
    + destruct (IH Hin Ha) as (l1&l2&r1&own&r2&sv1&ar1&ls1&->&H1&H2&H3&H4&->).
      exists ((s', a', n') :: l1), l2, (rs1 ++ closing sv ar (path_str (d ++ [n'])) ++ r1), own, r2, sv1, ar1, ls1.
      split; [reflexivity|]. split; [econstructor; eauto|]. split; [exact H2|]. split; [exact H3|]. split; [exact H4|].
      rewrite <- !app_assoc. reflexivity.
Qed.
Lemma legacy_confined f d l rs r : legacy_rules f d l rs -> In r rs ->
  exists s a n, In (s, a, n) l /\ service_arg s a (r_service r) (r_arg r).
Proof.
  intros H. induction H as [|s' n' l sv ar ls rs1 rs2 Hsa Hf Hs Hr IH|s' a' n' l sv ar ls rs1 rs2 Hne Hsa Hf Hs Hr IH]; intros Hin.
  - destruct Hin.
  - apply in_app_iff in Hin as [Hin|Hin].
    + destruct (service_rules_confined _ _ _ _ _ _ _ _ Hsa Hs _ Hin) as [-> ->]. exists s', "*", n'. simpl. auto.
    + destruct (IH Hin) as (s&a&n&H1&H2). exists s, a, n. simpl. auto.
  - rewrite !in_app_iff in Hin. destruct Hin as [Hin|[Hin|Hin]].
    + destruct (service_rules_confined _ _ _ _ _ _ _ _ Hsa Hs _ Hin) as [-> ->]. exists s', a', n'. simpl. auto.
    + exists s', a', n'. split; [simpl; auto|]. destruct Hin as [<-|[<-|[]]]; exact Hsa.
    + destruct (IH Hin) as (s&a&n&H1&H2). exists s, a, n. simpl. auto.
Qed.
Lemma sorted_before {A} (lt : A -> A -> Prop) l1 x l2 : StronglySorted lt (l1 ++ x :: l2) ->
  forall y, In y l1 -> lt y x.
Proof.
  induction l1 as [|z l1 IH]; simpl; intros H y Hin; [destruct Hin|].
  apply StronglySorted_inv in H as [H F]. destruct Hin as [<-|Hin]; auto.
  rewrite Forall_forall in F. apply F, in_app_iff. simpl. auto.
Qed.
Lemma legacy_name_chars f d n s a : legacy_file f d n -> named_for n s a -> s <> "*".
Proof.
  intros (_&_&_&_&Hc) Hn E. subst s.
  assert (H : has_char "*" n = true) by (destruct Hn as (_&[[_ ->]|(x&->&->)]); reflexivity).
  apply Hc in H. destruct H as [H|H]; cbn in H; [lia|]. intuition discriminate.
Qed.
Lemma legacy_earlier_silent f d l1 rs1 s a n l2 r q :
  legacy_files f d (l1 ++ (s, a, n) :: l2) -> legacy_rules f d l1 rs1 -> a <> "*" ->
  In r rs1 -> q_service q = s -> q_arg q = a -> ~ caller_applies r q.
Proof.
  intros (_&Hs&Hl) Hr Ha Hin Es Ea (Cs&Ca&_).
  destruct (legacy_confined _ _ _ _ _ Hr Hin) as (s'&a'&n'&Hin'&Hsa).
  pose proof (sorted_before _ _ _ _ Hs _ Hin') as Hb. cbn in Hb.
  assert (L : legacy_file f d n' /\ named_for n' s' a') by (apply Hl, in_app_iff; auto).
  destruct L as [L1 L2]. pose proof (legacy_name_chars _ _ _ _ _ L1 L2) as Hstar.
  destruct Hsa as [Fs Fa].
  assert (Es' : r_service r = Some s') by (destruct Fs; congruence).
  rewrite Es' in Cs. destruct Cs as [Cs|Cs]; [discriminate|]. injection Cs as Cs. rewrite Es in Cs. subst s'.
  destruct Hb as [Hb|(_&[[_ Hb]|(H1&H2&Hb)])].
  - exact (lt_irrefl _ Hb).
  - congruence.
  - assert (Ea' : r_arg r = Some a') by (destruct Fa; congruence).
    rewrite Ea' in Ca. destruct Ca as [Ca|Ca]; [discriminate|]. injection Ca as Ca.
    rewrite Ea in Ca. subst a'. exact (lt_irrefl _ Hb).
Qed.

(** the legacy policy as seen by the calls of service [s] with argument [a] *)
Lemma legacy_shape f d lrs s a n q : legacy_policy f d lrs -> legacy_file f d n ->
  named_for n s a -> a <> "*" -> q_service q = s -> q_arg q = a ->
  exists early own late file ls, lrs = early ++ own ++ closing (Some s) (Some a) file ++ late /\
    (forall r, In r early -> ~ caller_applies r q) /\
    file_lines f (d ++ [n]) ls /\ service_rules (opens_at f d) (Some s) (Some a) file ls own.
Proof.
  intros (l&Hl&Hr) Hf Hn Ha Es Ea. assert (Hin : In (s, a, n) l) by (apply Hl; auto).
  destruct (legacy_split _ _ _ _ _ _ _ Hr Hin Ha) as (l1&l2&rs1&own&rs2&sv&ar&ls&->&H1&H2&H3&H4&->).
  assert (sv = Some s) as ->.
  { destruct H2 as [Fs _]. pose proof (legacy_name_chars _ _ _ _ _ Hf Hn). destruct Fs; congruence. }
  assert (ar = Some a) as ->. { destruct H2 as [_ Fa]. destruct Fa; congruence. }
  exists rs1, own, rs2, (path_str (d ++ [n])), ls. repeat (split; auto).
  intros r Hr1. eapply legacy_earlier_silent; eauto.
Qed.

Lemma first_applicable_split a b q r : first_applicable (a ++ b) q r ->
  (first_applicable a q r) \/ (none_applicable a q /\ first_applicable b q r).
Proof.
  intros (l1&l2&E&Hn&Hr). revert a E. induction l1 as [|x l1 IH]; intros a E; destruct a as [|y a]; cbn [app] in E.
  - right. split; [intros ? []|]. exists [], l2. split; auto.
  - injection E as -> E. left. exists [], a. split; auto.
  - right. split; [intros ? []|]. exists (x :: l1), l2. auto.
  - injection E as -> E. destruct (IH (fun r' H => Hn r' (or_intror H)) a E) as [(m1&m2&->&K&_)|[N F]].
    + left. exists (x :: m1), m2. split; [reflexivity|]. split; auto.
      intros r' [<-|H]; auto. apply Hn. simpl. auto.
    + right. split; auto. intros r' [<-|H]; auto. apply Hn. simpl. auto.
Qed.

Lemma closing_covers s a file q : ~ means_dom0 (q_source q) -> q_service q = s -> q_arg q = a ->
  exists r, In r (closing (Some s) (Some a) file) /\ applies r q.
Proof.
  intros Hd Es Ea.
  assert (C : forall t, caller_applies (mkRule (Some s) (Some a) TAny t (Deny true) file) q).
  { intros t. split; [right; cbn; congruence|]. split; [right; cbn; congruence|]. constructor. exact Hd. }
  destruct (is_dom0 (tok_str (q_target q))) eqn:E.
  - apply is_dom0_spec in E. eexists. split; [right; left; reflexivity|]. split; [apply C|]. constructor. exact E.
  - apply is_dom0_false in E. eexists. split; [left; reflexivity|]. split; [apply C|]. constructor. exact E.
Qed.

(** Whatever precedes and follows the legacy policy: the rule that decides a
    call with that argument by a qube is one that precedes the legacy policy, a
    rule of that file itself, or a deny rule. *)
Theorem C25_decided_by_own_file f d lrs pre post s a n q r :
  legacy_policy f d lrs -> legacy_file f d n -> named_for n s a -> a <> "*" ->
  q_service q = s -> q_arg q = a -> ~ means_dom0 (q_source q) ->
  first_applicable (pre ++ lrs ++ post) q r ->
  In r pre \/ is_deny_rule r \/
  exists file ls own, file_lines f (d ++ [n]) ls /\
    service_rules (opens_at f d) (Some s) (Some a) file ls own /\ In r own.
Proof.
  intros Hl Hf Hn Ha Es Ea Hd H.
  destruct (legacy_shape _ _ _ _ _ _ q Hl Hf Hn Ha Es Ea) as (early&own&late&file&ls&->&He&Hls&Hs).
  apply first_applicable_split in H as [H|[_ H]]; [left; eapply Props_Policy.first_in; eauto|]. right.
  rewrite <- app_assoc in H. apply first_applicable_split in H as [H|[_ H]].
  { exfalso. pose proof (Props_Policy.first_in _ _ _ H) as Hin. destruct H as (?&?&_&_&H). destruct H as [H _]. exact (He _ Hin H). }
  rewrite <- app_assoc in H. apply first_applicable_split in H as [H|[_ H]].
  { right. exists file, ls, own. split; auto. split; auto. eapply Props_Policy.first_in; eauto. }
  left. rewrite <- app_assoc in H. apply first_applicable_split in H as [H|[N _]].
  - apply Props_Policy.first_in in H. destruct H as [<-|[<-|[]]]; eexists; reflexivity.
  - exfalso. destruct (closing_covers s a file q Hd Es Ea) as (r'&Hin&Hap). exact (N _ Hin Hap).
Qed.

(** in particular nothing after the legacy policy, and nothing in the other
    legacy files, can allow the call *)
Theorem C25_allow_comes_from_own_file f d lrs pre post s a n q al :
  wf_call q -> (forall r, In r (pre ++ lrs ++ post) -> wf_rule r) ->
  (forall r, In r (pre ++ lrs ++ post) -> no_uuid_disp q r) ->
  legacy_policy f d lrs -> legacy_file f d n -> named_for n s a -> a <> "*" ->
  q_service q = s -> q_arg q = a -> ~ means_dom0 (q_source q) -> none_applicable pre q ->
  evaluate (pre ++ lrs ++ post) q = Ok (RAllow al) ->
  exists file ls own r, file_lines f (d ++ [n]) ls /\
    service_rules (opens_at f d) (Some s) (Some a) file ls own /\ In r own /\ applies r q /\
    exists t u nt au, r_action r = Allow t u nt au.
Proof.
  intros Wc Wr Nu Hl Hf Hn Ha Es Ea Hd Np H.
  destruct (C01_verdict_from_first_match _ _ _ Wc Wr Nu H) as (r & Hfa & Hact).
  assert (Hap : applies r q) by (destruct Hfa as (?&?&_&_&?); auto).
  destruct (C25_decided_by_own_file _ _ _ _ _ _ _ _ _ _ Hl Hf Hn Ha Es Ea Hd Hfa) as [Hin|[(nt&E)|(file&ls&own&H1&H2&H3)]].
  - exfalso. exact (Np _ Hin Hap).
  - rewrite E in Hact. contradiction.
  - exists file, ls, own, r. repeat (split; auto).
    destruct (r_action r) as [|t u nt au|t dt u nt au]; [contradiction|eauto 6|].
    destruct Hact as (k&E&_). discriminate.
Qed.

Lemma entry_open_cons r l q y : entry_open (r :: l) q y <->
  (speaks r q y /\ ~ is_deny_rule r) \/ (~ speaks r q y /\ entry_open l q y).
Proof.
  split.
  - intros (l1&r0&l2&E&N&S&D). destruct l1 as [|x l1]; cbn in E; injection E as -> E.
    + left. auto.
    + right. split; [apply N; simpl; auto|]. exists l1, r0, l2. repeat split; auto.
      * intros r' H. apply N. simpl. auto.
      * apply S.
      * apply S.
      * apply S.
      * apply S.
  - intros [[S D]|[S (l1&r0&l2&->&N&S'&D)]].
    + exists [], r, l. repeat (split; auto).
    + exists (r :: l1), r0, l2. split; [reflexivity|]. split; auto. intros r' [<-|H]; auto.
Qed.
Lemma entry_open_skip a b q y : (forall r, In r a -> ~ speaks r q y) ->
  entry_open (a ++ b) q y <-> entry_open b q y.
Proof.
  induction a as [|r a IH]; intros N; [reflexivity|]. cbn [app]. rewrite entry_open_cons, IH.
  - split; [intros [[S _]|[_ H]]; auto; exfalso; eapply N; simpl; eauto|].
    intros H. right. split; auto. apply N. simpl. auto.
  - intros r' H. apply N. simpl. auto.
Qed.
Lemma entry_open_app_ext a b c q y : (entry_open b q y <-> entry_open c q y) ->
  entry_open (a ++ b) q y <-> entry_open (a ++ c) q y.
Proof. intros E. induction a as [|r a IH]; cbn [app]; auto. rewrite !entry_open_cons, IH. tauto. Qed.

Lemma listed_closing i t y : wf_info i -> lists i t y -> y <> "dom0" ->
  lists i TAny y \/ lists i TAdmin y.
Proof.
  intros W H Hy.
  assert (P : forall n d, dget i n = Some d -> starts "uuid:" n = false -> n <> "dom0" -> ~ means_dom0 n).
  { intros n d Hn Hu Hne [E|[E|E]]; subst; auto.
    - apply key_not_at in Hn; auto. discriminate.
    - discriminate. }
  assert (K : forall n d, dget i n = Some d -> dget i (d_name d) = Some d /\ starts "uuid:" (d_name d) = false).
  { intros n d Hn. destruct (wf_keys _ W _ _ Hn) as (P1&P2&_). split; auto using plain_not_uuid. }
  destruct H as [s d H|n d H Hu|n d H Hu Ht| | |n d H Hu Hd|n d H Hu Ht| |v n d H Hu Ht|v n d H Hu Ht| |v d H Ht|v n d H Hu Ht Hv].
  - left. destruct (K _ _ H) as [H1 H2]. eapply li_any_name; eauto.
  - left. eapply li_any_name; eauto.
  - left. eapply li_any_tmpl; eauto.
  - left. constructor.
  - right. constructor.
  - left. eapply li_any_name; eauto.
  - left. eapply li_any_tmpl; eauto.
  - left. constructor.
  - left. eapply li_any_name; eauto.
  - left. eapply li_any_name; eauto.
  - left. constructor.
  - left. destruct (K _ _ H) as [H1 H2]. eapply li_any_tmpl; eauto.
  - left. eapply li_any_tmpl; eauto.
Qed.

(** Dialogs: apart from the entry for dom0 itself, what an ask rule offers is
    not influenced by anything after the rules of that file. Missing for the
    full claim: the entry dom0, see the refutation below. *)
Theorem C25_dialog_partial f d lrs pre post s a n q y : wf_info (q_info q) ->
  legacy_policy f d lrs -> legacy_file f d n -> named_for n s a -> a <> "*" ->
  q_service q = s -> q_arg q = a -> ~ means_dom0 (q_source q) -> y <> "dom0" ->
  exists file ls own, file_lines f (d ++ [n]) ls /\
    service_rules (opens_at f d) (Some s) (Some a) file ls own /\
    (entry_open (pre ++ lrs ++ post) q y <-> entry_open (pre ++ own) q y).
Proof.
  intros W Hl Hf Hn Ha Es Ea Hd Hy.
  destruct (legacy_shape _ _ _ _ _ _ q Hl Hf Hn Ha Es Ea) as (early&own&late&file&ls&->&He&Hls&Hs).
  exists file, ls, own. split; auto. split; auto.
  apply entry_open_app_ext. rewrite <- app_assoc, entry_open_skip.
  2:{ intros r Hr [H _]. exact (He _ Hr H). }
  rewrite <- app_assoc. rewrite <- (app_nil_r own) at 2. apply entry_open_app_ext.
  split; [|intros ([|z zs]&r0&l2&E&_); discriminate].
  intros H. exfalso. cbn [closing app] in H.
  assert (C : forall t, caller_applies (mkRule (Some s) (Some a) TAny t (Deny true) file) q).
  { intros t. split; [right; cbn; congruence|]. split; [right; cbn; congruence|]. constructor. exact Hd. }
  assert (L : exists t, lists (q_info q) t y).
  { destruct H as (l1&r&l2&_&_&[_ Hr]&_). eauto. }
  destruct L as (t&L). apply listed_closing in L; auto.
  rewrite !entry_open_cons in H.
  destruct H as [[_ D]|[N1 [[_ D]|[N2 _]]]].
  - apply D. eexists. reflexivity.
  - apply D. eexists. reflexivity.
  - destruct L as [L|L]; [apply N1|apply N2]; (split; [apply C|exact L]).
Qed.

(** ** C26 Comments and blanks are inert *)

(** same result, same error, for every way of adding or removing inert lines
    and blanks around lines anywhere in the tree *)
Theorem C26_inert f f' legacy fuel dirs : wf_fs f -> wf_fs f' -> same_tree f f' ->
  load_policy f legacy fuel dirs = load_policy f' legacy fuel dirs.
Proof. apply load_policy_same_tree. Qed.

Lemma same_lines_app a a' b b' : same_lines a a' -> same_lines b b' -> same_lines (a ++ b) (a' ++ b').
Proof. intros H G. induction H; cbn [app]; auto; [apply sl_left|apply sl_right|apply sl_line]; auto. Qed.
Definition no_break (l : string) : Prop := has_char NL l = false /\ has_char CR l = false.

(** the same, for the text of one file: a whole inert line is inserted *)
Theorem C26_insert_line a c b : no_break c -> inert c ->
  same_lines (lines_univ (a +++ nl +++ b)) (lines_univ (a +++ nl +++ c +++ nl +++ b)).
Proof.
  intros [H1 H2] I. rewrite !lines_univ_app, (lines_univ_one c) by auto.
  apply same_lines_app; [apply same_lines_refl|]. cbn [app]. apply sl_right; auto. apply same_lines_refl.
Qed.
(** ... blanks are added around the text of a line *)
Theorem C26_add_blanks a l b x y : no_break l -> no_break x -> no_break y -> blanks x -> blanks y ->
  same_lines (lines_univ (a +++ nl +++ l +++ nl +++ b))
             (lines_univ (a +++ nl +++ (x +++ l +++ y) +++ nl +++ b)).
Proof.
  intros [L1 L2] [X1 X2] [Y1 Y2] Bx By.
  rewrite !lines_univ_app, (lines_univ_one l), (lines_univ_one (x +++ l +++ y));
    rewrite ?has_char_app, ?L1, ?L2, ?X1, ?X2, ?Y1, ?Y2; auto.
  apply same_lines_app; [apply same_lines_refl|]. cbn [app].
  pose proof (sl_line "" "" x y l (lines_univ b) (lines_univ b) eq_refl eq_refl Bx By (same_lines_refl _)) as H.
  cbn [append] in H. rewrite app_nil_s in H. exact H.
Qed.

(** ** A concrete tree *)
Definition L (ls : list string) : node := NFile (Some (join nl ls +++ nl)).
Definition ETC : path := POLICYPATH.
Definition ex_fs : fs := [
  (["etc"], NDir); (["etc"; "qubes"], NDir); (POLICYPATH, NDir); (POLICYPATH ++ ["include"], NDir);
  (["run"; "qubes"; "policy.d"], NDir); (POLICYPATH_OLD, NDir);
  (POLICYPATH ++ ["90-default.policy"], L ["# default"; "* * @anyvm @adminvm deny"; "!compat-4.0"; "* * @anyvm @anyvm deny"]);
  (POLICYPATH ++ ["30-user.policy"], L ["qubes.Gpg * work vault allow"; "  !include include/extra  "; "qubes.Filecopy * @anyvm @anyvm ask"]);
  (POLICYPATH ++ ["README"], L ["not a policy"]);
  (POLICYPATH ++ [".hidden.policy"], L ["not a policy"]);
  (POLICYPATH ++ ["include"; "extra"], L ["qubes.PdfConvert * work @dispvm allow"]);
  (["run"; "qubes"; "policy.d"; "30-user.policy"], L ["qubes.Gpg * work vault deny"; "!include-service qubes.Foo +bar sub"]);
  (["run"; "qubes"; "policy.d"; "sub"], L ["$anyvm,work,allow"]);
  (POLICYPATH_OLD ++ ["svc+arg"], L ["work vault allow"; "work $default ask"]);
  (POLICYPATH_OLD ++ ["svc"], L ["$anyvm $anyvm allow"])
].
Lemma ex_fs_wf : wf_fs ex_fs.
Proof.
  unfold wf_fs. cbn. repeat (constructor; [cbn; intuition discriminate|]). constructor.
Qed.
Definition ex_dirs : list path := [RUNTIME_POLICY_PATH; POLICYPATH].
Definition ex_policy : res (list rule) := load_policy ex_fs POLICYPATH_OLD 5 ex_dirs.

Definition P (f : string) : string := "/etc/qubes/policy.d/" +++ f.
Definition R (f : string) : string := "/run/qubes/policy.d/" +++ f.
Definition O (f : string) : string := "/etc/qubes-rpc/policy/" +++ f.
Definition ex_legacy : list rule := [
  mkRule (Some "svc") (Some "+arg") (TName "work") (TName "vault") (Allow None None false true) (O "svc+arg");
  mkRule (Some "svc") (Some "+arg") (TName "work") TDefault (Ask None None None false true) (O "svc+arg");
  mkRule (Some "svc") (Some "+arg") TAny TAny (Deny true) (O "svc+arg");
  mkRule (Some "svc") (Some "+arg") TAny TAdmin (Deny true) (O "svc+arg");
  mkRule (Some "svc") None TAny TAny (Allow None None false true) (O "svc")].
Definition ex_loaded : list rule := [
  mkRule (Some "qubes.Gpg") None (TName "work") (TName "vault") (Deny true) (R "30-user.policy");
  mkRule (Some "qubes.Foo") (Some "+bar") TAny (TName "work") (Allow None None false true) (R "sub");
  mkRule None None TAny TAdmin (Deny true) (P "90-default.policy")] ++ ex_legacy ++ [
  mkRule None None TAny TAny (Deny true) (P "90-default.policy")].
(** the runtime file shadows the one of /etc with the same name, hidden files
    and files with another suffix are ignored, the legacy files stand where
    !compat-4.0 stands *)
Example C20_example : ex_policy = Ok ex_loaded.
Proof. vm_compute. reflexivity. Qed.
Example C20_example_policy_of : policy_of ex_fs POLICYPATH_OLD ex_dirs ex_loaded.
Proof. apply load_policy_spec; [exact ex_fs_wf|]. exists 5. exact C20_example. Qed.
Example C20_example_order : load_policy (rev ex_fs) POLICYPATH_OLD 5 ex_dirs = Ok ex_loaded.
Proof. rewrite <- (C20_listing_order ex_fs); [exact C20_example|exact ex_fs_wf|apply Permutation_rev]. Qed.

(** a file with an upper case letter *)
Definition ex_bad_fs : fs := (POLICYPATH ++ ["Zz.policy"], L ["# nothing"]) :: ex_fs.
Example C21_example : load_policy ex_bad_fs POLICYPATH_OLD 5 ex_dirs = Err (EAccessDenied true).
Proof.
  apply (C21_bad_name_refused _ _ _ _ POLICYPATH "Zz.policy").
  - unfold wf_fs. cbn. repeat (constructor; [cbn; intuition discriminate|]). constructor.
  - simpl. auto.
  - split; [vm_compute; auto|]. split; [exists "Zz"; repeat split; discriminate|]. eexists. reflexivity.
  - intros H. assert (G : has_char "Z" "Zz.policy" = true) by reflexivity.
    apply H in G. destruct G as [G|G]; cbn in G; [lia|]. intuition discriminate.
Qed.

(** a malformed line in an included file *)
Definition ex_mal_fs : fs := fset ex_fs (POLICYPATH ++ ["include"; "extra"]) (L ["qubes.PdfConvert * work @dispvm"]).
Example C22_example : exists e, load_policy ex_mal_fs POLICYPATH_OLD 5 [POLICYPATH] = Err e.
Proof.
  assert (W : wf_fs ex_mal_fs).
  { unfold wf_fs. cbn. repeat (constructor; [cbn; intuition discriminate|]). constructor. }
  eapply (C22_malformed_refused _ _ _ _ [(POLICYPATH, "30-user.policy"); (POLICYPATH, "90-default.policy")]
            POLICYPATH "30-user.policy" _ "qubes.PdfConvert * work @dispvm"); auto.
  - apply select_chosen; auto. eexists. split; vm_compute; reflexivity.
  - simpl. auto.
  - apply read_lines_spec. vm_compute. reflexivity.
  - eapply re_include; [right; left; reflexivity|apply split_ws_fields; vm_compute; reflexivity|split; [reflexivity|apply read_lines_spec; vm_compute; reflexivity]|].
    apply re_line. left. reflexivity.
  - intros [H|[(_&file&ws&r&H&Hr)|[(p&?&?&H&_)|[(p&?&H&_)|[(s&a&p&sv&ar&?&?&H&_)|[H _]]]]]].
    + apply skip_inert in H. vm_compute in H. discriminate.
    + apply split_ws_fields in H. vm_compute in H. subst ws. inversion Hr.
    + apply split_ws_fields in H. vm_compute in H. discriminate.
    + apply split_ws_fields in H. vm_compute in H. discriminate.
    + apply split_ws_fields in H. vm_compute in H. discriminate.
    + apply split_ws_fields in H. vm_compute in H. discriminate.
Qed.

Example C23_example : exists rs,
  loads ex_fs POLICYPATH_OLD POLICYPATH "x" (["qubes.Gpg * work vault allow"] ++ "  !include include/extra  " :: ["qubes.Filecopy * @anyvm @anyvm ask"]) rs /\
  length rs = 3 /\ fields "  !include include/extra  " ["!include"; "include/extra"] /\
  opens_at ex_fs POLICYPATH "include/extra" (P "include/extra") ["qubes.PdfConvert * work @dispvm allow"].
Proof.
  eexists. split; [exists 2; vm_compute; reflexivity|]. split; [reflexivity|].
  split; [apply split_ws_fields; vm_compute; reflexivity|]. split; [vm_compute; reflexivity|]. apply read_lines_spec. vm_compute. reflexivity.
Qed.

Example C24_example : exists r, loads ex_fs POLICYPATH_OLD RUNTIME_POLICY_PATH "x" ["!include-service qubes.Foo +bar sub"] [r] /\
  applies r (call "qubes.Foo+bar" "vault" "work").
Proof.
  eexists. split; [exists 2; vm_compute; reflexivity|].
  split; [split; [right; reflexivity|split; [right; reflexivity|]]|].
  - constructor. intros [H|[H|H]]; discriminate.
  - apply cov_name; [intros [H|[H|H]]; discriminate|]. left. reflexivity.
Qed.

Example C25_example : legacy_policy ex_fs POLICYPATH_OLD ex_legacy /\
  legacy_file ex_fs POLICYPATH_OLD "svc+arg" /\ named_for "svc+arg" "svc" "+arg" /\
  evaluate ex_loaded (call "svc+arg" "work" "vault") = Ok (RAllow (mkAllow None "vault" true false)) /\
  evaluate ex_loaded (call "svc+arg" "vault" "work") = Err (EAccessDenied true) /\
  evaluate ex_loaded (call "svc+other" "vault" "work") = Ok (RAllow (mkAllow None "work" true false)).
Proof.
  split; [apply compat_execute_spec; [exact ex_fs_wf|]; exists 3; vm_compute; reflexivity|].
  split.
  - split; [vm_compute; intuition|]. split; [eexists; reflexivity|].
    split; [intros H; apply backup_spec in H; discriminate|]. split; [reflexivity|].
    apply valid_chars_spec. reflexivity.
  - split; [split; [reflexivity|right; eexists; split; reflexivity]|]. repeat split; vm_compute; reflexivity.
Qed.

(** The full claim is false of the code for the dialog entry dom0: a later
    rule can make dom0 a choice of an ask rule of the legacy file, because the
    closing deny rule for @adminvm does not remove the entry dom0 that other
    rules contribute. *)
Definition ex_post : list rule := rules_of ["svc * @anyvm * allow"].
Theorem C25_dialog_dom0_refuted :
  let q := call "svc+arg" "work" "@default" in
  evaluate (ex_legacy ++ ex_post) q = Ok (RAsk (mkAsk ["dom0"; "vault"] None None true false)) /\
  evaluate ex_legacy q = Ok (RAsk (mkAsk ["vault"] None None true false)) /\
  legacy_policy ex_fs POLICYPATH_OLD ex_legacy /\ ~ means_dom0 (q_source q).
Proof.
  split; [vm_compute; reflexivity|]. split; [vm_compute; reflexivity|]. split; [exact (proj1 C25_example)|].
  intros [H|[H|H]]; discriminate.
Qed.

Example C26_example : same_tree ex_fs
  (fset ex_fs (POLICYPATH ++ ["30-user.policy"])
     (L ["qubes.Gpg * work vault allow"; ""; "# here it comes"; "!include include/extra"; "   qubes.Filecopy * @anyvm @anyvm ask"])).
Proof.
  assert (G : forall f p n, fget (fset f p n) p = Some n).
  { intros f p n. induction f as [|[q m] f IH]; cbn; [rewrite path_eqb_refl; auto|].
    destruct (path_eqb p q) eqn:E; cbn; [rewrite path_eqb_refl|rewrite E]; auto. }
  assert (G' : forall f p n x, x <> p -> fget (fset f p n) x = fget f x).
  { intros f p n x Hx. induction f as [|[q m] f IH]; cbn.
    - destruct (path_eqb_spec x p); [contradiction|reflexivity].
    - destruct (path_eqb_spec p q) as [->|Hq]; cbn.
      + destruct (path_eqb_spec x q); [contradiction|reflexivity].
      + rewrite IH. reflexivity. }
  intros x. destruct (list_eq_dec string_dec x (POLICYPATH ++ ["30-user.policy"])) as [->|Hx].
  - right. rewrite G. eexists. eexists. split; [vm_compute; reflexivity|]. split; [reflexivity|].
    split; [vm_compute; reflexivity|]. split; [vm_compute; reflexivity|]. vm_compute lines_univ.
    apply (sl_line "" "" "" "" "qubes.Gpg * work vault allow"); try reflexivity.
    apply sl_right; [apply skip_inert; reflexivity|]. apply sl_right; [apply skip_inert; reflexivity|].
    apply (sl_line "  " "  " "" "" "!include include/extra"); try reflexivity.
    apply (sl_line "" "" "   " "" "qubes.Filecopy * @anyvm @anyvm ask"); try reflexivity. constructor.
  - left. symmetry. auto.
Qed.
