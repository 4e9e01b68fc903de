(** Property C40: registration of arguments (policy.RegisterArgument).

    Statements use SpecRegister.v and SpecLoader.v. *)
From Coq Require Import String Ascii List Bool Arith Lia Permutation Sorting.
From Verif Require Import Base SysInfo Token Rule Policy PolicyExec FileSys Loader RegisterArgument
  SpecPolicy SpecRule SpecLoader SpecAdmin SpecRegister
  TokenProofs RuleProofs TextProofs LoaderProofs SelectProofs LoaderExt AdminProofs AdminLoad AdminAccept MatchProofs EvalProofs
  Props_Policy Props_Loader RegProofs.
Import ListNotations.
Open Scope string_scope.
Open Scope list_scope.

Lemma argument_char_spec c : argument_char c = true <-> arg_letter c.
Proof.
  unfold argument_char, arg_letter, is_lower, is_upper, is_digit, in_range, is_char.
  rewrite !orb_true_iff, !andb_true_iff, !Nat.leb_le, !Ascii.eqb_eq. cbn [In]. split.
  - intros H. decompose [or and] H; subst; auto 6; left; lia.
  - intros [H|H]; decompose [or and] H; subst; auto 12; contradiction.
Qed.
Lemma good_argument_spec a : good_argument a <->
  stake 1 (sdrop MAX_ARGUMENT_LEN a) = "" /\ a <> "" /\ sforall argument_char a = true.
Proof.
  unfold good_argument. rewrite sforall_has.
  assert (L : stake 1 (sdrop MAX_ARGUMENT_LEN a) = "" <-> String.length a <= 64).
  { change MAX_ARGUMENT_LEN with 64. generalize 64. induction a as [|c a IH]; intros n.
    - destruct n; cbn; split; auto; lia.
    - destruct n; cbn [sdrop String.length]; [cbn; split; [discriminate|lia]|]. rewrite IH. lia. }
  rewrite L. split.
  - intros [H1 H2]. repeat split; try lia. { destruct a; cbn in H1; [lia|discriminate]. }
    intros c Hc. apply argument_char_spec, H2, Hc.
  - intros (H1 & H2 & H3). split; [destruct a; [congruence|cbn in *; lia]|].
    intros c Hc. apply argument_char_spec, H3, Hc.
Qed.
Lemma stake_64 a : String.length a <= 64 -> stake MAX_ARGUMENT_LEN a = a.
Proof.
  change MAX_ARGUMENT_LEN with 64. generalize 64. induction a as [|c a IH]; intros [|n] H; cbn in *; auto; try lia.
  rewrite IH by lia. reflexivity.
Qed.
Lemma already_spec rs s a : existsb (fun r => match r_service r, r_arg r with
    | Some s', Some a' => String.eqb s' s && String.eqb a' ("+" +++ a) | _, _ => false end) rs = true <-> already rs s a.
Proof.
  rewrite existsb_exists. split.
  - intros (r & Hr & H). exists r. split; auto. destruct (r_service r), (r_arg r); try discriminate.
    apply andb_true_iff in H as [H1 H2]. apply String.eqb_eq in H1, H2. subst. auto.
  - intros (r & Hr & H1 & H2). exists r. split; auto. rewrite H1, H2, !String.eqb_refl. reflexivity.
Qed.
Lemma rule_line s a fr ba : policy_rule_line s a fr ba = reg_line s a fr ba +++ nl.
Proof. unfold policy_rule_line, reg_line. rewrite !app_assoc_s. reflexivity. Qed.

(** ** What any call does, whatever the environment, the input and the files *)
(** unless it succeeds nothing changes; it succeeds only for a good argument,
    when the stored policy loads and has no rule for this service and argument;
    then one line is added at the end of one file *)
Theorem C40_outcome f lg fuel env stdin r f' : wf_fs f -> register f lg fuel env stdin = (r, f') ->
  (r <> RegDone /\ f' = f) \/
  exists s fr ba rs c, r = RegDone /\ reg_env env s fr ba /\ good_argument stdin /\
    policy_of f lg [run_dir; etc_dir] rs /\ ~ already rs s stdin /\
    (has_content f reg_file c \/ fget f reg_file = None /\ c = "") /\
    has_content f' reg_file (c +++ s +++ " +" +++ stdin +++ " " +++ fr +++ " " +++ ba +++ " allow" +++ nl) /\
    same_elsewhere f f' [reg_file] /\ wf_fs f'.
Proof.
  intros W. unfold register.
  destruct (dget env "QREXEC_REMOTE_DOMAIN") as [ba|] eqn:Eb; [|intros H; injection H as <- <-; left; split; [discriminate|auto]].
  destruct (dget env "QREXEC_REQUESTED_TARGET") as [fr|] eqn:Ef; [|intros H; injection H as <- <-; left; split; [discriminate|auto]].
  destruct (dget env "QREXEC_SERVICE_ARGUMENT") as [s|] eqn:Es; [|intros H; injection H as <- <-; left; split; [discriminate|auto]].
  destruct (String.eqb_spec (stake 1 (sdrop MAX_ARGUMENT_LEN stdin)) "") as [Eo|No]; cbn [negb];
    [|intros H; injection H as <- <-; left; split; [discriminate|auto]].
  destruct (String.eqb_spec (stake MAX_ARGUMENT_LEN stdin) "") as [Ee|Ne];
    [intros H; injection H as <- <-; left; split; [discriminate|auto]|].
  assert (Hs : stake MAX_ARGUMENT_LEN stdin = stdin).
  { apply stake_64. clear - Eo. revert Eo. change MAX_ARGUMENT_LEN with 64. generalize 64.
    induction stdin as [|c a IH]; intros [|n] H; cbn [sdrop String.length] in *; try lia; [discriminate|]. apply IH in H. lia. }
  rewrite Hs in *.
  destruct (sforall argument_char stdin) eqn:Ec; cbn [negb]; [|intros H; injection H as <- <-; left; split; [discriminate|auto]].
  destruct (is_dir f POLICYPATH) eqn:Ed; cbn [negb]; [|intros H; injection H as <- <-; left; split; [discriminate|auto]].
  destruct (load_policy f lg fuel [RUNTIME_POLICY_PATH; POLICYPATH]) as [rs|e] eqn:El;
    [|intros H; injection H as <- <-; left; split; [discriminate|auto]].
  destruct (existsb _ rs) eqn:Ea; [intros H; injection H as <- <-; left; split; [discriminate|auto]|].
  destruct (append_file f POLICY_FILE (policy_rule_line s stdin fr ba)) as [f1|e] eqn:Ew;
    [|intros H; injection H as <- <-; left; split; [discriminate|auto]].
  intros H. injection H as <- <-. right.
  assert (G : good_argument stdin) by (apply good_argument_spec; auto).
  assert (Pol : policy_of f lg [run_dir; etc_dir] rs) by (apply load_policy_spec; eauto).
  assert (Na : ~ already rs s stdin).
  { intros K. apply already_spec in K. rewrite K in Ea. discriminate. }
  assert (X : exists c, (has_content f reg_file c \/ fget f reg_file = None /\ c = "") /\
     f1 = fset f reg_file (NFile (Some (c +++ policy_rule_line s stdin fr ba)))).
  { unfold append_file in Ew. change (split_last POLICY_FILE) with (Some (etc_dir, reg_name)) in Ew.
    change POLICY_FILE with reg_file in Ew. destruct (fget f reg_file) as [[[c|]| |]|] eqn:Eg; try discriminate.
    - injection Ew as <-. exists c. split; auto.
    - destruct (is_dir f etc_dir); [|discriminate]. injection Ew as <-. exists "". split; auto. }
  destruct X as (c & Hc & ->). exists s, fr, ba, rs, c. split; auto. split; [constructor; auto|].
  split; auto. split; auto. split; auto. split; auto. split; [|split].
  - unfold has_content. rewrite fget_fset. reflexivity.
  - intros q Hq. apply fget_fset_other. intros ->. apply Hq. left. reflexivity.
  - apply wf_fset. exact W.
Qed.

(** ** What a successful call adds to the policy *)
Lemma chosen_rules_app f lg a b rs : chosen_rules f lg (a ++ b) rs <->
  exists r1 r2, chosen_rules f lg a r1 /\ chosen_rules f lg b r2 /\ rs = r1 ++ r2.
Proof.
  revert rs. induction a as [|[d n] a IH]; intros rs; cbn [app].
  - split; [intros H; exists [], rs; repeat split; auto; constructor|]. intros (r1 & r2 & H1 & H2 & ->). inv H1. exact H2.
  - split.
    + intros H. inv H. apply IH in H6 as (r1 & r2 & H1 & H2 & ->). exists (rs1 ++ r1), r2. split; [econstructor; eauto|].
      split; auto. apply app_assoc.
    + intros (r1 & r2 & H1 & H2 & ->). inv H1. rewrite <- app_assoc. econstructor; eauto. apply IH. eauto.
Qed.
Lemma chosen_rules_one f lg d n rs : chosen_rules f lg [(d, n)] rs ->
  exists ls, file_lines f (d ++ [n]) ls /\ file_rules f lg d (path_str (d ++ [n])) ls rs.
Proof. intros H. inversion H as [|d0 n0 l0 ls r1 r2 H1 H2 H3]. subst. inversion H3. subst. rewrite app_nil_r. eauto. Qed.
Lemma lines_whole c l : whole_lines c -> has_char NL l = false -> has_char CR l = false ->
  lines_univ (c +++ l +++ nl) = lines_univ c ++ [l].
Proof.
  intros [-> |(c' & ->)] N1 N2.
  - rewrite <- (lines_univ_one l) by auto. reflexivity.
  - rewrite <- (lines_univ_one l) by auto. rewrite <- lines_univ_app. f_equal. rewrite app_assoc_s. reflexivity.
Qed.
Lemma good_service_chars a : good_argument a -> service_chars a.
Proof. intros [_ H] c Hc. apply H in Hc as [K|K]; [left; exact K|right]. cbn in K |- *. tauto. Qed.
Lemma reg_line_ok s a fr ba : plain_word s -> plain_word fr -> plain_word ba -> good_argument a ->
  has_char NL (reg_line s a fr ba) = false /\ has_char CR (reg_line s a fr ba) = false /\
  utf8_valid (reg_line s a fr ba +++ nl) = true.
Proof.
  intros Ps Pf Pb G. apply good_service_chars in G.
  assert (H : forall c, has_char c (reg_line s a fr ba) = true -> nat_of_ascii c <= 127 /\ c <> NL /\ c <> CR)
    by (intros c; apply reg_line_chars; auto).
  split; [|split].
  - apply not_true_iff_false. intros K. apply H in K. tauto.
  - apply not_true_iff_false. intros K. apply H in K. tauto.
  - apply utf8_app; [|reflexivity]. apply utf8_ascii. intros c Hc. apply H in Hc. tauto.
Qed.

Lemma content_regular f p c : has_content f p c -> regular f p.
Proof. intros H. exists (Some c). exact H. Qed.

(** names of files *)
Definition up_to (n : string) (x : path * string) : Prop := snd x = n \/ lt_bytes (snd x) n.
Definition beyond (n : string) (x : path * string) : Prop := lt_bytes n (snd x).

(** [_partial]: the registration file, if there is one, has complete lines and is
    not replaced by one of the same name in /run/qubes/policy.d, nothing else
    includes it, and the names of the service and of the two qubes are plain
    words, the service without a plus sign. Each is needed, see below. *)
Theorem C40_registers_partial f lg fuel env s fr ba a rs :
  wf_fs f -> reg_env env s fr ba -> plain_word s -> has_char "+" s = false -> plain_word fr -> plain_word ba ->
  good_argument a ->
  (fget f reg_file = None \/ exists c, has_content f reg_file c /\ whole_lines c) ->
  ~ policy_file f run_dir reg_name -> not_included f reg_file -> legacy_apart f lg reg_file ->
  load_policy f lg fuel [run_dir; etc_dir] = Ok rs -> ~ already rs s a ->
  exists f' before after,
    register f lg fuel env a = (RegDone, f') /\ same_elsewhere f f' [reg_file] /\
    rs = before ++ after /\
    policy_of f' lg [run_dir; etc_dir] (before ++ registered_rule s a fr ba :: after) /\
    exists sb sa, chosen f [run_dir; etc_dir] (sb ++ sa) /\
      chosen_rules f lg sb before /\ chosen_rules f lg sa after /\
      Forall (up_to reg_name) sb /\ Forall (beyond reg_name) sa.
Proof.
  intros W [Eb Ef Es] Ps Np Pf Pb G Was Nrun Ninc La Ld Na.
  assert (Pol : policy_of f lg pdirs rs) by (apply load_policy_spec; eauto).
  destruct Pol as (sel & Ch & CR).
  destruct (register f lg fuel env a) as [r f'] eqn:Er.
  assert (Rd : r = RegDone).
  { unfold register in Er. rewrite Eb, Ef, Es in Er. pose proof G as G'. apply good_argument_spec in G' as (G1 & G2 & G3).
    rewrite (stake_64 a) in Er by apply G. rewrite G1, String.eqb_refl in Er. cbn [negb] in Er.
    destruct (String.eqb_spec a "") as [E|_]; [contradiction|]. rewrite G3 in Er. cbn [negb] in Er.
    replace (is_dir f POLICYPATH) with true in Er.
    2: { symmetry. apply is_dir_spec. apply (proj1 Ch). right. left. reflexivity. }
    cbn [negb] in Er. change [RUNTIME_POLICY_PATH; POLICYPATH] with [run_dir; etc_dir] in Er. rewrite Ld in Er.
    destruct (existsb _ rs) eqn:Ea; [apply already_spec in Ea; contradiction|].
    unfold append_file in Er. change (split_last POLICY_FILE) with (Some (etc_dir, reg_name)) in Er.
    change POLICY_FILE with reg_file in Er. destruct Was as [Hn|(c & Hc & _)].
    - rewrite Hn in Er. replace (is_dir f etc_dir) with true in Er; [injection Er as <- _; reflexivity|].
      symmetry. apply is_dir_spec. apply (proj1 Ch). right. left. reflexivity.
    - unfold has_content in Hc. rewrite Hc in Er. injection Er as <- _. reflexivity. }
  destruct (C40_outcome _ _ _ _ _ _ _ W Er) as [[K _]|(s' & fr' & ba' & rs' & c & _ & [Eb' Ef' Es'] & _ & _ & _ & Hc & Hc' & Se & W')]; [contradiction|].
  assert (Es2 : s' = s) by congruence. assert (Ef2 : fr' = fr) by congruence. assert (Eb2 : ba' = ba) by congruence. subst s' fr' ba'.
  set (line := reg_line s a fr ba).
  assert (Hc2 : has_content f' reg_file (c +++ line +++ nl)).
  { unfold line. rewrite <- rule_line. exact Hc'. }
  assert (Wl : whole_lines c).
  { destruct Hc as [Hc|[_ ->]]; [|left; auto]. destruct Was as [K|(c1 & K & Wl)]; unfold has_content in *; [congruence|].
    rewrite K in Hc. injection Hc as ->. exact Wl. }
  destruct (reg_line_ok s a fr ba Ps Pf Pb G) as (L1 & L2 & L3). fold line in L1, L2, L3.
  assert (C : forall q, q <> reg_file -> fget f' q = fget f q).
  { intros q Hq. apply Se. intros [K|[]]. congruence. }
  assert (Nd : fget f reg_file <> Some NDir) by (destruct Hc as [Hc|[Hc _]]; unfold has_content in *; congruence).
  destruct (chosen_grown f f' (Some (c +++ line +++ nl)) sel W W' C Hc2) as (sb & sa & Ch' & Cex & Cab); auto.
  { destruct Hc as [Hc|[Hc _]]; [right; exists (Some c); exact Hc|left; exact Hc]. }
  (* the other files *)
  assert (Oth : forall d n lsx, In d pdirs -> d ++ [n] <> reg_file -> policy_file f d n -> file_lines f (d ++ [n]) lsx ->
     forall r1, file_rules f lg d (path_str (d ++ [n])) lsx r1 ->
     file_lines f' (d ++ [n]) lsx /\ file_rules f' lg d (path_str (d ++ [n])) lsx r1).
  { intros d n lsx Hd Nq Pfile Hl r1 Hr. split.
    - destruct Hl as (cc & H1 & H2). exists cc. rewrite C by auto. auto.
    - eapply file_rules_elsewhere; eauto. }
  assert (Irr : forall x, In x (sb ++ sa) -> x <> (etc_dir, reg_name)).
  { pose proof Ch' as (_ & _ & Sorted' & _). clear - Sorted'. intros x Hi ->. induction sb as [|x sb IH]; cbn in *.
    - inv Sorted'. rewrite Forall_forall in H2. apply H2 in Hi. cbn in Hi. exact (lt_irrefl _ Hi).
    - inv Sorted'. destruct Hi as [-> |Hi]; [|auto]. rewrite Forall_forall in H2.
      specialize (H2 (etc_dir, reg_name) ltac:(apply in_or_app; right; left; auto)). cbn in H2. exact (lt_irrefl _ H2). }
  assert (Sub : forall x, In x (sb ++ sa) -> In x sel).
  { destruct Hc as [Hc|[Hc _]].
    - rewrite (Cex (content_regular _ _ _ Hc)). intros x Hx. apply in_app_or in Hx as [Hx|Hx]; apply in_or_app; cbn; auto.
    - rewrite (Cab Hc). auto. }
  assert (Tr : forall l r1, (forall x, In x l -> In x (sb ++ sa)) -> chosen_rules f lg l r1 -> chosen_rules f' lg l r1).
  { intros l r1 Hl Hr. induction Hr as [|d n l lsx r1 r2 H1 H2 H3 IH]; [constructor|].
    assert (Hi : In (d, n) (sb ++ sa)) by (apply Hl; left; auto).
    pose proof (Irr _ Hi) as Nq. apply Sub in Hi. pose proof Ch as (_ & _ & _ & Sel).
    assert (Hi' : SelectProofs.first_in f pdirs d n) by (apply Sel; exact Hi). apply first_two in Hi' as [Pfile Hd].
    assert (Hd' : In d pdirs) by (destruct Hd as [-> |[-> _]]; cbn; auto).
    assert (Nq' : d ++ [n] <> reg_file) by (intros E; apply app_inj_tail in E as [-> ->]; apply Nq; reflexivity).
    destruct (Oth d n lsx Hd' Nq' Pfile H1 r1 H2) as [O1 O2].
    econstructor; eauto. apply IH. intros x Hx. apply Hl. right. exact Hx. }
  (* the file itself *)
  assert (Own : forall lsx own, lsx = lines_univ c ->
     file_rules f' lg etc_dir (path_str reg_file) lsx own ->
     chosen_rules f' lg [(etc_dir, reg_name)] (own ++ [registered_rule s a fr ba])).
  { intros lsx own -> Ho. rewrite <- (app_nil_r (own ++ _)). apply cr_file with (ls := lines_univ c ++ [line]); [| |constructor].
    - exists (c +++ line +++ nl). split; [exact Hc2|]. split; [|symmetry; apply lines_whole; auto].
      destruct Hc as [Hc|[_ ->]]; [|exact L3]. apply utf8_app; [|exact L3].
      assert (Hsel : In (etc_dir, reg_name) sel) by (rewrite (Cex (content_regular _ _ _ Hc)); apply in_or_app; right; left; auto).
      destruct (chosen_rules_in _ _ _ _ _ _ CR Hsel) as (l0 & _ & (c0 & K1 & K2 & _) & _).
      change (etc_dir ++ [reg_name]) with reg_file in K1. unfold has_content in Hc. rewrite Hc in K1. injection K1 as <-. exact K2.
    - unfold file_rules. apply text_rules_app. exists own, [registered_rule s a fr ba]. split; [exact Ho|]. split; auto.
      apply reg_line_rules; auto. apply good_service_chars. exact G. }
  assert (Names : Forall (fun x => lt_bytes (snd x) reg_name) sb /\ Forall (beyond reg_name) sa).
  { pose proof Ch' as (_ & _ & Sorted' & _). clear - Sorted'. split; apply Forall_forall; intros x Hx.
    - induction sb as [|y sb IH]; [destruct Hx|]. cbn in Sorted'. inv Sorted'. destruct Hx as [-> |Hx]; [|auto].
      rewrite Forall_forall in H2. apply (H2 (etc_dir, reg_name)). apply in_or_app. right. left. auto.
    - induction sb as [|y sb IH]; cbn in Sorted'; inv Sorted'; auto. rewrite Forall_forall in H2. apply (H2 x Hx). }
  destruct Names as [Nb Nf].
  assert (Nb' : Forall (up_to reg_name) sb).
  { eapply Forall_impl; [|exact Nb]. intros x Hx. right. exact Hx. }
  destruct Hc as [Hc|[Hc E0]].
  - (* the file existed *)
    pose proof (Cex (content_regular _ _ _ Hc)) as Esel. rewrite Esel in CR, Ch.
    change (sb ++ (etc_dir, reg_name) :: sa) with (sb ++ [(etc_dir, reg_name)] ++ sa) in CR.
    apply chosen_rules_app in CR as (r1 & r23 & R1 & R23 & ->). apply chosen_rules_app in R23 as (r2 & r3 & R2 & R3 & ->).
    exists f', (r1 ++ r2), r3. split; [subst; auto|]. split; auto. split; [apply app_assoc|]. split.
    + exists (sb ++ (etc_dir, reg_name) :: sa). split; auto.
      change (sb ++ (etc_dir, reg_name) :: sa) with (sb ++ [(etc_dir, reg_name)] ++ sa).
      apply chosen_rules_app. exists r1, ((r2 ++ [registered_rule s a fr ba]) ++ r3).
      split; [apply Tr; auto; intros x Hx; apply in_or_app; auto|]. split; [|rewrite <- !app_assoc; reflexivity].
      apply chosen_rules_app. exists (r2 ++ [registered_rule s a fr ba]), r3. split; [|split; auto].
      * apply chosen_rules_one in R2 as (ls2 & H3 & H4). eapply Own; [|].
        -- destruct H3 as (c0 & K1 & _ & K3). change (etc_dir ++ [reg_name]) with reg_file in K1. unfold has_content in Hc.
           rewrite Hc in K1. injection K1 as <-. exact K3.
        -- eapply file_rules_elsewhere; [exact C|exact Nd| |exact La|exact H4].
           eapply (Ninc etc_dir reg_name); [right; left; reflexivity| |exact H3].
           split; [|split]; [|apply reg_policy_name|exists (Some c); exact Hc].
           apply entry_spec. change (etc_dir ++ [reg_name]) with reg_file. unfold has_content in Hc. rewrite Hc. discriminate.
      * apply Tr; auto. intros x Hx. apply in_or_app. auto.
    + exists (sb ++ [(etc_dir, reg_name)]), sa. rewrite <- app_assoc. cbn [app]. split; auto.
      split; [apply chosen_rules_app; eauto|]. split; auto. split; auto.
      apply Forall_app. split; auto. constructor; [left; reflexivity|constructor].
  - (* a new file *)
    pose proof (Cab Hc) as Esel. rewrite Esel in CR, Ch. subst c.
    apply chosen_rules_app in CR as (r1 & r3 & R1 & R3 & ->).
    exists f', r1, r3. split; [subst; auto|]. split; auto. split; auto. split.
    + exists (sb ++ (etc_dir, reg_name) :: sa). split; auto.
      change (sb ++ (etc_dir, reg_name) :: sa) with (sb ++ [(etc_dir, reg_name)] ++ sa).
      apply chosen_rules_app. exists r1, ([registered_rule s a fr ba] ++ r3).
      split; [apply Tr; auto; intros x Hx; apply in_or_app; auto|]. split; auto.
      apply chosen_rules_app. exists [registered_rule s a fr ba], r3. split; [|split; auto].
      * apply (Own [] []); auto. apply tr_end.
      * apply Tr; auto. intros x Hx. apply in_or_app. auto.
    + exists sb, sa. auto.
Qed.

(** ** What the added rule means for calls *)
Lemma collect_loop_skip q r : is_match_but_target r q = Ok false -> forall a b l,
  collect_loop (a ++ r :: b) q l = collect_loop (a ++ b) q l.
Proof.
  intros E. induction a as [|x a IH]; intros b l; cbn [app collect_loop].
  - rewrite E. reflexivity.
  - destruct (is_match_but_target x q) as [m|]; [|reflexivity]. cbn [bind]. destruct m; auto.
    destruct (expand _ _); [|reflexivity]. cbn [bind]. apply IH.
Qed.
Lemma evaluate_skip q r a b : is_match_but_target r q = Ok false -> evaluate (a ++ r :: b) q = evaluate (a ++ b) q.
Proof.
  intros E. assert (F : find_matching_rule (a ++ r :: b) q = find_matching_rule (a ++ b) q).
  { induction a as [|x a IH]; cbn [app find_matching_rule].
    - unfold is_match. rewrite E. reflexivity.
    - destruct (is_match x q) as [m|]; [|reflexivity]. cbn [bind]. destruct m; auto. }
  unfold evaluate. rewrite F. destruct (find_matching_rule (a ++ b) q) as [x|]; [|reflexivity]. cbn [bind].
  unfold action_evaluate. destruct (r_action x) as [n|t u n s|t d u n s]; [reflexivity|reflexivity|].
  assert (C : collect_targets_for_ask (a ++ r :: b) q = collect_targets_for_ask (a ++ b) q).
  { unfold collect_targets_for_ask.
    replace (collect_loop (rev (a ++ r :: b)) q []) with (collect_loop (rev (a ++ b)) q []); [reflexivity|].
    rewrite !rev_app_distr. cbn [rev]. rewrite <- app_assoc. symmetry. apply collect_loop_skip. exact E. }
  unfold ask_evaluate. rewrite C. reflexivity.
Qed.

(** no other call is affected: not those of other services or arguments, not those
    of other qubes *)
Theorem C40_others_unaffected before after s a fr ba q : wf_call q ->
  ~ (q_service q = s /\ q_arg q = "+" +++ a /\ covers (q_info q) (q_source q) (TName fr) (TName (q_source q))) ->
  evaluate (before ++ registered_rule s a fr ba :: after) q = evaluate (before ++ after) q.
Proof.
  intros W N. apply evaluate_skip. destruct (is_match_but_target_total (registered_rule s a fr ba) q) as [b E].
  rewrite E. destruct b; [|reflexivity]. exfalso. apply (is_match_but_target_correct _ _ _ W) in E.
  destruct E as [E _]. destruct (E eq_refl) as ([K|K] & [K'|K'] & K3); try discriminate.
  cbn [r_service r_arg registered_rule] in K, K'. apply N. split; [congruence|]. split; [congruence|exact K3].
Qed.
(** the registered call is allowed, unless an earlier rule decides it *)
Theorem C40_registered_allowed before after s a fr ba q :
  wf_call q -> dispvm_ready q ->
  (forall r, In r (before ++ after) -> wf_rule r) -> (forall r, In r (before ++ registered_rule s a fr ba :: after) -> no_uuid_disp q r) ->
  none_applicable before q ->
  q_service q = s -> q_arg q = "+" +++ a ->
  covers (q_info q) (q_source q) (TName fr) (TName (q_source q)) -> covers (q_info q) (q_source q) (TName ba) (q_target q) ->
  forall g, grants (q_info q) (q_source q) (q_target q) g ->
  evaluate (before ++ registered_rule s a fr ba :: after) q = Ok (RAllow (mkAllow None g true false)).
Proof.
  intros W D Wr Nu Na Es Ea Cf Cb g Hg.
  set (R := registered_rule s a fr ba).
  assert (WR : wf_rule R) by (intros x K; discriminate).
  destruct (C01_allow_decides (before ++ R :: after) q R None None false true) as [(g' & H1 & _ & H3)|[H1 _]]; auto.
  - intros r Hr. apply in_app_or in Hr as [Hr|[<-|Hr]]; auto; apply Wr, in_or_app; auto.
  - exists before, after. split; auto. split; [exact Na|]. split; [split; [|split]|]; auto; right; cbn [r_service r_arg R registered_rule]; congruence.
  - rewrite H3. cbn [sent_to] in H1. clear - Hg H1. inversion H1; subst; inversion Hg; subst; congruence.
  - exfalso. destruct (H1 g Hg) as [K _]. discriminate.
Qed.

(** ** An argument is registered only once *)
Lemma text_rules_incl opens lists legacy file ls rs l r1 : text_rules opens lists legacy file ls rs -> In l ls ->
  (forall x, text_rules opens lists legacy file [l] x -> x = r1) -> incl r1 rs.
Proof.
  intros T Hl U. apply in_split in Hl as (l1 & l2 & ->). change (l1 ++ l :: l2) with (l1 ++ [l] ++ l2) in T.
  apply text_rules_app in T as (a & b & _ & T & ->). apply text_rules_app in T as (b1 & b2 & T & _ & ->).
  apply U in T. subst. intros x Hx. apply in_or_app. right. apply in_or_app. auto.
Qed.
Lemma reg_line_inv opens lists legacy file s a fr ba rs : plain_word s -> plain_word fr -> plain_word ba -> good_argument a ->
  text_rules opens lists legacy file [reg_line s a fr ba] rs -> already rs s a.
Proof.
  intros Ps Pf Pb G T. pose proof (reg_line_fields s a fr ba Ps Pf Pb (good_service_chars _ G)) as Fl.
  assert (Ni : ~ inert (reg_line s a fr ba)).
  { apply (fields_not_inert _ _ _ Fl). destruct (starts "#" s) eqn:E; auto. exfalso.
    apply starts1_head in E as (r & ->). destruct Ps as [_ Cs].
    specialize (Cs "#"%char ltac:(cbn; reflexivity)). destruct Cs as [K|K]; cbn in K; [lia|decompose [or] K; discriminate || contradiction]. }
  inversion T as [|? ? ? ? Hi|? ? ? ws r rs0 _ _ Hf Hr Hrest|? ? ? ? ? ? ? ? Hf|? ? ? ? ? ? ? Hf|? ? ? ? ? ? ? ? ? ? ? ? Hf|? ? ? ? ? Hf]; subst;
    try (pose proof (fields_fun _ _ _ Fl Hf) as K; discriminate); [contradiction|].
  pose proof (fields_fun _ _ _ Fl Hf) as <-. inversion Hr as [sv ar src tgt act ps osv oar tsrc ttgt ac H1 H2 H3 H4 H5 H6]; subst.
  exists (mkRule osv oar tsrc ttgt ac file). split; [left; auto|]. cbn [r_service r_arg].
  inversion H1 as [K|s0 N1 N2 N3]; subst.
  - exfalso. destruct Ps as [_ Cs]. specialize (Cs "*"%char eq_refl). destruct Cs as [C|C]; cbn in C; [lia|decompose [or] C; discriminate || contradiction].
  - split; auto. inversion H2; subst; reflexivity.
Qed.

(** once the line is in the file, the argument stays registered: whatever else
    happened to the files in the meantime, a second registration of it, for
    whatever qubes, changes nothing *)
Theorem C40_once f lg fuel env s fr ba a ls fr' ba' r f' :
  wf_fs f -> reg_env env s fr ba -> plain_word s -> plain_word fr' -> plain_word ba' -> good_argument a ->
  ~ policy_file f run_dir reg_name ->
  file_lines f reg_file ls -> In (s +++ " +" +++ a +++ " " +++ fr' +++ " " +++ ba' +++ " allow") ls ->
  register f lg fuel env a = (r, f') -> r <> RegDone /\ f' = f.
Proof.
  intros W [Eb Ef Es] Ps Pf Pb G Nr Fl Hin H. destruct (C40_outcome _ _ _ _ _ _ _ W H) as [K|
    (s1 & fr1 & ba1 & rs & c & _ & [_ _ Es1] & _ & Pol & Na & _)]; [exact K|]. exfalso.
  assert (E : s1 = s) by congruence. subst s1. apply Na. clear Na H.
  destruct Pol as (sel & Ch & CR).
  assert (Hsel : In (etc_dir, reg_name) sel).
  { pose proof Ch as (_ & _ & _ & Sel). apply Sel. apply first_two. split; [|right; auto].
    destruct Fl as (c0 & Fl & _). split; [|split]; [|apply reg_policy_name|exists (Some c0); exact Fl].
    apply entry_spec. change (etc_dir ++ [reg_name]) with reg_file. rewrite Fl. discriminate. }
  apply in_split in Hsel as (sb & sa & ->). change (sb ++ (etc_dir, reg_name) :: sa) with (sb ++ [(etc_dir, reg_name)] ++ sa) in CR.
  apply chosen_rules_app in CR as (r1 & r23 & _ & R23 & ->). apply chosen_rules_app in R23 as (r2 & r3 & R2 & _ & ->).
  apply chosen_rules_one in R2 as (ls2 & H3 & H4). change (etc_dir ++ [reg_name]) with reg_file in H3, H4.
  pose proof (file_lines_fun _ _ _ _ Fl H3) as <-.
  apply in_split in Hin as (l1 & l2 & ->). unfold file_rules in H4.
  change (l1 ++ (s +++ " +" +++ a +++ " " +++ fr' +++ " " +++ ba' +++ " allow") :: l2)
    with (l1 ++ [reg_line s a fr' ba'] ++ l2) in H4.
  apply text_rules_app in H4 as (b0 & b1 & _ & T & ->). apply text_rules_app in T as (b2 & b3 & T & _ & ->).
  apply reg_line_inv in T as (x & Hx & X1 & X2); auto.
  exists x. split; auto. apply in_or_app. right. apply in_or_app. left. apply in_or_app. right. apply in_or_app. auto.
Qed.

(** histories of registrations *)
Inductive registrations (lg : path) : fs -> list (string * string * string * string * reg_result) -> fs -> Prop :=
| rg_none f : registrations lg f [] f
| rg_call f fuel env s fr ba a r f1 h f2 : reg_env env s fr ba ->
    register f lg fuel env a = (r, f1) -> registrations lg f1 h f2 ->
    registrations lg f ((s, fr, ba, a, r) :: h) f2.

(** the policy file is absent, or a readable text of whole lines *)
Definition proper_file (f : fs) : Prop :=
  fget f reg_file = None \/ exists c, has_content f reg_file c /\ whole_lines c /\ utf8_valid c = true.

Lemma file_whole_app c l : whole_lines (c +++ l +++ nl).
Proof. right. exists (c +++ l). rewrite app_assoc_s. reflexivity. Qed.
Lemma register_keeps f lg fuel env s fr ba a r f' : wf_fs f -> reg_env env s fr ba ->
  plain_word s -> plain_word fr -> plain_word ba ->
  proper_file f -> ~ policy_file f run_dir reg_name -> register f lg fuel env a = (r, f') ->
  wf_fs f' /\ proper_file f' /\ ~ policy_file f' run_dir reg_name /\
  (forall ls, file_lines f reg_file ls -> exists more, file_lines f' reg_file (ls ++ more)) /\
  (r = RegDone -> good_argument a /\ exists ls, file_lines f' reg_file ls /\ In (reg_line s a fr ba) ls).
Proof.
  intros W [Eb Ef Es] Ps Pf Pb Pr Nr H. destruct (C40_outcome _ _ _ _ _ _ _ W H) as [[N ->]|
    (s1 & fr1 & ba1 & rs & c & -> & [Eb1 Ef1 Es1] & G & Pol & Na & Hc & Hc' & Se & W')].
  - split; auto. split; auto. split; auto. split; [|intros K; contradiction].
    intros ls Hl. exists []. rewrite app_nil_r. exact Hl.
  - assert (E1 : s1 = s) by congruence. assert (E2 : fr1 = fr) by congruence. assert (E3 : ba1 = ba) by congruence. subst s1 fr1 ba1.
    assert (Hc2 : has_content f' reg_file (c +++ reg_line s a fr ba +++ nl)) by (rewrite <- rule_line; exact Hc').
    destruct (reg_line_ok s a fr ba Ps Pf Pb G) as (L1 & L2 & L3).
    assert (Wl : whole_lines c /\ utf8_valid c = true).
    { destruct Hc as [Hc|[_ ->]]; [|split; [left; auto|reflexivity]]. destruct Pr as [K|(c1 & K & Wl)]; unfold has_content in *; [congruence|].
      rewrite K in Hc. injection Hc as ->. exact Wl. }
    destruct Wl as [Wl Uc].
    assert (Fl' : file_lines f' reg_file (lines_univ c ++ [reg_line s a fr ba])).
    { exists (c +++ reg_line s a fr ba +++ nl). split; auto. split; [apply utf8_app; auto|]. symmetry. apply lines_whole; auto. }
    split; auto. split; [|split; [|split]].
    + right. exists (c +++ reg_line s a fr ba +++ nl). split; auto. split; [apply file_whole_app|apply utf8_app; auto].
    + intros K. apply Nr. unfold policy_file, regular in *. rewrite entry_spec in *.
      assert (X : fget f' (run_dir ++ [reg_name]) = fget f (run_dir ++ [reg_name])) by (apply Se; intros [E|[]]; discriminate E).
      rewrite X in K. exact K.
    + intros ls (c0 & K1 & K2 & ->). exists [reg_line s a fr ba]. destruct Hc as [Hc|[Hc _]]; unfold has_content in Hc; [|congruence].
      rewrite Hc in K1. injection K1 as <-. exact Fl'.
    + intros _. split; auto. eexists. split; [exact Fl'|]. apply in_or_app. right. left. reflexivity.
Qed.
Lemma later_refused lg f h f2 s a : registrations lg f h f2 -> wf_fs f ->
  (forall s fr ba a r, In (s, fr, ba, a, r) h -> plain_word s /\ plain_word fr /\ plain_word ba) ->
  proper_file f -> ~ policy_file f run_dir reg_name -> good_argument a ->
  (exists ls fr ba, plain_word s /\ plain_word fr /\ plain_word ba /\ file_lines f reg_file ls /\ In (reg_line s a fr ba) ls) ->
  forall fr ba r, In (s, fr, ba, a, r) h -> r <> RegDone.
Proof.
  intros H. induction H as [|f fuel env s1 fr1 ba1 a1 r1 f1 h f2 En Rg H IH]; intros W Pl Pr Nr G Ex fr ba r Hin; [destruct Hin|].
  destruct (Pl s1 fr1 ba1 a1 r1) as (Q1 & Q2 & Q3); [left; auto|].
  destruct (register_keeps _ _ _ _ _ _ _ _ _ _ W En Q1 Q2 Q3 Pr Nr Rg) as (W1 & Pr1 & Nr1 & Keep & _).
  destruct Ex as (ls & fr0 & ba0 & P1 & P2 & P3 & Fl & Hl).
  destruct Hin as [E|Hin].
  - assert (E1 : s1 = s) by congruence. assert (E2 : a1 = a) by congruence. assert (E3 : r1 = r) by congruence. subst s1 a1 r1.
    eapply C40_once; [exact W|exact En|exact P1|exact P2|exact P3|exact G|exact Nr|exact Fl|exact Hl|exact Rg].
  - apply (IH W1) with (fr := fr) (ba := ba); auto.
    + intros x y z w v Hv. apply (Pl x y z w v). right. exact Hv.
    + destruct (Keep ls Fl) as [more Fl1]. exists (ls ++ more), fr0, ba0. repeat (split; [assumption|]).
      apply in_or_app. auto.
Qed.
(** of all registrations of one argument of a service, at most one succeeds *)
Theorem C40_at_most_once lg f h f2 : registrations lg f h f2 -> wf_fs f ->
  (forall s fr ba a r, In (s, fr, ba, a, r) h -> plain_word s /\ plain_word fr /\ plain_word ba) ->
  proper_file f -> ~ policy_file f run_dir reg_name ->
  forall h1 h2 h3 s a fr ba fr' ba',
  h <> h1 ++ (s, fr, ba, a, RegDone) :: h2 ++ (s, fr', ba', a, RegDone) :: h3.
Proof.
  intros H. induction H as [|f fuel env s1 fr1 ba1 a1 r1 f1 h f2 En Rg H IH]; intros W Pl Pr Nr h1 h2 h3 s a fr ba fr' ba' E.
  - destruct h1; discriminate.
  - destruct (Pl s1 fr1 ba1 a1 r1) as (Q1 & Q2 & Q3); [left; auto|].
    destruct (register_keeps _ _ _ _ _ _ _ _ _ _ W En Q1 Q2 Q3 Pr Nr Rg) as (W1 & Pr1 & Nr1 & _ & Done).
    assert (Pl' : forall s fr ba a r, In (s, fr, ba, a, r) h -> plain_word s /\ plain_word fr /\ plain_word ba).
    { intros x y z w v Hv. apply (Pl x y z w v). right. exact Hv. }
    destruct h1 as [|e h1]; cbn [app] in E.
    + pose proof (f_equal (@List.tl _) E) as Et. cbn [List.tl] in Et. pose proof (f_equal (@List.hd_error _) E) as Eh. cbn in Eh.
      assert (X1 : s1 = s) by congruence. assert (X2 : a1 = a) by congruence. assert (X3 : r1 = RegDone) by congruence. subst s1 a1 r1.
      destruct (Done eq_refl) as (G & ls & Fl & Hl).
      apply (later_refused lg f1 h f2 s a H W1 Pl' Pr1 Nr1 G) with (fr := fr') (ba := ba') (r := RegDone); auto.
      * exists ls, fr1, ba1. auto 8.
      * rewrite Et. apply in_or_app. right. left. reflexivity.
    + pose proof (f_equal (@List.tl _) E) as Et. cbn [List.tl] in Et. exact (IH W1 Pl' Pr1 Nr1 h1 h2 h3 s a fr ba fr' ba' Et).
Qed.

(** ** Examples *)
Lemma no_directives f base ls p : forallb (fun l => match split_ws l with d :: _ => negb (starts "!" d) | [] => true end) ls = true ->
  ~ reads f base ls p.
Proof.
  intros H (x & Hx & K). rewrite forallb_forall in H.
  assert (N : forall l d ps, In l ls -> fields l (d :: ps) -> starts "!" d = false).
  { intros l d ps Hl Hf. apply H in Hl. apply split_ws_fields in Hf. rewrite Hf in Hl. apply negb_true_iff. exact Hl. }
  inversion Hx as [? ? Hi|? l q ? ? ? Hl Hf|? l q ? ? ? ? Hl Hf]; subst.
  - destruct K as [(q & Hf & _)|[(q & n & Hf & _)|(s & a & q & Hf & _)]]; apply (N _ _ _ Hi) in Hf; discriminate.
  - apply (N _ _ _ Hl) in Hf. discriminate.
  - apply (N _ _ _ Hl) in Hf. discriminate.
Qed.

Definition reg_fs (own : list (path * node)) : fs := [
  (["etc"], NDir); (["etc"; "qubes"], NDir); (POLICYPATH, NDir); (["run"; "qubes"; "policy.d"], NDir); (POLICYPATH_OLD, NDir);
  (POLICYPATH ++ ["30-user.policy"], L ["policy.RegisterArgument +example.Perform backendvm @anyvm allow target=dom0"]);
  (POLICYPATH ++ ["90-default.policy"], L ["# default"; "* * @anyvm @anyvm deny"])] ++ own.
Definition reg_old : list (path * node) :=
  [(POLICYPATH ++ ["60-registered-arguments.policy"], L ["example.Perform +OLD frontendvm backendvm allow"])].
Definition reg_call (s fr ba : string) : list (string * string) :=
  [("QREXEC_REMOTE_DOMAIN", ba); ("QREXEC_REQUESTED_TARGET", fr); ("QREXEC_SERVICE_ARGUMENT", s)].
Definition reg_load (f : fs) : res (list rule) := load_policy f POLICYPATH_OLD 1000 [run_dir; etc_dir].

Example C40_example : exists f' before after,
  register (reg_fs reg_old) POLICYPATH_OLD 1000 (reg_call "example.Perform" "frontendvm" "backendvm") "EXAMPLE" = (RegDone, f') /\
  reg_load (reg_fs reg_old) = Ok (before ++ after) /\
  reg_load f' = Ok (before ++ registered_rule "example.Perform" "EXAMPLE" "frontendvm" "backendvm" :: after) /\
  List.length before = 2 /\ List.length after = 1.
Proof.
  eexists. eexists [_; _]. eexists [_]. split; [vm_compute; reflexivity|]. split; [vm_compute; reflexivity|].
  split; [vm_compute; reflexivity|]. auto.
Qed.
(** the conditions of the theorem hold of it *)
Example C40_example_conditions :
  let f := reg_fs reg_old in
  wf_fs f /\ plain_word "example.Perform" /\ good_argument "EXAMPLE" /\
  (exists c, has_content f reg_file c /\ whole_lines c) /\ ~ policy_file f run_dir reg_name /\
  not_included f reg_file /\ legacy_apart f POLICYPATH_OLD reg_file /\
  exists rs, reg_load f = Ok rs /\ ~ already rs "example.Perform" "EXAMPLE" /\ already rs "example.Perform" "OLD".
Proof.
  set (f := reg_fs reg_old). cbv zeta.
  split; [unfold wf_fs, f; cbn; repeat (constructor; [cbn; intuition discriminate|]); constructor|].
  split; [split; [discriminate|apply valid_chars_spec; reflexivity]|].
  split; [apply good_argument_spec; repeat split; try reflexivity; discriminate|].
  split; [eexists; split; [reflexivity|right; exists "example.Perform +OLD frontendvm backendvm allow"; reflexivity]|].
  split; [intros (K & _); apply entry_spec in K; apply K; reflexivity|].
  split; [|split].
  - intros d n ls Hd (He & _ & Hr) (c & Hc & _ & ->). apply no_directives.
    assert (Hn : In n (listing f d)) by exact He. clear He Hr.
    destruct Hd as [<-|[<-|[]]]; vm_compute in Hn; [destruct Hn|].
    destruct Hn as [<-|[<-|[<-|[]]]]; vm_compute in Hc; injection Hc as <-; vm_compute; reflexivity.
  - split; [intros n K; apply (app_inj_tail etc_dir POLICYPATH_OLD reg_name n) in K as [K _]; discriminate|].
    intros n ls x q (He & _). exfalso. exact He.
  - eexists. split; [vm_compute; reflexivity|]. split.
    + intros K. apply already_spec in K. vm_compute in K. discriminate.
    + apply already_spec. vm_compute. reflexivity.
Qed.
Example C40_example_again :
  exists f1, register (reg_fs reg_old) POLICYPATH_OLD 1000 (reg_call "example.Perform" "othervm" "backendvm") "OLD" = (RegDied, f1) /\ f1 = reg_fs reg_old.
Proof. eexists. split; vm_compute; reflexivity. Qed.

(** ** The conditions are needed *)
(** a service with a plus sign, or an empty one, is registered with success; from then on the whole
    policy does not load *)
Theorem C40_plus_refuted : exists f', wf_fs (reg_fs reg_old) /\
  register (reg_fs reg_old) POLICYPATH_OLD 1000 (reg_call "example+x" "frontendvm" "backendvm") "EXAMPLE" = (RegDone, f') /\
  (exists rs, reg_load (reg_fs reg_old) = Ok rs) /\ reg_load f' = Err ESyntax.
Proof.
  eexists. split; [unfold wf_fs; cbn; repeat (constructor; [cbn; intuition discriminate|]); constructor|].
  split; [vm_compute; reflexivity|]. split; [eexists; vm_compute; reflexivity|vm_compute; reflexivity].
Qed.
Theorem C40_empty_refuted : exists f',
  register (reg_fs reg_old) POLICYPATH_OLD 1000 (reg_call "" "frontendvm" "backendvm") "EXAMPLE" = (RegDone, f') /\
  (exists rs, reg_load (reg_fs reg_old) = Ok rs) /\ reg_load f' = Err ESyntax.
Proof. eexists. split; [vm_compute; reflexivity|]. split; [eexists; vm_compute; reflexivity|vm_compute; reflexivity]. Qed.
(** when the last line of the file is a comment without a line end, registration
    succeeds without any effect, and again, for any qubes *)
Definition reg_comment : list (path * node) := [(POLICYPATH ++ ["60-registered-arguments.policy"], NFile (Some "# arguments"))].
Theorem C40_no_newline_refuted : exists f1 f2,
  register (reg_fs reg_comment) POLICYPATH_OLD 1000 (reg_call "example.Perform" "frontendvm" "backendvm") "EXAMPLE" = (RegDone, f1) /\
  reg_load f1 = reg_load (reg_fs reg_comment) /\
  register f1 POLICYPATH_OLD 1000 (reg_call "example.Perform" "othervm" "backendvm") "EXAMPLE" = (RegDone, f2).
Proof. eexists. eexists. repeat (split; [vm_compute; reflexivity|]). vm_compute. reflexivity. Qed.
(** when /run/qubes/policy.d has a file of the same name, registrations have no effect *)
Definition reg_shadow : list (path * node) :=
  [(POLICYPATH ++ ["60-registered-arguments.policy"], L ["example.Perform +OLD frontendvm backendvm allow"]);
   (["run"; "qubes"; "policy.d"; "60-registered-arguments.policy"], L ["# nothing"])].
Theorem C40_shadowed_refuted : exists f1 f2,
  register (reg_fs reg_shadow) POLICYPATH_OLD 1000 (reg_call "example.Perform" "frontendvm" "backendvm") "EXAMPLE" = (RegDone, f1) /\
  reg_load f1 = reg_load (reg_fs reg_shadow) /\
  register f1 POLICYPATH_OLD 1000 (reg_call "example.Perform" "othervm" "backendvm") "EXAMPLE" = (RegDone, f2).
Proof. eexists. eexists. repeat (split; [vm_compute; reflexivity|]). vm_compute. reflexivity. Qed.
(** a call for a keyword such as @default has no requested target name in its environment *)
Example C40_example_keyword : register (reg_fs reg_old) POLICYPATH_OLD 1000
  [("QREXEC_REMOTE_DOMAIN", "backendvm"); ("QREXEC_REQUESTED_TARGET_KEYWORD", "default"); ("QREXEC_SERVICE_ARGUMENT", "example.Perform")]
  "EXAMPLE" = (RegRaised EKey, reg_fs reg_old).
Proof. reflexivity. Qed.
