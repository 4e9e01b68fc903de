(** Lemmas about Lint.v *)
From Coq Require Import String Ascii List Bool Arith Lia.
From Verif Require Import Base SysInfo Token Rule FileSys Loader SpecPolicy SpecRule SpecLoader
  RuleProofs TextProofs LoaderProofs LoaderExt Lint SpecLint.
Import ListNotations.
Open Scope string_scope.
Open Scope list_scope.

(** ** Lines *)
Lemma lines_lf_one_aux s : forall cur, has_char NL s = false -> lines_lf_aux s cur = match cur +++ s with EmptyString => [] | x => [x] end.
Proof.
  induction s as [|c s IH]; intros cur H; cbn [lines_lf_aux has_char] in *.
  - rewrite app_nil_s. destruct cur; reflexivity.
  - apply orb_false_iff in H as [Hc H]. rewrite Ascii.eqb_sym in Hc. rewrite Hc, IH by exact H.
    replace ((cur +++ str1 c) +++ s) with (cur +++ String c s); [reflexivity|]. rewrite app_assoc_s. reflexivity.
Qed.
Lemma lines_lf_one s : has_char NL s = false -> s <> "" -> lines_lf s = [s].
Proof. intros H N. unfold lines_lf. rewrite lines_lf_one_aux by exact H. cbn [append]. destruct s; congruence. Qed.
Lemma lines_lf_no_nl_aux s : forall cur l, has_char NL cur = false -> In l (lines_lf_aux s cur) -> has_char NL l = false.
Proof.
  induction s as [|c s IH]; intros cur l Hc H; cbn [lines_lf_aux] in H.
  - destruct cur; [destruct H|]. destruct H as [<-|[]]. exact Hc.
  - destruct (Ascii.eqb c NL) eqn:E.
    + destruct H as [<-|H]; [exact Hc|]. eapply IH; [|exact H]. reflexivity.
    + eapply IH; [|exact H]. rewrite has_char_app, Hc. cbn [orb has_char str1]. rewrite orb_false_r, Ascii.eqb_sym. exact E.
Qed.
Lemma lines_univ_no_nl t l : In l (lines_univ t) -> has_char NL l = false.
Proof. apply lines_lf_no_nl_aux. reflexivity. Qed.
Lemma strip_no_nl l : has_char NL l = false -> has_char NL (strip l) = false.
Proof.
  destruct (strip_spec l) as (b & b' & _ & _ & E & _). intros H. rewrite E, !has_char_app in H.
  apply orb_false_iff in H as [_ H]. apply orb_false_iff in H as [H _]. exact H.
Qed.
Lemma strip_strip l : strip (strip l) = strip l.
Proof.
  destruct (strip_spec l) as (b & b' & B & B' & E & _). rewrite E at 2. rewrite strip_blanks by assumption. reflexivity.
Qed.
Lemma same_strip l : same_lines [strip l] [l].
Proof.
  destruct (strip_spec l) as (b & b' & B & B' & E & _). rewrite E at 2.
  replace (strip l) with ("" +++ strip l +++ "") at 1 by (cbn; apply app_nil_s).
  apply sl_line; [reflexivity|reflexivity|exact B|exact B'|constructor].
Qed.

(** ** Right in itself *)
Lemma rule_fields_file file file' ws r : rule_fields file ws r -> exists r', rule_fields file' ws r'.
Proof. intros H. destruct H. eexists. econstructor; eauto. Qed.
Lemma rule_fields_service file file' s a s' a' sv ar rest r : service_arg s' a' sv ar ->
  rule_fields file (s :: a :: rest) r -> exists r', rule_fields file' (s' :: a' :: rest) r'.
Proof. intros [S A] H. inversion H; subst. eexists. econstructor; eauto. Qed.

Lemma text_fine opens lists legacy file ls rs : text_rules opens lists legacy file ls rs -> Forall fine_line ls.
Proof.
  induction 1; constructor; auto.
  - apply fl_inert. assumption.
  - edestruct (rule_fields_file file "") as (r' & R); [eassumption|]. eapply fl_rule; eauto.
  - eapply fl_include; eauto.
  - eapply fl_include_dir; eauto.
  - eapply fl_include_service; eauto.
  - apply fl_compat; auto.
Qed.
Lemma fine_text opens lists legacy ls : Forall fine_line ls -> Forall (includes_load opens lists legacy) ls ->
  forall file, exists rs, text_rules opens lists legacy file ls rs.
Proof.
  induction ls as [|l ls IH]; intros F I file.
  - exists []. constructor.
  - apply Forall_cons_iff in F as [F1 F]. apply Forall_cons_iff in I as [I1 I].
    destruct (IH F I file) as (rs & R). destruct I1 as (Ii & Id & Is & Ic).
    destruct F1 as [Hin|ws r Ni Nd Hf Hr|p Hf|p Hf|s a p sv ar Hf Hs|Hf].
    + exists rs. apply tr_inert; auto.
    + destruct (rule_fields_file "" file ws r Hr) as (r' & Hr'). exists (r' :: rs). eapply tr_rule; eauto.
    + destruct (Ii p Hf) as (file' & ls' & rs1 & O & T). exists (rs1 ++ rs). eapply tr_include; eauto.
    + destruct (Id p Hf) as (files & rs1 & O & T). exists (rs1 ++ rs). eapply tr_include_dir; eauto.
    + destruct (Is s a p sv ar Hf Hs) as (file' & ls' & rs1 & O & T). exists (rs1 ++ rs). eapply tr_include_service; eauto.
    + destruct (Ic Hf) as (rs1 & O). exists (rs1 ++ rs). eapply tr_compat; eauto.
Qed.
Lemma service_fine opens sv ar file ls rs : service_rules opens sv ar file ls rs -> Forall fine_service_line ls.
Proof.
  induction 1; constructor; auto.
  - apply fs_inert. assumption.
  - edestruct (rule_fields_service file "" (field_of sv) (field_of ar) "*" "*" None None) as (r' & R).
    + split; constructor.
    + eassumption.
    + eapply fs_rule; eauto.
  - eapply fs_include; eauto.
Qed.
Lemma fine_service opens sv ar ls : service_arg (field_of sv) (field_of ar) sv ar ->
  Forall fine_service_line ls -> Forall (service_includes_load opens sv ar) ls ->
  forall file, exists rs, service_rules opens sv ar file ls rs.
Proof.
  intros SA. induction ls as [|l ls IH]; intros F I file.
  - exists []. constructor.
  - apply Forall_cons_iff in F as [F1 F]. apply Forall_cons_iff in I as [I1 I].
    destruct (IH F I file) as (rs & R).
    destruct F1 as [Hin|b l1 l2 src tgt act ps r -> B Bg Hh Sp Sb Hf Hr|b l1 l2 p -> B Bg Sp Sb Hf].
    + exists rs. apply sr_inert; auto.
    + destruct (rule_fields_service "" file _ _ _ _ _ _ _ _ SA Hr) as (r' & Hr'). exists (r' :: rs). eapply sr_rule; eauto.
    + destruct (I1 p) as (file' & ls' & rs1 & O & T); [exists b, l1, l2; repeat split; auto|]. exists (rs1 ++ rs). eapply sr_include; eauto.
Qed.

(** ** Paths *)
Lemma split_slash_include n : has_char "/" n = false -> split_all "/" ("include/" +++ n) = ["include"; n].
Proof. intros H. cbn. rewrite split_all_single by exact H. reflexivity. Qed.
Lemma plain_pure p : p <> "" -> plain_path p -> pure_path p = p /\ bad_key p = false.
Proof.
  intros N [[H D]|(n & -> & H & N0 & N1)].
  - split; [|unfold bad_key; rewrite H; reflexivity].
    unfold pure_path, path_abs, path_parts.
    replace (starts "/" p) with false by (destruct p as [|c p]; [reflexivity|]; cbn [has_char] in H; apply orb_false_iff in H as [Hc _];
      cbn [starts]; rewrite Hc; reflexivity).
    rewrite split_all_single by exact H. cbn [filter].
    destruct (String.eqb_spec p ""); [congruence|]. destruct (String.eqb_spec p "."); [congruence|]. reflexivity.
  - split.
    + unfold pure_path, path_parts. rewrite split_slash_include by exact H. replace (path_abs ("include/" +++ n)) with false by reflexivity.
      cbn [filter]. replace (String.eqb "include" "" || String.eqb "include" ".") with false by reflexivity. cbn [negb].
      destruct (String.eqb_spec n ""); [congruence|]. destruct (String.eqb_spec n "."); [congruence|]. reflexivity.
    + unfold bad_key, count_slash. rewrite split_slash_include by exact H. cbn [length].
      replace (starts "include/" ("include/" +++ n)) with true; [rewrite andb_false_r; reflexivity|].
      symmetry. apply starts_spec. eauto.
Qed.
Lemma open_plain d p : p <> "" -> plain_path p ->
  ld_open (string_loader d) p = match dget d p with None => Err ESyntax | Some c => Ok (p +++ "[in-memory]", lines_lf c) end.
Proof. intros N P. destruct (plain_pure p N P) as [E B]. cbn [string_loader ld_open]. rewrite E, B. reflexivity. Qed.
Lemma word_nonempty l ws w : fields l ws -> In w ws -> w <> "".
Proof. intros F H. apply fields_words in F. rewrite Forall_forall in F. destruct (F w H). assumption. Qed.

(** ** Loading one line *)
Lemma loader_rel d : rel_loader (string_loader d) (string_loader d).
Proof.
  assert (R : forall ls, same_lines ls ls) by (intros; apply same_lines_refl).
  split; [|reflexivity|reflexivity]. intros p. destruct (ld_open (string_loader d) p) as [[f ls]|]; cbn; [|reflexivity]. split; [reflexivity|apply R].
Qed.
Lemma load_strip d fuel file l : load_file fuel (string_loader d) file [strip l] = load_file fuel (string_loader d) file [l].
Proof. apply load_file_ext; [apply loader_rel|apply same_strip]. Qed.
Lemma load_fine d fuel file l rs : load_file fuel (string_loader d) file [l] = Ok rs -> fine_line l.
Proof.
  intros H.
  assert (LS : loader_sound (string_loader d) (fun p file ls => ld_open (string_loader d) p = Ok (file, ls)) (fun _ _ => False) (fun rs => rs = [])).
  { split; auto; [discriminate|]. intros ? ? E. cbn in E. congruence. }
  pose proof (load_file_sound _ _ _ _ LS _ _ _ _ H) as T. apply text_fine in T. inversion T. assumption.
Qed.
Lemma load_empty L fuel file : load_file (S fuel) L file [] = Ok [].
Proof. reflexivity. Qed.
(** a file whose inclusions are all in the dictionary, and empty *)
Lemma load_one d fuel file l :
  (forall p, includes l p -> plain_path p /\ dget d p = Some "") ->
  (forall p, ~ fields l ["!include-dir"; p]) ->
  (fine_line l -> exists rs, load_file (S (S fuel)) (string_loader d) file [l] = Ok rs) /\
  (forall e, load_file (S (S fuel)) (string_loader d) file [l] = Err e -> e = ESyntax).
Proof.
  intros Inc Nd. remember (S fuel) as m eqn:Em. cbn [load_file concatM].
  assert (C : forall x, (exists rs, x = Ok rs :> res (list rule)) \/ x = Err ESyntax /\ ~ fine_line l ->
    (fine_line l -> exists rs, (do a <- x; do b <- Ok []; Ok (a ++ b)) = Ok rs) /\
    (forall e, (do a <- x; do b <- Ok []; Ok (a ++ b)) = Err e -> e = ESyntax)).
  { intros x [[rs ->]|[-> N]]; split; cbn; intros; eauto; try congruence; tauto. }
  apply C. clear C.
  assert (NF : forall ws, fields l ws -> starts "!" (hd "" ws) = true ->
    (fine_line l -> (exists p, ws = ["!include"; p]) \/ (exists s a p sv ar, ws = ["!include-service"; s; a; p] /\ service_arg s a sv ar) \/ ws = ["!compat-4.0"])).
  { intros ws Hws Hb F. apply split_ws_fields in Hws.
    destruct F as [Hin|ws2 r Ni Nd2 Hf Hr|p Hf|p Hf|s a p sv ar Hf Hs|Hf].
    - apply split_ws_fields in Hws. destruct ws as [|w ws]; [discriminate|]. cbn in Hb.
      exfalso. eapply fields_not_inert; eauto. destruct w as [|c w]; [discriminate|]. cbn in Hb |- *. rewrite andb_true_r in *.
      apply Ascii.eqb_eq in Hb as <-. reflexivity.
    - apply split_ws_fields in Hws. destruct ws as [|w ws]; [discriminate|]. cbn in Hb. exfalso. apply Nd2. eapply fields_directive; eauto.
    - apply split_ws_fields in Hf. left. exists p. congruence.
    - exfalso. eapply Nd; eauto.
    - apply split_ws_fields in Hf. right. left. exists s, a, p, sv, ar. split; [congruence|assumption].
    - apply split_ws_fields in Hf. right. right. congruence. }
  destruct (skip_line (strip l)) eqn:Sk.
  { left. exists []. apply file_line_inert. apply skip_inert. exact Sk. }
  destruct (starts "!" (strip l)) eqn:Sb.
  2:{ rewrite file_line_rule.
      - destruct (from_line l file) as [r|e] eqn:E; cbn [bind]; [left; eauto|]. pose proof (from_line_err _ _ _ E). subst e. right. split; [reflexivity|].
        intros F. destruct F as [Hin|ws2 r Ni Nd2 Hf Hr|p Hf|p Hf|s a p sv ar Hf Hs|Hf].
        + apply skip_inert in Hin. congruence.
        + destruct (rule_fields_file "" file ws2 r Hr) as (r' & Hr'). assert (K : from_line l file = Ok r') by (apply from_line_spec; eauto). congruence.
        + apply fields_directive in Hf; [|reflexivity]. apply starts_bang_directive in Hf. congruence.
        + eapply Nd; eauto.
        + apply fields_directive in Hf; [|reflexivity]. apply starts_bang_directive in Hf. congruence.
        + apply fields_directive in Hf; [|reflexivity]. apply starts_bang_directive in Hf. congruence.
      - intros Hin. apply skip_inert in Hin. congruence.
      - intros Hd. apply starts_bang_directive in Hd. congruence. }
  assert (Hf : fields l (split_ws l)) by (apply split_ws_fields; reflexivity).
  destruct (split_ws l) as [|w ws] eqn:Es.
  { exfalso. rewrite <- split_ws_strip in Es. apply starts_bang_directive in Sb. pose proof (directive_not_inert _ Sb) as Ni. apply Ni.
    inversion Hf. apply in_blank. assumption. }
  assert (Hw : starts "!" w = true).
  { rewrite <- split_ws_strip in Es. destruct (strip l) as [|c s] eqn:Ec; [discriminate|].
    cbn [starts] in Sb. rewrite andb_true_r in Sb. apply Ascii.eqb_eq in Sb. subst c.
    unfold split_ws in Es. cbn [split_ws_aux] in Es. replace (is_space "!") with false in Es by reflexivity.
    assert (G : forall s cur, starts "!" cur = true -> starts "!" (hd "" (split_ws_aux s cur)) = true).
    { clear. induction s as [|c s IH]; intros cur H; cbn [split_ws_aux].
      - destruct cur; [discriminate|]. exact H.
      - destruct (is_space c); [destruct cur; [discriminate|exact H]|]. apply IH. destruct cur as [|x cur]; [discriminate|]. exact H. }
    specialize (G s ("" +++ str1 "!") eq_refl). rewrite Es in G. exact G. }
  rewrite (file_line_directive _ _ _ _ _ w ws Hf Hw).
  specialize (NF _ Hf Hw).
  destruct (String.eqb_spec w "!include") as [->|N1].
  { destruct ws as [|p [|]]; try (right; split; [reflexivity|]; let F := fresh in intros F; destruct (NF F) as [(?p9 & ?E9)|[(?s9 & ?a9 & ?p9 & ?sv9 & ?ar9 & ?E9 & _)|?E9]]; congruence).
    destruct (Inc p) as [P D]; [left; exact Hf|]. rewrite open_plain, D; [|eapply word_nonempty; [exact Hf|cbn; auto]|exact P].
    left. subst m. cbn. eauto. }
  destruct (String.eqb_spec w "!include-dir") as [->|N2].
  { destruct ws as [|p [|]]; try (right; split; [reflexivity|]; let F := fresh in intros F; destruct (NF F) as [(?p9 & ?E9)|[(?s9 & ?a9 & ?p9 & ?sv9 & ?ar9 & ?E9 & _)|?E9]]; congruence).
    exfalso. eapply Nd; eauto. }
  destruct (String.eqb_spec w "!include-service") as [->|N3].
  { destruct ws as [|s [|a [|p [|]]]]; try (right; split; [reflexivity|]; let F := fresh in intros F; destruct (NF F) as [(?p9 & ?E9)|[(?s9 & ?a9 & ?p9 & ?sv9 & ?ar9 & ?E9 & _)|?E9]]; congruence).
    destruct (Inc p) as [P D]; [right; eauto|]. unfold include_service.
    destruct (validate_service_and_argument (Some s) (Some a)) as [[sv ar]|e] eqn:V; cbn [bind].
    - rewrite open_plain, D; [|eapply word_nonempty; [exact Hf|cbn; auto]|exact P]. left. subst m. cbn. eauto.
    - pose proof (validate_err _ _ _ V). subst e. right. split; [reflexivity|]. intros F.
      destruct (NF F) as [(p0 & E)|[(s0 & a0 & p0 & sv & ar & E & SA)|E]]; try discriminate.
      apply service_arg_validate in SA. congruence. }
  destruct (String.eqb_spec w "!compat-4.0") as [->|N4].
  { destruct ws as [|p ws]; [left; cbn; eauto|]. right. split; [reflexivity|]. intros F.
    destruct (NF F) as [(p0 & E)|[(s0 & a0 & p0 & sv & ar & E & SA)|E]]; discriminate. }
  right. split; [reflexivity|]. intros F. destruct (NF F) as [(p0 & E)|[(s0 & a0 & p0 & sv & ar & E & SA)|E]]; congruence.
Qed.

(** ** One line of a service file *)
Lemma fine_service_view l : skip_line (strip l) = false ->
  fine_service_line l <->
  (starts "!" (compat_subst (strip l)) = false /\ exists src tgt act ps r,
     split_ws (compat_subst (strip l)) = src :: tgt :: act :: ps /\ rule_fields "" ("*" :: "*" :: src :: tgt :: act :: ps) r) \/
  (starts "!" (compat_subst (strip l)) = true /\ exists p, split_ws (compat_subst (strip l)) = ["!include"; p]).
Proof.
  intros Sk. split.
  - intros [Hin|b l1 l2 src tgt act ps r -> B Bg Hh Sp Sb Hf Hr|b l1 l2 p -> B Bg Sp Sb Hf].
    + apply skip_inert in Hin. congruence.
    + destruct (service_line_view b l1 B Bg) as (b' & B' & Ec & Es & Ew). apply compat_subst_spec in Sp. subst l2.
      left. rewrite Es, Ew. split; [exact Sb|]. exists src, tgt, act, ps, r. split; [apply split_ws_fields; exact Hf|exact Hr].
    + destruct (service_line_view b l1 B Bg) as (b' & B' & Ec & Es & Ew). apply compat_subst_spec in Sp. subst l2.
      right. rewrite Es, Ew. split; [exact Sb|]. exists p. apply split_ws_fields. exact Hf.
  - destruct (strip_begins_split l Sk) as (b & b' & B & B' & E & Bg & Hh).
    assert (Bg2 : begins (strip l +++ b')) by (apply begins_app; exact Bg).
    destruct (service_line_view b (strip l +++ b') B Bg2) as (b2 & B2 & Ec & Es & Ew). rewrite <- E in Ec, Es, Ew.
    assert (Hh2 : starts "#" (strip l +++ b') = false).
    { rewrite (starts1_app "#"); [exact Hh|]. destruct Bg as (c & s & -> & _). discriminate. }
    rewrite Es, Ew. intros [[Sb (src & tgt & act & ps & r & Hw & Hr)]|[Sb (p & Hw)]].
    + eapply fs_rule with (b := b) (l1 := strip l +++ b') (l2 := compat_subst (strip l +++ b')); eauto.
      * apply compat_subst_spec. reflexivity.
      * apply split_ws_fields. exact Hw.
    + eapply fs_include with (b := b) (l1 := strip l +++ b') (l2 := compat_subst (strip l +++ b')); eauto.
      * apply compat_subst_spec. reflexivity.
      * apply split_ws_fields. exact Hw.
Qed.
Lemma service_one d fuel file l :
  (forall p, skip_line (strip l) = false -> starts "!" (compat_subst (strip l)) = true -> split_ws (compat_subst (strip l)) = ["!include"; p] -> plain_path p /\ dget d p = Some "") ->
  (fine_service_line l -> exists rs, load_service (S (S fuel)) (ld_open (string_loader d)) None None file [l] = Ok rs) /\
  (forall rs, load_service (S (S fuel)) (ld_open (string_loader d)) None None file [l] = Ok rs -> fine_service_line l) /\
  (forall e, load_service (S (S fuel)) (ld_open (string_loader d)) None None file [l] = Err e -> e = ESyntax).
Proof.
  intros Inc. remember (S fuel) as m eqn:Em. cbn [load_service concatM].
  assert (C : forall x, (exists rs, x = Ok rs :> res (list rule)) /\ fine_service_line l \/ x = Err ESyntax /\ ~ fine_service_line l ->
    (fine_service_line l -> exists rs, (do a <- x; do b <- Ok []; Ok (a ++ b)) = Ok rs) /\
    (forall rs, (do a <- x; do b <- Ok []; Ok (a ++ b)) = Ok rs -> fine_service_line l) /\
    (forall e, (do a <- x; do b <- Ok []; Ok (a ++ b)) = Err e -> e = ESyntax)).
  { intros x [[[rs ->] F]|[-> N]]; repeat split; cbn; intros; eauto; try congruence; tauto. }
  apply C. clear C. unfold service_line.
  destruct (skip_line (strip l)) eqn:Sk.
  { left. split; [eauto|]. apply fs_inert, skip_inert. exact Sk. }
  specialize (fine_service_view l Sk) as V. specialize (fun p => Inc p eq_refl).
  destruct (starts "!" (compat_subst (strip l))) eqn:Sb.
  - assert (NF : fine_service_line l -> exists p, split_ws (compat_subst (strip l)) = ["!include"; p]).
    { intros F. apply V in F as [[? _]|[_ ?]]; [discriminate|assumption]. }
    destruct (split_ws (compat_subst (strip l))) as [|w ws] eqn:Es; [right; split; [reflexivity|]; intros F; destruct (NF F); discriminate|].
    destruct (String.eqb_spec w "!include") as [->|N]; [|right; split; [reflexivity|]; intros F; destruct (NF F) as (p & E); congruence].
    destruct ws as [|p [|]]; try (right; split; [reflexivity|]; intros F; destruct (NF F) as (? & E); congruence).
    destruct (Inc p eq_refl eq_refl) as [P D]. cbn [validate_service_and_argument bind].
    left. split; [|apply V; right; eauto].
    change (validate_service_and_argument None None) with (Ok (@None string, @None string)). cbn [bind].
    rewrite open_plain, D; [subst m; cbn; eauto| |exact P]. apply split_ws_fields in Es. eapply word_nonempty; [exact Es|cbn; auto].
  - destruct (from_line_service None None (compat_subst (strip l)) file) as [r|e] eqn:E; cbn [bind].
    + left. split; [eauto|]. apply V. left. split; [reflexivity|].
      apply (from_line_service_spec None None _ _ _ (no_comma _)) in E as (src & tgt & act & ps & Hf & Hr).
      destruct (rule_fields_file file "" _ _ Hr) as (r' & Hr'). exists src, tgt, act, ps, r'. split; [apply split_ws_fields; exact Hf|exact Hr'].
    + assert (e = ESyntax) as ->.
      { unfold from_line_service in E. repeat match type of E with context [match ?x with _ => _ end] => destruct x; try (injection E as <-; reflexivity) end; eauto using make_rule_err. }
      right. split; [reflexivity|]. intros F. apply V in F as [[_ (src & tgt & act & ps & r & Hw & Hr)]|[? _]]; [|discriminate].
      destruct (rule_fields_file "" file _ _ Hr) as (r' & Hr').
      assert (K : from_line_service None None (compat_subst (strip l)) file = Ok r'); [|congruence].
      apply (from_line_service_spec None None _ _ _ (no_comma _)). exists src, tgt, act, ps. split; [apply split_ws_fields; exact Hw|exact Hr'].
Qed.
