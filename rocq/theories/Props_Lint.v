(** Property C89: qubes-policy-lint.

    Statements use SpecLint.v and SpecLoader.v. *)
From Coq Require Import String Ascii List Bool Arith Lia.
From Verif Require Import Base SysInfo Token Rule FileSys Loader SpecPolicy SpecRule SpecLoader
  RuleProofs TextProofs LoaderProofs LoaderExt SelectProofs Props_Loader Lint SpecLint LintProofs.
Import ListNotations.
Open Scope string_scope.
Open Scope list_scope.

Lemma skip_false_nonempty s : skip_line s = false -> s <> "".
Proof. intros H ->. discriminate. Qed.
(** ** One line of a policy file *)
Lemma main_line d l : dget d "__main__" = Some (strip l) -> has_char NL l = false -> skip_line (strip l) = false ->
  string_policy d = load_file 4 (string_loader d) "__main__[in-memory]" [l].
Proof.
  intros D N Sk. unfold string_policy. rewrite D, lines_lf_one; [apply load_strip|apply strip_no_nl; exact N|apply skip_false_nonempty; exact Sk].
Qed.
Lemma main_empty d : dget d "__main__" = Some "" -> string_policy d = Ok [].
Proof. intros D. unfold string_policy. rewrite D. reflexivity. Qed.
Lemma bind_tt (x : res (list rule)) : (do _ <- x; Ok tt) = Ok tt <-> exists rs, x = Ok rs.
Proof. destruct x; cbn; split; intros H; eauto; try discriminate. destruct H; discriminate. Qed.
Lemma bind_tt_err (x : res (list rule)) e : (do _ <- x; Ok tt) = Err e <-> x = Err e.
Proof. destruct x; cbn; split; congruence. Qed.

(** what the dictionary is *)
Definition lint_dict (line p : string) : list (string * string) :=
  if String.eqb p "" then [("__main__", line)] else dset [("__main__", line)] p "".
Lemma parse_policy line p : parse_string_policy line p false = string_policy (lint_dict line p).
Proof. unfold parse_string_policy, lint_dict. destruct (String.eqb p ""); reflexivity. Qed.
Lemma dict_main line p : p <> "__main__" -> dget (lint_dict line p) "__main__" = Some line.
Proof.
  intros N. unfold lint_dict. destruct (String.eqb_spec p ""); [reflexivity|]. rewrite dget_dset_other by congruence. reflexivity.
Qed.
Lemma dict_path line p : p <> "" -> dget (lint_dict line p) p = Some "".
Proof. intros N. unfold lint_dict. destruct (String.eqb_spec p ""); [congruence|]. apply dget_dset_same. Qed.

Lemma parse_fine l p rs : has_char NL l = false -> skip_line (strip l) = false -> p <> "__main__" ->
  parse_string_policy (strip l) p false = Ok rs -> fine_line l.
Proof.
  intros N Sk Np H. rewrite parse_policy, (main_line _ l) in H; auto using dict_main. apply load_fine in H. exact H.
Qed.
Lemma parse_plain l p : has_char NL l = false -> skip_line (strip l) = false ->
  (forall q, includes l q -> plain_path q /\ q = p) -> (p = "__main__" -> fine_line l) -> (forall q, ~ fields l ["!include-dir"; q]) ->
  (fine_line l -> exists rs, parse_string_policy (strip l) p false = Ok rs) /\
  (forall e, parse_string_policy (strip l) p false = Err e -> e = ESyntax).
Proof.
  intros N Sk Inc Pm Nd. rewrite parse_policy. destruct (string_dec p "__main__") as [->|Np].
  - rewrite main_empty by (apply dict_path; discriminate). split; [eauto|discriminate].
  - rewrite (main_line _ l) by auto using dict_main. apply load_one; [|exact Nd].
    intros q Hq. destruct (Inc q Hq) as [P ->]. split; [exact P|]. apply dict_path.
    destruct Hq as [Hq|(s & a & Hq)]; eapply word_nonempty; [exact Hq| |exact Hq|]; cbn; auto.
Qed.
Lemma words_of l : skip_line (strip l) = false -> starts "!" (strip l) = true ->
  exists w ws, split_ws (strip l) = w :: ws /\ fields l (w :: ws).
Proof.
  intros Sk Sb. assert (Hf : fields l (split_ws l)) by (apply split_ws_fields; reflexivity). rewrite split_ws_strip.
  destruct (split_ws l) as [|w ws]; [|eauto]. exfalso. inversion Hf. apply starts_bang_directive in Sb.
  eapply directive_not_inert; [exact Sb|]. apply in_blank. assumption.
Qed.
Lemma includes_of l ws p : fields l ws -> includes l p -> ws = ["!include"; p] \/ exists s a, ws = ["!include-service"; s; a; p].
Proof.
  intros Hf [H|(s & a & H)]; apply split_ws_fields in Hf, H; [left|right; exists s, a]; congruence.
Qed.
Lemma no_includes l p : starts "!" (strip l) = false -> ~ includes l p.
Proof.
  intros Sb [H|(s & a & H)]; apply fields_directive in H; try reflexivity; apply starts_bang_directive in H; congruence.
Qed.

Lemma lint_line_ok l : has_char NL l = false -> lint_line false l = Ok tt ->
  fine_line l \/ exists s a, fields l ["!include-service"; s; a; "__main__"].
Proof.
  intros N H. unfold lint_line in H. destruct (skip_line (strip l)) eqn:Sk; [left; apply fl_inert, skip_inert; exact Sk|].
  destruct (starts "!" (strip l)) eqn:Sb.
  2:{ apply bind_tt in H as (rs & H). left. eapply parse_fine; eauto. discriminate. }
  destruct (words_of l Sk Sb) as (w & ws & Es & Hf). rewrite Es in H.
  destruct (String.eqb_spec w "!include-service") as [->|N1].
  { apply bind_tt in H as (rs & H).
    destruct ws as [|s [|a [|p [|]]]]; try (left; eapply parse_fine; [exact N|exact Sk| |exact H]; discriminate).
    destruct (string_dec p "__main__") as [->|Np]; [right; eauto|]. left. eapply parse_fine; eauto. }
  destruct (String.eqb_spec w "!include") as [->|N2].
  { apply bind_tt in H as (rs & H).
    destruct ws as [|p [|]]; try (left; eapply parse_fine; [exact N|exact Sk| |exact H]; discriminate).
    left. eapply fl_include; eauto. }
  destruct (String.eqb_spec w "!include-dir") as [->|N3].
  { destruct ws as [|p [|]]; try discriminate. left. eapply fl_include_dir; eauto. }
  apply bind_tt in H as (rs & H). left. eapply parse_fine; eauto. discriminate.
Qed.
Lemma lint_line_plain l : has_char NL l = false -> (forall p, includes l p -> plain_path p) ->
  (fine_line l -> lint_line false l = Ok tt) /\ (forall e, lint_line false l = Err e -> e = ESyntax).
Proof.
  intros N Inc. unfold lint_line. destruct (skip_line (strip l)) eqn:Sk; [split; [reflexivity|discriminate]|].
  assert (P : forall p, (forall q, includes l q -> q = p) -> (p = "__main__" -> fine_line l \/ exists s a, fields l ["!include-service"; s; a; "__main__"]) ->
    (forall q, ~ fields l ["!include-dir"; q]) ->
    (fine_line l -> (do _ <- parse_string_policy (strip l) p false; Ok tt) = Ok tt) /\
    (forall e, (do _ <- parse_string_policy (strip l) p false; Ok tt) = Err e -> e = ESyntax)).
  { intros p Ip Pm Nd. destruct (string_dec p "__main__") as [->|Np].
    - rewrite parse_policy, main_empty by (apply dict_path; discriminate). split; [reflexivity|discriminate].
    - destruct (parse_plain l p N Sk) as [A B]; auto; [intros; congruence|]. split.
      + intros F. apply bind_tt. auto.
      + intros e E. apply bind_tt_err in E. auto. }
  destruct (starts "!" (strip l)) eqn:Sb.
  2:{ apply P; [|discriminate|].
      - intros q Hq. exfalso. eapply no_includes; eauto.
      - intros q Hq. apply fields_directive in Hq; [|reflexivity]. apply starts_bang_directive in Hq. congruence. }
  destruct (words_of l Sk Sb) as (w & ws & Es & Hf). rewrite Es.
  assert (Nd : w <> "!include-dir" -> forall q, ~ fields l ["!include-dir"; q]).
  { intros Nw q Hq. apply split_ws_fields in Hq, Hf. congruence. }
  assert (Io : forall q, includes l q -> w :: ws = ["!include"; q] \/ exists s a, w :: ws = ["!include-service"; s; a; q]).
  { intros q. apply includes_of. exact Hf. }
  destruct (String.eqb_spec w "!include-service") as [->|N1].
  { apply P; [|intros E|apply Nd; discriminate].
    - intros q Hq. destruct (Io q Hq) as [E|(s & a & E)]; [discriminate|]. injection E as ->. reflexivity.
    - right. destruct ws as [|s [|a [|p [|]]]]; try discriminate. subst p. eauto. }
  destruct (String.eqb_spec w "!include") as [->|N2].
  { apply P; [|intros E|apply Nd; discriminate].
    - intros q Hq. destruct (Io q Hq) as [E|(s & a & E)]; [|discriminate]. injection E as ->. reflexivity.
    - left. destruct ws as [|p [|]]; try discriminate. eapply fl_include; eauto. }
  destruct (String.eqb_spec w "!include-dir") as [->|N3].
  { destruct ws as [|p [|]]; split; try reflexivity; try discriminate.
    - intros F. exfalso. revert F. apply split_ws_fields in Hf. intros F.
      destruct F as [Hin|ws2 r Ni Nd2 Hf2 Hr|p Hf2|p Hf2|s a p sv ar Hf2 Hs|Hf2]; try (apply split_ws_fields in Hf2; congruence).
      + apply skip_inert in Hin. congruence.
      + apply Nd2. apply starts_bang_directive. exact Sb.
    - intros e E. congruence.
    - intros F. exfalso. revert F. apply split_ws_fields in Hf. intros F.
      destruct F as [Hin|ws2 r Ni Nd2 Hf2 Hr|p2 Hf2|p2 Hf2|s2 a2 p2 sv2 ar2 Hf2 Hs|Hf2]; try (apply split_ws_fields in Hf2; congruence).
      + apply skip_inert in Hin. congruence.
      + apply Nd2. apply starts_bang_directive. exact Sb.
    - intros e E. congruence. }
  apply P; [|discriminate|auto].
  intros q Hq. destruct (Io q Hq) as [E|(s & a & E)]; congruence.
Qed.

(** ** All lines *)
Lemma lint_lines_In svc ls : forall n errs k, lint_lines svc n ls = Ok errs ->
  In k errs <-> exists i l, k = n + i /\ nth_error ls i = Some l /\ lint_line svc l = Err ESyntax.
Proof.
  induction ls as [|x ls IH]; intros n errs k H; cbn [lint_lines] in H.
  - injection H as <-. split; [intros []|]. intros (i & l & _ & E & _). destruct i; discriminate.
  - assert (Step : forall errs', lint_lines svc (S n) ls = Ok errs' ->
      ((exists i l, k = S n + i /\ nth_error ls i = Some l /\ lint_line svc l = Err ESyntax) <-> In k errs')) by (intros errs' H'; symmetry; apply IH; exact H').
    destruct (lint_line svc x) as [[]|e] eqn:E.
    + rewrite <- (Step _ H). split.
      * intros (i & l & -> & Hl & Hx). exists (S i), l. repeat split; auto. lia.
      * intros (i & l & -> & Hl & Hx). destruct i as [|i]; [cbn in Hl; injection Hl as <-; congruence|]. exists i, l. repeat split; auto. lia.
    + assert (exists errs', e = ESyntax /\ lint_lines svc (S n) ls = Ok errs' /\ errs = n :: errs') as (errs' & -> & H' & ->).
      { destruct e; try discriminate. destruct (lint_lines svc (S n) ls) as [r|]; [|discriminate]. injection H as <-. eauto. }
      cbn [In]. rewrite <- (Step _ H'). split.
      * intros [<-|(i & l & -> & Hl & Hx)]; [exists 0, x; repeat split; auto; lia|]. exists (S i), l. repeat split; auto. lia.
      * intros (i & l & -> & Hl & Hx). destruct i as [|i]; [left; lia|]. right. exists i, l. repeat split; auto. lia.
Qed.
Lemma lint_lines_total svc ls : (forall l e, In l ls -> lint_line svc l = Err e -> e = ESyntax) -> forall n, exists errs, lint_lines svc n ls = Ok errs.
Proof.
  induction ls as [|x ls IH]; intros H n; cbn [lint_lines]; [eauto|].
  destruct (IH (fun l e Hl => H l e (or_intror Hl)) (S n)) as (errs & E). rewrite E.
  destruct (lint_line svc x) as [[]|e] eqn:Ex; [eauto|]. rewrite (H x e (or_introl eq_refl) Ex). cbn. eauto.
Qed.
Lemma lint_lines_ok svc ls n : lint_lines svc n ls = Ok [] -> forall l, In l ls -> lint_line svc l = Ok tt.
Proof.
  revert n. induction ls as [|x ls IH]; intros n H l Hl; [destruct Hl|]. cbn [lint_lines] in H.
  destruct (lint_line svc x) as [[]|e] eqn:E.
  - destruct Hl as [<-|Hl]; [exact E|]. eapply IH; eauto.
  - destruct e; try discriminate. destruct (lint_lines svc (S n) ls); discriminate.
Qed.
Lemma lint_text_lines svc text errs : lint_text svc text = Ok errs -> utf8_valid text = true /\ lint_lines svc 1 (lines_univ text) = Ok errs.
Proof. unfold lint_text. destruct (utf8_valid text); [auto|discriminate]. Qed.
Lemma lint_line_cases svc text errs n : lint_text svc text = Ok errs ->
  In n errs <-> exists l, line_no text n l /\ lint_line svc l = Err ESyntax.
Proof.
  intros H. apply lint_text_lines in H as [_ H]. rewrite (lint_lines_In _ _ _ _ n H). split.
  - intros (i & l & -> & Hl & E). exists l. split; [exists i; auto|exact E].
  - intros (l & (k & -> & Hl) & E). exists k, l. auto.
Qed.
Lemma line_no_nl text n l : line_no text n l -> has_char NL l = false.
Proof. intros (k & _ & H). apply nth_error_In in H. eapply lines_univ_no_nl. exact H. Qed.
Lemma lint_line_reported svc text errs n l : lint_text svc text = Ok errs -> line_no text n l -> lint_line svc l <> Ok tt -> In n errs.
Proof.
  intros H Hl Nok. apply (lint_line_cases _ _ _ n H). exists l. split; [exact Hl|].
  destruct (lint_line svc l) as [[]|e] eqn:E; [congruence|]. f_equal.
  apply lint_text_lines in H as [_ H]. destruct Hl as (k & -> & Hk). apply nth_error_In in Hk. clear k Nok. revert H E Hk.
  generalize (lines_univ text) 1. intros ls. revert errs. induction ls as [|x ls IH]; intros errs m H E Hk; [destruct Hk|].
  cbn [lint_lines] in H. destruct Hk as [->|Hk].
  - rewrite E in H. destruct e; try discriminate. reflexivity.
  - destruct (lint_line svc x) as [[]|e']; [eapply IH; eauto|]. destruct e'; try discriminate.
    destruct (lint_lines svc (S m) ls) eqn:E2; [|discriminate]. eapply IH; eauto.
Qed.

(** C89: every faulty line of a policy file is reported *)
Theorem C89_faults_reported text errs n l : lint_text false text = Ok errs -> line_no text n l ->
  ~ fine_line l -> (forall s a, ~ fields l ["!include-service"; s; a; "__main__"]) -> In n errs.
Proof.
  intros H Hl Nf Nm. eapply lint_line_reported; eauto. intros E. apply lint_line_ok in E; [|eapply line_no_nl; exact Hl].
  destruct E as [F|(s & a & F)]; [auto|eapply Nm; eauto].
Qed.
(** ... and nothing else, for inclusions written in the usual way *)
Theorem C89_only_faults_partial text errs n : lint_text false text = Ok errs -> In n errs ->
  exists l, line_no text n l /\ ((forall p, includes l p -> plain_path p) -> ~ fine_line l).
Proof.
  intros H Hn. apply (lint_line_cases _ _ _ n H) in Hn as (l & Hl & E). exists l. split; [exact Hl|].
  intros P F. destruct (lint_line_plain l) as [A _]; [eapply line_no_nl; exact Hl|exact P|]. rewrite (A F) in E. discriminate.
Qed.
(** ... and the linter does not crash *)
Theorem C89_total text : utf8_valid text = true ->
  (forall l p, In l (lines_univ text) -> includes l p -> plain_path p) -> exists errs, lint_text false text = Ok errs.
Proof.
  intros U P. unfold lint_text. rewrite U. apply lint_lines_total. intros l e Hl E.
  destruct (lint_line_plain l) as [_ B]; eauto. eapply lines_univ_no_nl; eauto.
Qed.

(** ** Linter and policy daemon: a policy all whose files pass the linter is loaded, if what the
    files include is there and can be loaded ... *)
Lemma chosen_rules_all f legacy sel : (forall d n, In (d, n) sel -> exists ls rs, file_lines f (d ++ [n]) ls /\ file_rules f legacy d (path_str (d ++ [n])) ls rs) ->
  exists rs, chosen_rules f legacy sel rs.
Proof.
  induction sel as [|[d n] sel IH]; intros H; [exists []; constructor|].
  destruct IH as (rs & R); [intros; apply H; right; assumption|]. destruct (H d n (or_introl eq_refl)) as (ls & rs1 & Hl & Hr).
  exists (rs1 ++ rs). econstructor; eauto.
Qed.
Theorem C89_clean_loads f legacy dirs sel : wf_fs f -> chosen f dirs sel ->
  (forall d n, In (d, n) sel -> exists text, fget f (d ++ [n]) = Some (NFile (Some text)) /\ lint_text false text = Ok [] /\
     forall l, In l (lines_univ text) -> includes_load (opens_at f d) (lists_at f d) (legacy_policy f legacy) l /\
       forall s a, ~ fields l ["!include-service"; s; a; "__main__"]) ->
  exists fuel rs, load_policy f legacy fuel dirs = Ok rs.
Proof.
  intros W C H. assert (exists rs, chosen_rules f legacy sel rs) as (rs & R).
  { apply chosen_rules_all. intros d n Hin. destruct (H d n Hin) as (t & Ht & Lt & Hi). apply lint_text_lines in Lt as [U Lt].
    exists (lines_univ t).
    destruct (fine_text (opens_at f d) (lists_at f d) (legacy_policy f legacy) (lines_univ t)) with (file := path_str (d ++ [n])) as (rs & T).
    - apply Forall_forall. intros l Hl. pose proof (lint_lines_ok _ _ _ Lt l Hl) as E. apply lint_line_ok in E; [|eapply lines_univ_no_nl; exact Hl].
      destruct E as [F|(s & a & F)]; [exact F|]. destruct (Hi l Hl) as [_ K]. exfalso. eapply K; eauto.
    - apply Forall_forall. intros l Hl. apply Hi. exact Hl.
    - exists rs. split; [exists t; auto|exact T]. }
  assert (P : policy_of f legacy dirs rs) by (exists sel; auto). apply load_policy_spec in P as (fuel & P); eauto.
Qed.
(** ... and a policy with a file in which the linter finds a fault is not *)
Lemma chosen_rules_In f legacy sel rs d n : chosen_rules f legacy sel rs -> In (d, n) sel ->
  exists ls rs1, file_lines f (d ++ [n]) ls /\ file_rules f legacy d (path_str (d ++ [n])) ls rs1.
Proof. induction 1; intros Hin; [destruct Hin|]. destruct Hin as [E|Hin]; [injection E as -> ->; eauto|auto]. Qed.
Theorem C89_fault_refused f legacy dirs sel d n text errs : wf_fs f -> chosen f dirs sel -> In (d, n) sel ->
  fget f (d ++ [n]) = Some (NFile (Some text)) -> lint_text false text = Ok errs -> errs <> [] ->
  (forall l p, In l (lines_univ text) -> includes l p -> plain_path p) ->
  forall fuel, exists e, load_policy f legacy fuel dirs = Err e.
Proof.
  intros W C Hin Ht Lt Ne P fuel. destruct (load_policy f legacy fuel dirs) as [rs|e] eqn:E; [|eauto]. exfalso.
  destruct errs as [|m errs]; [congruence|].
  destruct (C89_only_faults_partial text _ m Lt (or_introl eq_refl)) as (l & Hl & Nf). destruct Hl as (k & -> & Hk). apply nth_error_In in Hk. apply Nf; [eauto|].
  assert (Pol : policy_of f legacy dirs rs) by (apply load_policy_spec; eauto).
  destruct Pol as (sel' & C' & R'). assert (Hin' : In (d, n) sel') by (apply C'; apply C; exact Hin).
  destruct (chosen_rules_In _ _ _ _ _ _ R' Hin') as (ls & rs1 & (c & Hc & _ & ->) & T). rewrite Ht in Hc. injection Hc as <-.
  apply text_fine in T. rewrite Forall_forall in T. auto.
Qed.

(** ** Files included with !include-service *)
Definition service_main : string := "!include-service * * inc".
Definition service_dict (line p : string) : list (string * string) :=
  if String.eqb p "" then [("__main__", service_main); ("inc", line)] else dset [("__main__", service_main); ("inc", line)] p "".
Lemma parse_service line p : parse_string_policy line p true = string_policy (service_dict line p).
Proof. unfold parse_string_policy, service_dict. destruct (String.eqb p ""); reflexivity. Qed.
Lemma sdict_other line p k c : p <> k -> dget [("__main__", service_main); ("inc", line)] k = Some c -> dget (service_dict line p) k = Some c.
Proof. intros N H. unfold service_dict. destruct (String.eqb_spec p ""); [exact H|]. rewrite dget_dset_other by congruence. exact H. Qed.
Lemma sdict_path line p : p <> "" -> dget (service_dict line p) p = Some "".
Proof. intros N. unfold service_dict. destruct (String.eqb_spec p ""); [congruence|]. apply dget_dset_same. Qed.
Lemma load_main d c : dget d "__main__" = Some service_main -> dget d "inc" = Some c ->
  string_policy d = do a <- load_service 3 (ld_open (string_loader d)) None None "inc[in-memory]" (lines_lf c); Ok (a ++ []).
Proof.
  intros Dm Di. unfold string_policy. rewrite Dm. replace (lines_lf service_main) with [service_main] by reflexivity.
  remember 3 as m. cbn [load_file concatM].
  rewrite (file_line_directive _ _ _ _ service_main "!include-service" ["*"; "*"; "inc"]); [|apply split_ws_fields; reflexivity|reflexivity].
  replace (String.eqb "!include-service" "!include") with false by reflexivity.
  replace (String.eqb "!include-service" "!include-dir") with false by reflexivity.
  replace (String.eqb "!include-service" "!include-service") with true by reflexivity.
  unfold include_service. replace (validate_service_and_argument (Some "*") (Some "*")) with (Ok (@None string, @None string)) by reflexivity.
  cbn [bind]. rewrite open_plain; [|discriminate|left; split; [reflexivity|discriminate]]. rewrite Di. reflexivity.
Qed.
Lemma main_inc d l : dget d "__main__" = Some service_main -> dget d "inc" = Some (strip l) ->
  has_char NL l = false -> skip_line (strip l) = false ->
  string_policy d = do a <- load_service 3 (ld_open (string_loader d)) None None "inc[in-memory]" [l]; Ok (a ++ []).
Proof.
  intros Dm Di N Sk. rewrite (load_main d _ Dm Di), lines_lf_one; [|apply strip_no_nl; exact N|apply skip_false_nonempty; exact Sk].
  rewrite (load_service_ext 3 _ (ld_open (string_loader d)) None None "inc[in-memory]" [strip l] [l]); [reflexivity| |apply same_strip].
  intros p. apply loader_rel.
Qed.
Lemma inc_empty d : dget d "__main__" = Some service_main -> dget d "inc" = Some "" -> string_policy d = Ok [].
Proof. intros Dm Di. rewrite (load_main d _ Dm Di). reflexivity. Qed.

Lemma fields_no_char c s ws : fields s ws -> is_space c = false -> Forall (fun w => has_char c w = false) ws -> has_char c s = false.
Proof.
  intros H Sc. assert (B : forall b, sforall is_space b = true -> has_char c b = false).
  { intros b Hb. destruct (has_char c b) eqn:E; [|reflexivity]. rewrite sforall_has in Hb. rewrite (Hb c E) in Sc. discriminate. }
  induction H as [b Hb|b w s ws Hb Nw Hw Hs Hf IH]; intros F; [auto|].
  apply Forall_cons_iff in F as [F1 F]. rewrite !has_char_app, (B b Hb), F1, (IH F). reflexivity.
Qed.
Lemma legacy_same s : has_char "$" s = false -> has_char "," s = false -> legacy_spelling s s.
Proof.
  induction s as [|c s IH]; intros Hd Hc; [constructor|]. cbn [has_char] in Hd, Hc.
  apply orb_false_iff in Hd as [Hd1 Hd]. apply orb_false_iff in Hc as [Hc1 Hc].
  apply ls_char; auto; intros ->; discriminate.
Qed.
Lemma compat_bang s : starts "!" s = true -> starts "!" (compat_subst s) = true.
Proof.
  intros H. destruct s as [|c s]; [discriminate|]. cbn [starts] in H. rewrite andb_true_r in H. apply Ascii.eqb_eq in H. subst c.
  destruct (legacy_total _ s (le_n _)) as (t & Ht).
  assert (L : legacy_spelling (String "!" s) (String "!" t)) by (apply ls_char; [discriminate|discriminate|exact Ht]).
  apply compat_subst_spec in L. rewrite L. reflexivity.
Qed.
Lemma service_includes_split l p : skip_line (strip l) = false -> starts "!" (compat_subst (strip l)) = true -> split_ws (compat_subst (strip l)) = ["!include"; p] -> service_includes l p.
Proof.
  intros Sk Sb E. destruct (strip_begins_split l Sk) as (b & b' & B & B' & El & Bg & Hh).
  assert (Bg2 : begins (strip l +++ b')) by (apply begins_app; exact Bg).
  destruct (service_line_view b (strip l +++ b') B Bg2) as (b2 & B2 & Ec & Es & Ew). rewrite <- El in Ec, Es, Ew.
  exists b, (strip l +++ b'), (compat_subst (strip l +++ b')). repeat split; auto.
  - apply compat_subst_spec. reflexivity.
  - congruence.
  - apply split_ws_fields. congruence.
Qed.
(** an !include whose path has no special character is the same in both spellings *)
Lemma include_fine l p : skip_line (strip l) = false -> fields l ["!include"; p] -> has_char "$" p = false -> has_char "," p = false ->
  fine_service_line l.
Proof.
  intros Sk Hf Hd Hc. apply fine_service_view; [exact Sk|]. right.
  assert (E : compat_subst (strip l) = strip l).
  { apply compat_subst_spec. apply legacy_same.
    - assert (H : has_char "$" l = false) by (eapply fields_no_char; [exact Hf|reflexivity|repeat constructor; auto]).
      destruct (strip_spec l) as (b & b' & _ & _ & E & _). rewrite E, !has_char_app in H.
      apply orb_false_iff in H as [_ H]. apply orb_false_iff in H as [H _]. exact H.
    - assert (H : has_char "," l = false) by (eapply fields_no_char; [exact Hf|reflexivity|repeat constructor; auto]).
      destruct (strip_spec l) as (b & b' & _ & _ & E & _). rewrite E, !has_char_app in H.
      apply orb_false_iff in H as [_ H]. apply orb_false_iff in H as [H _]. exact H. }
  rewrite E. split; [|exists p; rewrite split_ws_strip; apply split_ws_fields; exact Hf].
  apply starts_bang_directive. eapply fields_directive; [exact Hf|reflexivity].
Qed.
Lemma service_bind (x : res (list rule)) : (do _ <- (do a <- x; Ok (a ++ [])); Ok tt) = (do _ <- x; Ok tt).
Proof. destruct x; reflexivity. Qed.

Lemma lint_service_ok l : has_char NL l = false -> lint_line true l = Ok tt ->
  fine_service_line l \/ (exists p, fields l ["!include-dir"; p]) \/
  (exists s a p, fields l ["!include-service"; s; a; p] /\ In p ["__main__"; "inc"]).
Proof.
  intros N H. unfold lint_line in H. destruct (skip_line (strip l)) eqn:Sk; [left; apply fs_inert, skip_inert; exact Sk|].
  assert (Fine : forall p rs, p <> "__main__" -> p <> "inc" -> parse_string_policy (strip l) p true = Ok rs -> fine_service_line l).
  { intros p rs N1 N2 E. rewrite parse_service, (main_inc _ l) in E; auto; try (apply sdict_other; auto; reflexivity).
    apply bind_ok in E as (a & E & _).
    assert (Inc : (exists q, starts "!" (compat_subst (strip l)) = true /\ split_ws (compat_subst (strip l)) = ["!include"; q]) \/
      forall q, starts "!" (compat_subst (strip l)) = true -> split_ws (compat_subst (strip l)) <> ["!include"; q]).
    { destruct (starts "!" (compat_subst (strip l))); [|right; discriminate].
      destruct (split_ws (compat_subst (strip l))) as [|w [|q [|]]]; try (right; discriminate).
      destruct (string_dec w "!include") as [->|Nw]; [left; eauto|right; congruence]. }
    destruct Inc as [(q & Sq & Eq)|Nq]; [apply fine_service_view; [exact Sk|right; eauto]|].
    destruct (service_one (service_dict (strip l) p) 1 "inc[in-memory]" l) as (_ & B & _); [intros q0 _ S0 E0; exfalso; exact (Nq q0 S0 E0)|].
    exact (B a E). }
  destruct (starts "!" (strip l)) eqn:Sb.
  2:{ apply bind_tt in H as (rs & H). left. eapply Fine; eauto; discriminate. }
  destruct (words_of l Sk Sb) as (w & ws & Es & Hf). rewrite Es in H.
  destruct (String.eqb_spec w "!include-service") as [->|N1].
  { apply bind_tt in H as (rs & H).
    destruct ws as [|s [|a [|p [|]]]]; try (left; eapply Fine; [| |exact H]; discriminate).
    destruct (string_dec p "__main__") as [->|Np]; [right; right; exists s, a, "__main__"; cbn; auto|].
    destruct (string_dec p "inc") as [->|Np2]; [right; right; exists s, a, "inc"; cbn; auto|]. left. eapply Fine; eauto. }
  destruct (String.eqb_spec w "!include") as [->|N2].
  { apply bind_tt in H as (rs & H).
    destruct ws as [|p [|]]; try (left; eapply Fine; [| |exact H]; discriminate).
    left. destruct (string_dec p "__main__") as [->|Np]; [eapply include_fine; eauto|].
    destruct (string_dec p "inc") as [->|Np2]; [eapply include_fine; eauto|]. eapply Fine; eauto. }
  destruct (String.eqb_spec w "!include-dir") as [->|N3].
  { destruct ws as [|p [|]]; try discriminate. right. left. eauto. }
  apply bind_tt in H as (rs & H). left. eapply Fine; eauto; discriminate.
Qed.
(** inclusions written in the usual way, in the new spelling *)
Definition plain_service (l : string) : Prop := forall p, service_includes l p -> fields l ["!include"; p] /\ plain_path p.
Lemma lint_service_plain l : has_char NL l = false -> plain_service l ->
  (fine_service_line l -> lint_line true l = Ok tt) /\ (forall e, lint_line true l = Err e -> e = ESyntax).
Proof.
  intros N Inc. unfold lint_line. destruct (skip_line (strip l)) eqn:Sk; [split; [reflexivity|discriminate]|].
  assert (P : forall p, (forall q, fields l ["!include"; q] -> q = p) ->
    (fine_service_line l -> (do _ <- parse_string_policy (strip l) p true; Ok tt) = Ok tt) /\
    (forall e, (do _ <- parse_string_policy (strip l) p true; Ok tt) = Err e -> e = ESyntax)).
  { intros p Ip. rewrite parse_service. destruct (string_dec p "__main__") as [->|Np].
    { rewrite main_empty by (apply sdict_path; discriminate). split; [reflexivity|discriminate]. }
    destruct (string_dec p "inc") as [->|Np2].
    { rewrite inc_empty; [split; [reflexivity|discriminate]|apply sdict_other; [discriminate|reflexivity]|apply sdict_path; discriminate]. }
    rewrite (main_inc _ l), service_bind; auto; try (apply sdict_other; auto; reflexivity).
    destruct (service_one (service_dict (strip l) p) 1 "inc[in-memory]" l) as (A & _ & C).
    - intros q _ Sq Eq. destruct (Inc q) as [Hf Pq]; [apply service_includes_split; auto|]. split; [exact Pq|].
      rewrite (Ip q Hf). apply sdict_path. rewrite <- (Ip q Hf). eapply word_nonempty; [exact Hf|cbn; auto].
    - split.
      + intros F. apply bind_tt. exact (A F).
      + intros e E. apply bind_tt_err in E. exact (C e E). }
  destruct (starts "!" (strip l)) eqn:Sb.
  2:{ apply P. intros q Hq. exfalso. eapply (no_includes l q Sb). left. exact Hq. }
  destruct (words_of l Sk Sb) as (w & ws & Es & Hf). rewrite Es.
  assert (Io : forall q, fields l ["!include"; q] -> w :: ws = ["!include"; q]).
  { intros q Hq. apply split_ws_fields in Hq, Hf. congruence. }
  destruct (String.eqb_spec w "!include-service") as [->|N1].
  { apply P. intros q Hq. specialize (Io q Hq). discriminate. }
  destruct (String.eqb_spec w "!include") as [->|N2].
  { apply P. intros q Hq. specialize (Io q Hq). injection Io as ->. reflexivity. }
  destruct (String.eqb_spec w "!include-dir") as [->|N3].
  { assert (Nf : ~ fine_service_line l).
    { intros F. apply fine_service_view in F as [[Sf _]|[Sf (p & Ep)]]; [|
        |exact Sk].
      - rewrite (compat_bang _ Sb) in Sf. discriminate.
      - destruct (Inc p) as [Hp _]; [apply service_includes_split; auto|]. specialize (Io p Hp). discriminate. }
    destruct ws as [|p [|]]; split; try reflexivity; try discriminate; try (intros F; contradiction); intros e E; congruence. }
  apply P. intros q Hq. specialize (Io q Hq). congruence.
Qed.

(** C89 for a file included with !include-service (option --include-service) *)
Theorem C89_service_faults_reported text errs n l : lint_text true text = Ok errs -> line_no text n l ->
  ~ fine_service_line l -> (forall p, ~ fields l ["!include-dir"; p]) ->
  (forall s a p, fields l ["!include-service"; s; a; p] -> ~ In p ["__main__"; "inc"]) -> In n errs.
Proof.
  intros H Hl Nf Nd Ns. eapply lint_line_reported; eauto. intros E. apply lint_service_ok in E; [|eapply line_no_nl; exact Hl].
  destruct E as [F|[(p & F)|(s & a & p & F & Hp)]]; [auto|eapply Nd; eauto|eapply Ns; eauto].
Qed.
Theorem C89_service_only_faults text errs n : lint_text true text = Ok errs -> In n errs ->
  exists l, line_no text n l /\ ((forall p, service_includes l p -> fields l ["!include"; p] /\ plain_path p) -> ~ fine_service_line l).
Proof.
  intros H Hn. apply (lint_line_cases _ _ _ n H) in Hn as (l & Hl & E). exists l. split; [exact Hl|].
  intros P F. destruct (lint_service_plain l) as [A _]; [eapply line_no_nl; exact Hl|exact P|]. rewrite (A F) in E. discriminate.
Qed.
Theorem C89_service_total text : utf8_valid text = true ->
  (forall l p, In l (lines_univ text) -> service_includes l p -> fields l ["!include"; p] /\ plain_path p) ->
  exists errs, lint_text true text = Ok errs.
Proof.
  intros U P. unfold lint_text. rewrite U. apply lint_lines_total. intros l e Hl E.
  destruct (lint_service_plain l) as [_ B]; eauto; [eapply lines_univ_no_nl; eauto|]. intros p. apply P. exact Hl.
Qed.
(** a clean file can be included for any service and argument, if what it includes can *)
Theorem C89_service_clean_loads text : lint_text true text = Ok [] ->
  (forall l p, In l (lines_univ text) -> ~ fields l ["!include-dir"; p]) ->
  (forall l s a p, In l (lines_univ text) -> fields l ["!include-service"; s; a; p] -> ~ In p ["__main__"; "inc"]) ->
  forall opens sv ar file, service_arg (field_of sv) (field_of ar) sv ar ->
  Forall (service_includes_load opens sv ar) (lines_univ text) ->
  exists rs, service_rules opens sv ar file (lines_univ text) rs.
Proof.
  intros H Nd Ns opens sv ar file SA I. apply fine_service; auto. apply Forall_forall. intros l Hl.
  apply lint_text_lines in H as [_ H]. pose proof (lint_lines_ok _ _ _ H l Hl) as E. apply lint_service_ok in E; [|eapply lines_univ_no_nl; exact Hl].
  destruct E as [F|[(p & F)|(s & a & p & F & Hp)]]; [auto|exfalso; eapply Nd; eauto|exfalso; eapply Ns; eauto].
Qed.
(** a file in which the linter finds a fault cannot, for no service *)
Theorem C89_service_fault_refused text errs : lint_text true text = Ok errs -> errs <> [] ->
  (forall l p, In l (lines_univ text) -> service_includes l p -> fields l ["!include"; p] /\ plain_path p) ->
  forall opens sv ar file rs, ~ service_rules opens sv ar file (lines_univ text) rs.
Proof.
  intros Lt Ne P opens sv ar file rs T. destruct errs as [|m errs]; [congruence|].
  destruct (C89_service_only_faults text _ m Lt (or_introl eq_refl)) as (l & Hl & Nf). destruct Hl as (k & -> & Hk). apply nth_error_In in Hk.
  apply Nf; [eauto|]. apply service_fine in T. rewrite Forall_forall in T. auto.
Qed.

(** ** The program: exit status 0 if and only if every file is a text without faults *)
Theorem C89_exit f svc files : fst (lint_main f svc files) = 0 <->
  forall p, In p files -> exists text, fget f p = Some (NFile (Some text)) /\ lint_text svc text = Ok [].
Proof.
  induction files as [|p files IH]; cbn [lint_main]; [split; [intros _ p []|reflexivity]|].
  destruct (do t <- file_bytes f p; lint_text svc t) as [[|k errs]|e] eqn:E.
  - rewrite IH. split.
    + intros H q [<-|Hq]; [|auto]. unfold file_bytes in E. destruct (fget f p) as [[[t|]| |]|] eqn:Et; try discriminate. exists t. split; [reflexivity|exact E].
    + intros H q Hq. apply H. right. exact Hq.
  - split; [discriminate|]. intros H. destruct (H p (or_introl eq_refl)) as (t & Ht & Hl). unfold file_bytes in E. rewrite Ht in E. cbn [bind] in E. congruence.
  - split; [discriminate|]. intros H. destruct (H p (or_introl eq_refl)) as (t & Ht & Hl). unfold file_bytes in E. rewrite Ht in E. cbn [bind] in E. congruence.
Qed.
(** otherwise it is 1 *)
Theorem C89_status f svc files : fst (lint_main f svc files) = 0 \/ fst (lint_main f svc files) = 1.
Proof.
  induction files as [|p files IH]; cbn [lint_main]; [auto|].
  destruct (do t <- file_bytes f p; lint_text svc t) as [[|k errs]|e]; [exact IH|right; reflexivity|right; reflexivity].
Qed.
(** what is printed are faults of the files given *)
Theorem C89_printed f svc files p n : In (p, n) (snd (lint_main f svc files)) ->
  In p files /\ exists text errs, fget f p = Some (NFile (Some text)) /\ lint_text svc text = Ok errs /\ In n errs.
Proof.
  induction files as [|q files IH]; cbn [lint_main]; [intros []|].
  destruct (do t <- file_bytes f q; lint_text svc t) as [[|k errs]|e] eqn:E.
  - intros H. destruct (IH H) as [A B]. split; [right; exact A|exact B].
  - intros H. unfold snd in H. apply in_map_iff in H as (m & Em & Hm). injection Em as <- <-. split; [left; reflexivity|].
    unfold file_bytes in E. destruct (fget f q) as [[[t|]| |]|] eqn:Et; try discriminate. exists t, (k :: errs). auto.
  - intros [].
Qed.

(** ** Examples and refuted claims *)
Definition text_of (ls : list string) : string := fold_right (fun l t => l +++ nl +++ t) "" ls.
Example C89_example : lint_text false (text_of ["# comment"; "my.Service * work vault allow"; "my.Service * work"; "";
    "!include include/more"; "!include-service my.Other +arg include/other"; "!include-service my.Other arg x"; "!compat-4.0"; "!wrong"; "!include-dir a b"])
  = Ok [3; 7; 9; 10].
Proof. vm_compute. reflexivity. Qed.
Example C89_service_example : lint_text true (text_of ["$anyvm,$anyvm,ask"; "work vault"; "!include include/more"; "!include-service a * b"])
  = Ok [2; 4].
Proof. vm_compute. reflexivity. Qed.
Definition lint_dirs : list path := [["p"]].
(** a faultless file is reported: the path is not written the usual way *)
Theorem C89_relative_path_refuted :
  let text := text_of ["!include ./include/more"] in
  let f := [(["p"], NDir); (["p"; "include"], NDir); (["p"; "include"; "more"], NFile (Some "")); (["p"; "30-user.policy"], NFile (Some text))] in
  lint_text false text = Ok [1] /\ load_policy f ["old"] 5 lint_dirs = Ok [].
Proof. split; vm_compute; reflexivity. Qed.
Theorem C89_deeper_path_refuted :
  let text := text_of ["!include include/team/more"] in
  let f := [(["p"], NDir); (["p"; "include"; "team"; "more"], NFile (Some "")); (["p"; "30-user.policy"], NFile (Some text))] in
  lint_text false text = Ok [1] /\ load_policy f ["old"] 5 lint_dirs = Ok [].
Proof. split; vm_compute; reflexivity. Qed.
(** ... or, with --include-service, it is the old spelling of !include *)
Theorem C89_old_include_refuted :
  let text := text_of ["$include:more"] in
  let f := [(["p"], NDir); (["p"; "inc"], NFile (Some text)); (["p"; "more"], NFile (Some ""));
            (["p"; "30-user.policy"], NFile (Some "!include-service my.Service * inc"))] in
  lint_text true text = Ok [1] /\ load_policy f ["old"] 5 lint_dirs = Ok [].
Proof. split; vm_compute; reflexivity. Qed.
(** a fault is not reported: --include-service takes !include-dir for a directive of such files,
    and the policy then does not load *)
Theorem C89_include_dir_refuted :
  let text := text_of ["!include-dir more"] in
  let f := [(["p"], NDir); (["p"; "more"], NDir); (["p"; "inc"], NFile (Some text));
            (["p"; "30-user.policy"], NFile (Some "!include-service my.Service * inc"))] in
  lint_text true text = Ok [] /\ load_policy f ["old"] 5 lint_dirs = Err ESyntax.
Proof. split; vm_compute; reflexivity. Qed.
Theorem C89_main_refuted :
  let text := text_of ["!include-service wrong/service * __main__"] in
  let f := [(["p"], NDir); (["p"; "__main__"], NFile (Some "")); (["p"; "30-user.policy"], NFile (Some text))] in
  lint_text false text = Ok [] /\ load_policy f ["old"] 5 lint_dirs = Err ESyntax.
Proof. split; vm_compute; reflexivity. Qed.
(** the linter ends with an exception (a file that seems to include itself) *)
Theorem C89_recursion_refuted : lint_text false (text_of ["!include ./__main__"]) = Err EFuel.
Proof. vm_compute. reflexivity. Qed.
(** only the faults of the first faulty file are printed *)
Theorem C89_second_file_refuted :
  let f := [(["a"], NFile (Some "wrong")); (["b"], NFile (Some "wrong too"))] in
  lint_main f false [["a"]; ["b"]] = (1, [(["a"], 1)]) /\ lint_main f false [["b"]] = (1, [(["b"], 1)]).
Proof. split; vm_compute; reflexivity. Qed.
(** ... a policy that meets the hypotheses of C89_clean_loads and C89_fault_refused *)
Example C89_clean_example :
  let text := text_of ["my.Service * work vault allow"; "!include-service my.Other * include/other"] in
  let f := [(["p"], NDir); (["p"; "include"], NDir); (["p"; "include"; "other"], NFile (Some "work vault ask")); (["p"; "30-user.policy"], NFile (Some text))] in
  lint_text false text = Ok [] /\ (exists rs, load_policy f ["old"] 5 lint_dirs = Ok rs /\ length rs = 2) /\
  lint_text false (text +++ "wrong" +++ nl) = Ok [3] /\
  load_policy (fset f ["p"; "30-user.policy"] (NFile (Some (text +++ "wrong" +++ nl)))) ["old"] 5 lint_dirs = Err ESyntax.
Proof. split; [vm_compute; reflexivity|]. split; [eexists; split; vm_compute; reflexivity|]. split; vm_compute; reflexivity. Qed.
