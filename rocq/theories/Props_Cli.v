(** C92: qubes-policy. *)
From Coq Require Import String Ascii List Bool Arith Lia.
From Verif Require Import Base SysInfo Token Rule Policy FileSys Loader Admin SelectProofs SpecRule SpecAdmin SpecLoader RuleProofs TextProofs LoaderExt AdminProofs Props_Loader Props_Admin RegProofs Lint Editor SpecEditor Props_Editor.
From Verif Require AgentProofs.
Import ListNotations.
Open Scope string_scope.
Open Scope list_scope.

(** ** Blanks at the end of a text *)
Definition no_cr_end (s : string) : Prop := s = "" \/ exists a c, s = a +++ str1 c /\ c <> CR.
Lemma univ_nl_split a b : no_cr_end a -> univ_nl (a +++ b) = univ_nl a +++ univ_nl b.
Proof.
  induction a as [|c a IH]; intros H; [reflexivity|]. destruct (String.eqb_spec a "") as [-> |Na].
  - cbn [append]. assert (Nc : c <> CR).
    { destruct H as [H|(x & d & E & Nd)]; [discriminate|]. unfold str1 in E. destruct x as [|y x]; cbn in E; [congruence|]. destruct x; discriminate. }
    cbn [univ_nl]. destruct (Ascii.eqb_spec c CR) as [E|_]; [contradiction|]. reflexivity.
  - assert (H' : no_cr_end a).
    { destruct H as [H|(x & d & E & Nd)]; [discriminate|]. right. unfold str1 in E. destruct x as [|y x]; cbn in E.
      - exfalso. apply Na. congruence.
      - exists x, d. split; [unfold str1; congruence|exact Nd]. }
    specialize (IH H'). destruct a as [|d a]; [congruence|]. cbn [append]. cbn [append] in IH.
    change (univ_nl (String c (String d (a +++ b)))) with (if Ascii.eqb c CR then if Ascii.eqb d NL then univ_nl (String d (a +++ b)) else String NL (univ_nl (String d (a +++ b))) else String c (univ_nl (String d (a +++ b)))).
    change (univ_nl (String c (String d a))) with (if Ascii.eqb c CR then if Ascii.eqb d NL then univ_nl (String d a) else String NL (univ_nl (String d a)) else String c (univ_nl (String d a))).
    rewrite IH. destruct (Ascii.eqb c CR), (Ascii.eqb d NL); reflexivity.
Qed.
Lemma univ_no_cr s : has_char CR (univ_nl s) = false.
Proof.
  induction s as [|c s IH]; [reflexivity|]. cbn [univ_nl]. destruct (Ascii.eqb_spec c CR) as [-> |N].
  - destruct s as [|d s]; [reflexivity|]. destruct (Ascii.eqb d NL); [exact IH|]. cbn [has_char]. rewrite IH. reflexivity.
  - cbn [has_char]. rewrite IH. destruct (Ascii.eqb_spec CR c) as [E|_]; [congruence|]. destruct (Ascii.eqb_spec c CR); [contradiction|reflexivity].
Qed.
Lemma univ_idem s : univ_nl (univ_nl s) = univ_nl s.
Proof.
  assert (H : forall t, has_char CR t = false -> univ_nl t = t).
  { induction t as [|c t IH]; intros H; [reflexivity|]. cbn [has_char] in H. apply orb_false_iff in H as [H1 H2]. cbn [univ_nl].
    rewrite (IH H2). destruct (Ascii.eqb_spec c CR) as [-> |_]; [discriminate|reflexivity]. }
  apply H, univ_no_cr.
Qed.
Lemma univ_blanks b : blanks b -> blanks (univ_nl b).
Proof.
  unfold blanks. induction b as [|c b IH]; intros H; [reflexivity|]. cbn [sforall] in H. apply andb_prop in H as [H1 H2]. cbn [univ_nl].
  destruct (Ascii.eqb c CR).
  - destruct b as [|d b]; [reflexivity|]. destruct (Ascii.eqb d NL); [apply IH; exact H2|]. cbn [sforall]. rewrite (IH H2). reflexivity.
  - cbn [sforall]. rewrite H1, (IH H2). reflexivity.
Qed.
Lemma rstrip_end s : no_cr_end (rstrip s).
Proof.
  induction s as [|c s IH]; [left; reflexivity|]. cbn [rstrip]. destruct (rstrip s) as [|d r] eqn:E.
  - destruct (is_space c) eqn:S; [left; reflexivity|]. right. exists "", c. split; [reflexivity|]. intros ->. discriminate.
  - right. destruct IH as [H|(a & x & H & N)]; [discriminate|]. exists (String c a), x. split; [cbn; congruence|exact N].
Qed.
Lemma blank_lines_aux b : blanks b -> forall cur, same_lines (lines_lf_aux b cur) [cur].
Proof.
  assert (G : forall b cur x, blanks b -> blanks x -> same_lines (lines_lf_aux b (cur +++ x)) [cur]).
  { clear b. induction b as [|c b IH]; intros cur x H X.
    - cbn [lines_lf_aux]. assert (K : same_lines [cur +++ x] [cur]).
      { pose proof (sl_line "" x "" "" cur [] [] eq_refl X eq_refl eq_refl sl_nil) as K. cbn [append] in K. rewrite app_nil_s in K. exact K. }
      destruct (cur +++ x) as [|d t] eqn:E; [|exact K]. destruct cur; [|discriminate]. apply sl_right; [apply in_blank; reflexivity|apply sl_nil].
    - unfold blanks in H. cbn [sforall] in H. apply andb_prop in H as [H1 H2]. cbn [lines_lf_aux]. destruct (Ascii.eqb_spec c NL) as [-> |N].
      + assert (K : same_lines (lines_lf_aux b "") []).
        { specialize (IH "" "" H2 eq_refl). cbn [append] in IH. clear -IH H2.
          assert (W : forall b cur, blanks b -> blanks cur -> same_lines (lines_lf_aux b cur) []).
          { clear. induction b as [|c b IH]; intros cur H C; cbn [lines_lf_aux].
            - destruct cur; [apply sl_nil|]. apply sl_left; [apply in_blank; exact C|apply sl_nil].
            - unfold blanks in H. cbn [sforall] in H. apply andb_prop in H as [H1 H2]. destruct (Ascii.eqb c NL).
              + apply sl_left; [apply in_blank; exact C|]. apply IH; [exact H2|reflexivity].
              + apply IH; [exact H2|]. unfold blanks. rewrite sforall_app, C. cbn. rewrite H1. reflexivity. }
          apply W; [exact H2|reflexivity]. }
        pose proof (sl_line "" x "" "" cur (lines_lf_aux b "") [] eq_refl X eq_refl eq_refl K) as L. cbn [append] in L. rewrite app_nil_s in L. exact L.
      + rewrite app_assoc_s. apply IH; [exact H2|]. unfold blanks. rewrite sforall_app, X. cbn. rewrite H1. reflexivity. }
  intros H cur. specialize (G b cur "" H eq_refl). rewrite app_nil_s in G. exact G.
Qed.
Lemma blank_end a b : blanks b -> forall cur, same_lines (lines_lf_aux (a +++ b) cur) (lines_lf_aux (a +++ nl) cur).
Proof.
  intros B. induction a as [|c a IH]; intros cur.
  - change (lines_lf_aux ("" +++ nl) cur) with [cur]. apply blank_lines_aux. exact B.
  - cbn [append lines_lf_aux]. destruct (Ascii.eqb c NL); [|apply IH].
    pose proof (sl_line "" "" "" "" cur _ _ eq_refl eq_refl eq_refl eq_refl (IH "")) as L. cbn [append] in L. rewrite app_nil_s in L. exact L.
Qed.
(** printing a text without the blanks at its end, and a line break, and reading it again *)
Lemma same_lines_sym a b : same_lines a b -> same_lines b a.
Proof.
  induction 1 as [|l a b I H IH|l a b I H IH|x y x' y' l a b B1 B2 B3 B4 H IH]; [apply sl_nil|apply sl_right; assumption|apply sl_left; assumption|].
  apply sl_line; assumption.
Qed.
Lemma printed_same c : same_lines (lines_univ c) (lines_univ (univ_nl (rstrip c +++ nl))).
Proof.
  unfold lines_univ. rewrite univ_idem. destruct (rstrip_spec c) as (b & B & E).
  rewrite E at 1. rewrite !univ_nl_split by apply rstrip_end. change (univ_nl nl) with nl. unfold lines_lf. apply blank_end. apply univ_blanks. exact B.
Qed.

(** ** The program *)
Lemma cli_named arg : let inc := String.eqb arg "include" || starts "include/" arg in let name := if inc then sdrop 8 arg else arg in
  sforall rpcname_char name = true -> name <> "" -> names_file arg inc name.
Proof.
  cbv zeta. destruct (String.eqb_spec arg "include") as [-> |N]; cbn [orb].
  - intros _ H. exfalso. apply H. reflexivity.
  - destruct (starts "include/" arg) eqn:S.
    + apply starts_spec in S as [n ->]. change (sdrop 8 ("include/" +++ n)) with n. intros R Ne. apply nf_include; [apply rpc_no_slash; exact R|exact Ne].
    + intros R Ne. apply nf_policy; [apply rpc_no_slash; exact R|exact Ne].
Qed.
Lemma cli_name_unique arg i n : names_file arg i n -> arg <> "include" -> n = if String.eqb arg "include" || starts "include/" arg then sdrop 8 arg else arg.
Proof.
  intros [x Hs Hn|x Hs Hn] Ne.
  - destruct (String.eqb_spec x "include"); [contradiction|]. destruct (starts "include/" x) eqn:S; [|reflexivity].
    apply starts_spec in S as [y ->]. discriminate.
  - reflexivity.
Qed.
Lemma names_file_fun arg i n i' n' : names_file arg i n -> names_file arg i' n' -> i' = i /\ n' = n.
Proof.
  intros [x Hs Hn|x Hs Hn] H; remember x as y eqn:Ey in H at 1; inversion H; subst; auto; try discriminate.
Qed.
(** the argument for the list: nothing, or the directory of included files *)
Definition lists_dir (arg : string) (inc : bool) : Prop := arg = "" /\ inc = false \/ In arg ["include"; "include/"] /\ inc = true.
Lemma cli_listed arg : let inc := String.eqb arg "include" || starts "include/" arg in
  (if inc then sdrop 8 arg else arg) = "" <-> lists_dir arg inc.
Proof.
  cbv zeta. unfold lists_dir. destruct (String.eqb_spec arg "include") as [-> |N]; cbn [orb].
  - split; [intros _; right; cbn; auto|reflexivity].
  - destruct (starts "include/" arg) eqn:S.
    + apply starts_spec in S as [n ->]. change (sdrop 8 ("include/" +++ n)) with n. split.
      * intros ->. right. cbn. auto.
      * intros [[H _]|[H _]]; [discriminate|]. cbn in H. destruct H as [H|[H|[]]]; [discriminate|]. destruct n; [reflexivity|discriminate].
    + split; [intros ->; auto|]. intros [[H _]|[_ H]]; [exact H|discriminate].
Qed.
Lemma cli_main_0 sha f lg fu pp m arg stdin out f' : cli_main sha f lg fu pp m arg stdin = ((0, out), f') ->
  exists inc name, cli_run sha f lg fu pp m name inc stdin = (Some out, f') /\
    match m with CList => lists_dir arg inc /\ name = "" | _ => names_file arg inc name end.
Proof.
  unfold cli_main. set (inc := String.eqb arg "include" || starts "include/" arg). set (name := if inc then sdrop 8 arg else arg).
  destruct (sforall rpcname_char name) eqn:R; cbn [negb]; [|discriminate].
  destruct (match m with CList => negb (String.eqb name "") | _ => String.eqb name "" end) eqn:U; [discriminate|].
  destruct (cli_run sha f lg fu pp m name inc stdin) as [[o|] g] eqn:E; [|discriminate]. intros H. injection H as <- <-.
  exists inc, name. split; [exact E|]. destruct m.
  - apply negb_false_iff, String.eqb_eq in U. split; [|exact U]. apply cli_listed. exact U.
  - apply cli_named; [exact R|]. apply String.eqb_neq. exact U.
  - apply cli_named; [exact R|]. apply String.eqb_neq. exact U.
  - apply cli_named; [exact R|]. apply String.eqb_neq. exact U.
Qed.

Lemma join_lines l : l <> [] -> join nl l +++ nl = lines_out l.
Proof.
  induction l as [|a l IH]; [congruence|]. intros _. destruct l as [|b l].
  - cbn. rewrite ?app_nil_s. reflexivity.
  - change (join nl (a :: b :: l)) with (a +++ nl +++ join nl (b :: l)). rewrite !app_assoc_s. rewrite IH by discriminate. reflexivity.
Qed.
(** Without an argument it lists the names of the policy files, one a line, in order (without
    [.policy]); with [include], those of the included files. [_partial]: if no name has a line
    break in it; if there are no files an empty line is printed. *)
Theorem C92_list_partial sha f lg fu pp arg stdin out f' : wf_fs f -> cli_main sha f lg fu pp CList arg stdin = ((0, out), f') ->
  f' = f /\ exists inc l, lists_dir arg inc /\ listed f (if inc then pp ++ ["include"] else pp) (if inc then "" else ".policy") l /\
  ((forall n, In n l -> has_char NL n = false) -> l <> [] -> out = lines_out l).
Proof.
  intros W H. apply cli_main_0 in H as (inc & name & H & L & _). cbn [cli_run] in H.
  destruct (client_list sha f lg fu pp inc) as [[l|] g] eqn:E; [|discriminate].
  assert (Eo : out = join nl l +++ nl) by congruence. assert (Ef : f' = g) by congruence. clear H. subst out f'.
  apply C33_list_partial in E as (-> & l' & Ls & Hl); [|exact W]. split; [reflexivity|]. exists inc, l'. split; [exact L|].
  split; [destruct inc; exact Ls|]. intros Hn Ne. rewrite (Hl Hn Ne). apply join_lines. exact Ne.
Qed.
(** -g prints the file, without blanks at its end *)
Theorem C92_get sha f lg fu pp arg stdin out f' : hex_digest sha -> cli_main sha f lg fu pp CGet arg stdin = ((0, out), f') ->
  f' = f /\ exists inc name r b, names_file arg inc name /\ has_content f (admin_file pp inc name) (r +++ b) /\ blanks b /\
    (forall a c, r = a +++ str1 c -> is_space c = false) /\ out = r +++ nl.
Proof.
  intros Hx H. apply cli_main_0 in H as (inc & name & H & L). cbn [cli_run] in H.
  destruct (client_get sha f lg fu pp name inc) as [[[c t]|] g] eqn:E; [|discriminate].
  assert (Eo : out = rstrip c +++ nl) by congruence. assert (Ef : f' = g) by congruence. clear H. subst out f'.
  apply C33_get_sound in E as (-> & C & _); [|exact Hx]. split; [reflexivity|]. destruct (rstrip_spec c) as (b & B & E).
  exists inc, name, (rstrip c), b. split; [exact L|]. split; [rewrite <- E; exact C|]. split; [exact B|]. split; [|reflexivity].
  clear. intros a x. revert a. induction c as [|y c IH]; intros a H; cbn [rstrip] in H; [destruct a; discriminate|].
  destruct (rstrip c) as [|d r] eqn:E.
  - destruct (is_space y) eqn:S; [destruct a; discriminate|]. unfold str1 in H. destruct a as [|z a]; cbn in H; [congruence|]. destruct a; discriminate.
  - destruct a as [|z a]; cbn in H; [discriminate|]. apply (IH a). congruence.
Qed.
(** -r writes the standard input to the file and nothing else *)
Theorem C92_replace sha f lg fu pp arg stdin out f' : cli_main sha f lg fu pp CReplace arg stdin = ((0, out), f') ->
  exists inc name, names_file arg inc name /\ has_content f' (admin_file pp inc name) (univ_nl stdin) /\
    validate f [(admin_file pp inc name, Some (univ_nl stdin))] lg fu pp = Ok tt /\
    (inc = false \/ fget f (admin_temp pp inc name) = None -> same_elsewhere f f' [admin_file pp inc name]) /\ out = "".
Proof.
  intros H. apply cli_main_0 in H as (inc & name & H & L). cbn [cli_run] in H. destruct (utf8_valid stdin); [cbn [negb] in H|discriminate].
  destruct (client_replace sha f lg fu pp name (univ_nl stdin) "any" inc) as [[[]|] g] eqn:E; [|discriminate].
  apply client_replace_ok in E as (_ & _ & C & _ & V & S); [|reflexivity]. exists inc, name. assert (g = f') as <- by congruence.
  split; [exact L|]. split; [exact C|]. split; [exact V|]. split; [exact S|]. congruence.
Qed.
(** -d removes the file and nothing else *)
Theorem C92_remove sha f lg fu pp arg stdin out f' : cli_main sha f lg fu pp CRemove arg stdin = ((0, out), f') ->
  exists inc name, names_file arg inc name /\ regular f (admin_file pp inc name) /\ fget f' (admin_file pp inc name) = None /\
    same_elsewhere f f' [admin_file pp inc name] /\ validate f [(admin_file pp inc name, None)] lg fu pp = Ok tt /\ out = "".
Proof.
  intros H. apply cli_main_0 in H as (inc & name & H & L). cbn [cli_run] in H. unfold client_remove in H.
  destruct (client_call sha f lg fu pp "Remove" inc (Some name) "any") as [[o|] g] eqn:E; [|discriminate].
  apply call_arg in E as (x & E & _); [|cbn; auto]. assert (Ef : f' = g) by congruence. assert (Eo : out = "") by congruence. subst f' out. clear H.
  assert (E' : handle_admin sha f lg fu pp (remove_service inc) name "any" = (AOk x, g)) by (destruct inc; exact E).
  exists inc, name. split; [exact L|]. pose proof (C28_remove _ _ _ _ _ _ _ _ _ _ E') as (R & G & S). apply remove_ok in E' as (_ & _ & _ & _ & _ & V & _).
  split; [exact R|]. split; [exact G|]. split; [exact S|]. split; [exact V|reflexivity].
Qed.
Lemma call_none sha f lg fu pp rpc inc arg payload f' :
  client_call sha f lg fu pp rpc inc arg payload = (None, f') ->
  f' = f \/ exists service a r, handle_admin sha f lg fu pp service a payload = (r, f') /\ (service, a) = (client_service inc rpc, match arg with Some x => x | None => "" end).
Proof.
  unfold client_call. fold (client_service inc rpc). destruct (has_char "+" (client_service inc rpc)) eqn:P; [cbn [orb]; intros H; left; congruence|].
  cbn [orb]. destruct (has_char " " (client_service inc rpc)); [intros H; left; congruence|].
  destruct arg as [a|].
  - destruct (has_char " " a); [intros H; left; congruence|]. rewrite script_arg by exact P.
    destruct (handle_admin sha f lg fu pp (client_service inc rpc) a payload) as [r g] eqn:E. intros H. right. exists (client_service inc rpc), a, r.
    split; [|reflexivity]. destruct r as [o|e]; [destruct (utf8_valid _) in H; congruence|]. destruct e; congruence.
  - unfold admin_script. rewrite (proj2 (split1_None _ _) P).
    destruct (handle_admin sha f lg fu pp (client_service inc rpc) "" payload) as [r g] eqn:E. intros H. right. exists (client_service inc rpc), "", r.
    split; [|reflexivity]. destruct r as [o|e]; [destruct (utf8_valid _) in H; congruence|]. destruct e; congruence.
Qed.
Lemma list_none sha f lg fu pp inc f' : client_list sha f lg fu pp inc = (None, f') -> f' = f.
Proof.
  unfold client_list. destruct (client_call sha f lg fu pp "List" inc None "") as [[o|] g] eqn:E; [discriminate|]. intros H. assert (g = f') as -> by congruence.
  apply call_none in E as [E|(s & a & r & E & Q)]; [exact E|]. assert (s = client_service inc "List") as -> by congruence.
  eapply C28_read_only; [exact E|]. intros i. split; destruct i, inc; discriminate.
Qed.
Lemma get_none sha f lg fu pp name inc f' : client_get sha f lg fu pp name inc = (None, f') -> f' = f.
Proof.
  unfold client_get. destruct (client_call sha f lg fu pp "Get" inc (Some name) "") as [[o|] g] eqn:E.
  - intros H. assert (g = f') as -> by congruence. apply call_arg in E as (x & E & _); [|cbn; auto].
    eapply C28_read_only; [exact E|]. intros i. split; destruct i, inc; discriminate.
  - intros H. assert (g = f') as -> by congruence. apply call_none in E as [E|(s & a & r & E & Q)]; [exact E|]. assert (s = client_service inc "Get") as -> by congruence.
    eapply C28_read_only; [exact E|]. intros i. split; destruct i, inc; discriminate.
Qed.
Lemma remove_none sha f lg fu pp name inc f' : client_remove sha f lg fu pp name "any" inc = (None, f') -> f' = f.
Proof.
  unfold client_remove. destruct (client_call sha f lg fu pp "Remove" inc (Some name) "any") as [[o|] g] eqn:E; [discriminate|].
  intros H. assert (g = f') as -> by congruence. clear H. unfold client_call in E. fold (client_service inc "Remove") in E.
  replace (client_service inc "Remove") with (remove_service inc) in E by (destruct inc; reflexivity).
  replace (has_char "+" (remove_service inc) || has_char " " (remove_service inc)) with false in E by (destruct inc; reflexivity).
  destruct (has_char " " name); [congruence|]. rewrite script_arg in E by (destruct inc; reflexivity).
  destruct (handle_admin sha f lg fu pp (remove_service inc) name "any") as [[o|e] g'] eqn:Eh.
  - apply remove_ok in Eh as (-> & _). discriminate.
  - assert (g' = f') by (destruct e; congruence). subst g'. eapply C27_error_changes_nothing_partial; [exact Eh|].
    intros i Ei. destruct i, inc; discriminate.
Qed.
(** If it fails nothing is printed to the standard output and nothing changes. *)
Theorem C92_failed sha f lg fu pp m arg stdin n out f' : cli_main sha f lg fu pp m arg stdin = ((S n, out), f') ->
  (forall inc name, names_file arg inc name -> fget f (admin_file pp inc name) <> Some NDir) -> f' = f /\ out = "".
Proof.
  unfold cli_main. pose proof (cli_named arg) as Nm. cbv zeta in Nm. set (inc := String.eqb arg "include" || starts "include/" arg) in *. set (name := if inc then sdrop 8 arg else arg) in *.
  destruct (sforall rpcname_char name) eqn:R; cbn [negb]; [|intros H; split; congruence].
  destruct (match m with CList => negb (String.eqb name "") | _ => String.eqb name "" end) eqn:U; [intros H; split; congruence|].
  intros H D. destruct (cli_run sha f lg fu pp m name inc stdin) as [[o|] g] eqn:E; [discriminate|].
  assert (g = f') as -> by congruence. split; [|congruence]. clear H. destruct m; cbn [cli_run] in E.
  - destruct (client_list sha f lg fu pp inc) as [[l|] g] eqn:C; [discriminate|]. assert (g = f') as -> by congruence. eapply list_none; exact C.
  - destruct (client_get sha f lg fu pp name inc) as [[[c t]|] g] eqn:C; [discriminate|]. assert (g = f') as -> by congruence. eapply get_none; exact C.
  - destruct (utf8_valid stdin); [cbn [negb] in E|cbn [negb] in E; congruence].
    destruct (client_replace sha f lg fu pp name (univ_nl stdin) "any" inc) as [[[]|] g] eqn:C; [discriminate|]. assert (g = f') as -> by congruence.
    eapply client_replace_err; [exact C|]. apply D. apply Nm; [reflexivity|]. apply String.eqb_neq. exact U.
  - destruct (client_remove sha f lg fu pp name "any" inc) as [[[]|] g] eqn:C; [discriminate|]. assert (g = f') as -> by congruence. eapply remove_none; exact C.
Qed.
(** Status 2 is for arguments that do not name a file (or for the list, a directory) and only
    for those. *)
Definition usable (m : cli_method) (arg : string) : Prop :=
  match m with
  | CList => exists inc, lists_dir arg inc
  | _ => arg <> "include" /\ exists inc name, names_file arg inc name /\ (forall c, has_char c name = true -> rpcname_char c = true)
  end.
Theorem C92_usage sha f lg fu pp m arg stdin : fst (fst (cli_main sha f lg fu pp m arg stdin)) = 2 <-> ~ usable m arg.
Proof.
  unfold cli_main. pose proof (cli_named arg) as Nm. pose proof (cli_listed arg) as Li. cbv zeta in Nm, Li.
  set (inc := String.eqb arg "include" || starts "include/" arg) in *. set (name := if inc then sdrop 8 arg else arg) in *.
  assert (Rest : fst (fst (match cli_run sha f lg fu pp m name inc stdin with (Some out, f') => ((0, out), f') | (None, f') => ((1, ""), f') end)) <> 2).
  { destruct (cli_run sha f lg fu pp m name inc stdin) as [[o|] g]; discriminate. }
  assert (Nu : forall i n, names_file arg i n -> arg <> "include" -> n = name).
  { intros i n L Ne. apply (cli_name_unique arg i n L Ne). }
  destruct (sforall rpcname_char name) eqn:R; cbn [negb].
  - destruct (match m with CList => negb (String.eqb name "") | _ => String.eqb name "" end) eqn:U.
    + split; [|reflexivity]. intros _ Us. destruct m; cbn [usable] in Us.
      * apply negb_true_iff, String.eqb_neq in U. apply U. apply Li. destruct Us as [i L]. assert (i = inc) as <-; [|exact L].
        destruct L as [[-> ->]|[L ->]]; [reflexivity|]. cbn in L. destruct L as [<-|[<-|[]]]; reflexivity.
      * apply String.eqb_eq in U. destruct Us as (Ne & i & n & L & _). pose proof (Nu _ _ L Ne) as E. destruct L; congruence.
      * apply String.eqb_eq in U. destruct Us as (Ne & i & n & L & _). pose proof (Nu _ _ L Ne) as E. destruct L; congruence.
      * apply String.eqb_eq in U. destruct Us as (Ne & i & n & L & _). pose proof (Nu _ _ L Ne) as E. destruct L; congruence.
    + split; [intros H; contradiction (Rest H)|]. intros Us. exfalso. apply Us.
      assert (Ok : m <> CList -> arg <> "include" /\ exists inc0 name0, names_file arg inc0 name0 /\ (forall c, has_char c name0 = true -> rpcname_char c = true)).
      { intros Nl. assert (Ne : name <> "") by (destruct m; [congruence| | |]; apply String.eqb_neq; exact U). split.
        - intros E. apply Ne. unfold name, inc. rewrite E. reflexivity.
        - exists inc, name. split; [apply Nm; [reflexivity|exact Ne]|]. apply sforall_has. exact R. }
      destruct m; cbn [usable]; try (apply Ok; discriminate). exists inc. apply Li. apply negb_false_iff, String.eqb_eq in U. exact U.
  - split; [|reflexivity]. intros _ Us. destruct m; cbn [usable] in Us.
    * destruct Us as [i L]. assert (name = "") as E; [|rewrite E in R; discriminate]. apply Li. assert (i = inc) as <-; [|exact L].
      destruct L as [[-> ->]|[L ->]]; [reflexivity|]. cbn in L. destruct L as [<-|[<-|[]]]; reflexivity.
    * destruct Us as (Ne & i & n & L & C). pose proof (Nu _ _ L Ne) as E. subst n. apply sforall_has in C. congruence.
    * destruct Us as (Ne & i & n & L & C). pose proof (Nu _ _ L Ne) as E. subst n. apply sforall_has in C. congruence.
    * destruct Us as (Ne & i & n & L & C). pose proof (Nu _ _ L Ne) as E. subst n. apply sforall_has in C. congruence.
Qed.
(** What -g printed can be given to -r: the policy stays the same. *)
Theorem C92_round_trip sha f lg fu pp arg stdin0 out f' : hex_digest sha ->
  cli_main sha f lg fu pp CGet arg stdin0 = ((0, out), f) ->
  cli_main sha f lg fu pp CReplace arg out = ((0, ""), f') ->
  (forall name, names_file arg true name -> fget f (admin_temp pp true name) = None) ->
  wf_fs f -> wf_fs f' -> forall legacy fuel dirs, load_policy f' legacy fuel dirs = load_policy f legacy fuel dirs.
Proof.
  intros Hx G R Tp Wf Wf' legacy fuel dirs. pose proof G as G0. apply cli_main_0 in G0 as (inc & name & G0 & L). cbn [cli_run] in G0.
  destruct (client_get sha f lg fu pp name inc) as [[[c t]|] g] eqn:E; [|discriminate].
  assert (Eo : out = rstrip c +++ nl) by congruence. clear G0. pose proof E as E2.
  apply C33_get_sound in E as (-> & C & ->); [|exact Hx].
  assert (Uc : utf8_valid c = true).
  { unfold client_get in E2. destruct (client_call sha f lg fu pp "Get" inc (Some name) "") as [[o|] h] eqn:Ec; [|discriminate].
    apply call_arg in Ec as (x & Ec & Ex & Ux); [|cbn; auto]. assert (Ec' : handle_admin sha f lg fu pp (get_service inc) name "" = (AOk x, h)) by (destruct inc; exact Ec).
    apply get_ok in Ec' as (c' & -> & _ & _ & C'). assert (c' = c) as -> by (unfold has_content in C, C'; congruence). rewrite Ex in Ux.
    replace ("sha256:" +++ sha c +++ nl +++ c) with (("sha256:" +++ sha c +++ nl) +++ c) in Ux by (rewrite !app_assoc_s; reflexivity).
    rewrite utf8_ascii_app in Ux; [exact Ux|]. rewrite !sforall_app. assert (Hs : sforall (fun x => (nat_of_ascii x <=? 127)%nat) (sha c) = true).
    { apply sforall_has. intros y Hy. apply Hx in Hy. cbv zeta in Hy. apply Nat.leb_le. lia. }
    rewrite Hs. reflexivity. }
  apply cli_main_0 in R as (inc' & name' & R & L'). cbn [cli_run] in R.
  assert (inc' = inc /\ name' = name) as [-> ->].
  { apply (names_file_fun arg); assumption. }
  destruct (utf8_valid out); [cbn [negb] in R|discriminate].
  destruct (client_replace sha f lg fu pp name (univ_nl out) "any" inc) as [[[]|] h] eqn:Er; [|discriminate]. assert (h = f') as -> by congruence.
  apply client_replace_ok in Er as (_ & _ & C' & U' & _ & S); [|reflexivity].
  assert (S' : same_elsewhere f f' [admin_file pp inc name]) by (apply S; destruct inc; [right; apply Tp; exact L|auto]). clear S.
  apply load_policy_same_tree; [exact Wf'|exact Wf|]. intros p. destruct (path_eqb_spec p (admin_file pp inc name)) as [P|P].
  - subst p. right. exists (univ_nl out), c. split; [exact C'|]. split; [exact C|]. split; [exact U'|]. split; [exact Uc|].
    subst out. apply same_lines_sym. apply printed_same.
  - left. apply S'. intros [Q|[]]. congruence.
Qed.

(** ** Examples *)
Definition ex_cli (f : fs) (m : cli_method) (arg stdin : string) : (nat * string) * fs := cli_main ex_sha f POLICYPATH_OLD 5 POLICYPATH m arg stdin.
Example C92_example :
  ex_cli ex_fs CList "" "" = ((0, ".hidden" +++ nl +++ "30-user" +++ nl +++ "90-default" +++ nl), ex_fs) /\
  ex_cli ex_fs CList "include" "" = ((0, "extra" +++ nl), ex_fs) /\
  ex_cli ex_fs CGet "include/extra" "" = ((0, "qubes.PdfConvert * work @dispvm allow" +++ nl), ex_fs) /\
  fst (ex_cli ex_fs CReplace "30-user" "nonsense") = (1, "") /\
  fst (ex_cli ex_fs CReplace "30-user" ex_line) = (0, "") /\
  has_content (snd (ex_cli ex_fs CReplace "30-user" ex_line)) (POLICYPATH ++ ["30-user.policy"]) ex_line /\
  fst (ex_cli ex_fs CRemove "30-user" "") = (0, "") /\
  fget (snd (ex_cli ex_fs CRemove "30-user" "")) (POLICYPATH ++ ["30-user.policy"]) = None /\
  ex_cli ex_fs CRemove "include/extra" "" = ((1, ""), ex_fs) /\
  ex_cli ex_fs CRemove "a/b" "" = ((2, ""), ex_fs).
Proof. repeat split; vm_compute; reflexivity. Qed.
(** what -g prints can be given to -r *)
Example C92_round_example :
  let out := snd (fst (ex_cli ex_fs CGet "30-user" "")) in
  fst (ex_cli ex_fs CReplace "30-user" out) = (0, "") /\
  (forall name, names_file "30-user" true name -> fget ex_fs (admin_temp POLICYPATH true name) = None).
Proof. split; [vm_compute; reflexivity|]. intros name H. inversion H. Qed.
