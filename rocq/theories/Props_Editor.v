(** C91: qubes-policy-editor. *)
From Coq Require Import String Ascii List Bool Arith Lia.
From Verif Require Import Base SysInfo Token Rule Policy FileSys Loader Admin SpecAdmin SpecLoader RuleProofs AdminProofs Props_Loader Props_Admin Lint SpecLint Props_Lint Editor SpecEditor.
From Verif Require AgentProofs.
Import ListNotations.
Open Scope string_scope.
Open Scope list_scope.

(** ** Names *)
Lemma rpc_no_slash n : sforall rpcname_char n = true -> has_char "/" n = false.
Proof.
  intros H. destruct (has_char "/" n) eqn:E; [|reflexivity]. rewrite sforall_has in H. apply H in E. discriminate.
Qed.
Lemma validate_name_spec n name : validate_name n = Some name -> sforall rpcname_char n = true /\ (n = name \/ n = name +++ ".policy").
Proof.
  unfold validate_name. destruct (sforall rpcname_char n); [cbn [negb]|discriminate]. destruct (ends_with ".policy" n) eqn:E.
  - apply ends_with_spec in E as [m ->]. intros H. injection H as <-. split; [reflexivity|]. right.
    rewrite length_app_s. change (String.length ".policy") with 7. replace (String.length m + 7 - 7) with (String.length m) by lia.
    rewrite (AgentProofs.stake_app_eq m ".policy"); reflexivity.
  - intros H. injection H as <-. auto.
Qed.
Lemma named_file file name : validate_name (if starts "include/" file then sdrop 8 file else file) = Some name -> name <> "" ->
  edits_file file (starts "include/" file) name.
Proof.
  intros H N. destruct (starts "include/" file) eqn:S.
  - apply starts_spec in S as [n ->]. change (sdrop 8 ("include/" +++ n)) with n in H. apply validate_name_spec in H as [R H].
    exists n. split; [|exact H]. apply nf_include; [apply rpc_no_slash; exact R|]. destruct H as [-> | ->]; [exact N|]. destruct name; discriminate.
  - apply validate_name_spec in H as [R H]. exists file. split; [|exact H]. apply nf_policy; [apply rpc_no_slash; exact R|].
    destruct H as [-> | ->]; [exact N|]. destruct name; discriminate.
Qed.

(** ** The runs of the editor *)
Lemma edit_once_spec inc edits start k res t : edit_once inc (edits k) (after edits start k) = (res, t) ->
  t = after edits start (S k) /\
  match res with LClean => left_clean inc edits start k | LFaulty => left_faulty inc edits start k | LDied => True end.
Proof.
  unfold edit_once, left_clean, left_faulty, went_well. cbn [after]. destruct (edits k (after edits start k)) as [ok u] eqn:E. cbn [fst snd].
  destruct ok; [|intros H; injection H as <- <-; auto]. destruct u as [u|]; [|intros H; injection H as <- <-; auto].
  destruct (lint_text inc u) as [[|e errs]|] eqn:L; intros H; injection H as <- <-; (split; [reflexivity|]); [eauto| |exact I].
  split; [reflexivity|]. exists u, (e :: errs). split; [reflexivity|]. split; [exact L|discriminate].
Qed.
Definition faulty_before inc edits start n : Prop := forall j, j < n -> left_faulty inc edits start j.
Lemma faulty_more inc edits start n : faulty_before inc edits start n -> left_faulty inc edits start n -> faulty_before inc edits start (S n).
Proof. intros H K j L. destruct (Nat.eq_dec j n) as [-> |N]; [exact K|]. apply H. lia. Qed.
Definition session inc edits start (replies : list string) (r : ed_result) (t : option string) : Prop :=
  match r with
  | EDone => exists k, t = after edits start (S k) /\ left_clean inc edits start k /\ faulty_before inc edits start k
  | EQuit => exists k, t = after edits start k /\ faulty_before inc edits start k /\ 0 < k /\ In "q" replies
  | EDied => exists k, t = after edits start k /\ 0 < k
  end.
Lemma get_reply_spec inc edits start : forall replies n r t, faulty_before inc edits start n -> 0 < n ->
  get_reply inc edits replies n (after edits start n) = (r, t) -> session inc edits start replies r t.
Proof.
  induction replies as [|x replies IH]; intros n r t F P H; cbn [get_reply] in H.
  - injection H as <- <-. exists n. auto.
  - assert (W : session inc edits start replies r t -> session inc edits start (x :: replies) r t).
    { destruct r; cbn; auto. intros (k & A & B & C & D). exists k. auto. }
    destruct (String.eqb x "e").
    + destruct (edit_once inc (edits n) (after edits start n)) as [res u] eqn:E. apply edit_once_spec in E as [-> E].
      destruct res.
      * injection H as <- <-. exists n. auto.
      * apply W. apply (IH (S n)); [apply faulty_more; assumption|lia|exact H].
      * injection H as <- <-. exists (S n). auto with arith.
    + destruct (String.eqb_spec x "q") as [-> |Nq].
      * injection H as <- <-. exists n. cbn. auto.
      * apply W. apply (IH n); assumption.
Qed.
Lemma lint_policy_spec inc edits start replies r t : lint_policy inc edits replies (Some start) = (r, t) -> session inc edits start replies r t.
Proof.
  unfold lint_policy. change (Some start) with (after edits start 0).
  destruct (edit_once inc (edits 0) (after edits start 0)) as [res u] eqn:E. apply edit_once_spec in E as [-> E]. intros H. destruct res.
  - injection H as <- <-. exists 0. split; [reflexivity|]. split; [exact E|]. intros j L. lia.
  - eapply get_reply_spec; [|apply Nat.lt_0_1|exact H]. intros j L. replace j with 0 by lia. exact E.
  - injection H as <- <-. exists 1. auto.
Qed.

(** ** Reading and replacing *)
Lemma client_replace_ok sha f lg fu pp name content token inc f' : has_char NL token = false ->
  client_replace sha f lg fu pp name content token inc = (Some tt, f') ->
  admin_name name /\ token_holds sha f (admin_file pp inc name) token /\ has_content f' (admin_file pp inc name) content /\
  utf8_valid content = true /\ validate f [(admin_file pp inc name, Some content)] lg fu pp = Ok tt /\
  (inc = false \/ fget f (admin_temp pp inc name) = None -> same_elsewhere f f' [admin_file pp inc name]).
Proof.
  intros Nt H. unfold client_replace in H.
  destruct (client_call sha f lg fu pp "Replace" inc (Some name) (token +++ nl +++ content)) as [[out|] g] eqn:E; [|discriminate].
  apply call_arg in E as (o & E & _ & _); [|cbn; auto]. injection H as <-.
  assert (E' : handle_admin sha f lg fu pp (replace_service inc) name (token +++ nl +++ content) = (AOk o, g)) by (destruct inc; exact E).
  pose proof E' as E2. apply replace_ok in E2 as (t & d & _ & Ep & N & A & _ & T & U & V & _ & R & _).
  apply nl_split_unique in Ep as [<- <-]; auto. split; [exact A|]. split; [exact T|]. split; [apply R|]. split; [exact U|]. split; [exact V|].
  intros C. destruct inc.
  - apply (C28_replace_include_partial sha f lg fu pp name) in E' as (t & d & _ & _ & _ & _ & S). apply S. destruct C; [discriminate|assumption].
  - apply (C28_replace sha f lg fu pp name) in E' as (t & d & _ & _ & _ & S). exact S.
Qed.
Lemma client_replace_err sha f lg fu pp name content token inc f' :
  client_replace sha f lg fu pp name content token inc = (None, f') -> fget f (admin_file pp inc name) <> Some NDir -> f' = f.
Proof.
  intros H D. unfold client_replace in H.
  destruct (client_call sha f lg fu pp "Replace" inc (Some name) (token +++ nl +++ content)) as [[out|] g] eqn:E; [discriminate|].
  injection H as <-. unfold client_call in E. fold (client_service inc "Replace") in E.
  destruct (has_char "+" (client_service inc "Replace") || has_char " " (client_service inc "Replace")); [congruence|].
  destruct (has_char " " name); [congruence|]. rewrite script_arg in E by (destruct inc; reflexivity).
  replace (client_service inc "Replace") with (replace_service inc) in E by (destruct inc; reflexivity).
  destruct (handle_admin sha f lg fu pp (replace_service inc) name (token +++ nl +++ content)) as [[o|e] g'] eqn:Eh.
  - apply replace_ok in Eh as (t & d & -> & _). discriminate.
  - assert (g' = g) by (destruct e; congruence). subst g'. eapply C27_error_changes_nothing_partial; [exact Eh|].
    intros i Ei. destruct i, inc; try discriminate; exact D.
Qed.
Lemma get_not_found sha f lg fu pp name inc : client_error sha f lg fu pp "Get" inc name "" = CE_Admin AE_NotFound -> ~ regular f (admin_file pp inc name).
Proof.
  unfold client_error. destruct (has_char " " name); [discriminate|].
  replace ("policy." +++ (if inc then "include." else "") +++ "Get") with (get_service inc) by (destruct inc; reflexivity).
  destruct (handle_admin sha f lg fu pp (get_service inc) name "") as [r g] eqn:E. cbn [fst]. destruct r as [o|e]; [discriminate|].
  intros H. assert (e = AE_NotFound) by (destruct e; congruence). subst e. clear H.
  unfold handle_admin in E. destruct (negb (sforall rpcname_char name)); [discriminate|].
  replace (dget methods (get_service inc)) with (Some (MGet inc)) in E by (destruct inc; reflexivity). cbn [no_arg no_payload andb] in E.
  replace (negb (String.eqb "" "")) with false in E by reflexivity. destruct (negb (is_dir f pp)); [discriminate|]. cbn [run_method] in E.
  unfold with_path in E. destruct (get_path name (target_dir pp inc) (target_suffix inc)) as [p|e] eqn:G.
  - apply with_path_ok in G as [_ ->]. unfold common_get in E. destruct (is_file f (admin_file pp inc name)) eqn:Fi; cbn [negb] in E.
    + destruct (read_bytes f (admin_file pp inc name)) as [c|x]; discriminate.
    + intros [c R]. unfold is_file in Fi. rewrite R in Fi. discriminate.
  - exfalso. unfold get_path in G. destruct (String.eqb name "" || _) ; [congruence|].
    destruct (split_last (resolve (target_dir pp inc) (name +++ target_suffix inc))) as [[d x]|]; [|congruence].
    destruct (path_eqb d (target_dir pp inc)); congruence.
Qed.

(** ** The whole program *)
Lemma start_spec sha f0 lg fu pp name inc start tok : hex_digest sha ->
  start_text sha f0 lg fu pp name inc = Some (start, tok) ->
  starts_with f0 (admin_file pp inc name) start /\ has_char NL tok = false /\
  (has_content f0 (admin_file pp inc name) start /\ tok = "sha256:" +++ sha start \/ ~ regular f0 (admin_file pp inc name) /\ tok = "new").
Proof.
  intros Hx. unfold start_text. destruct (client_get sha f0 lg fu pp name inc) as [[[c t]|] g] eqn:E.
  - intros H. injection H as -> ->. apply C33_get_sound in E as (_ & E & ->); [|exact Hx]. split; [left; exact E|]. split; [|left; auto].
    rewrite has_char_app. destruct (has_char NL (sha start)) eqn:N; [|reflexivity]. apply Hx in N.
    assert (Q : nat_of_ascii NL = 10) by reflexivity. cbv zeta in N. lia.
  - destruct (client_error sha f0 lg fu pp "Get" inc name "") as [e|] eqn:C; [|discriminate]. destruct e; try discriminate.
    intros H. injection H as <- <-. apply get_not_found in C. split; [right; auto|]. split; [reflexivity|right; auto].
Qed.
Lemma token_unchanged sha f0 f1 p start tok : hex_digest sha ->
  (has_content f0 p start /\ tok = "sha256:" +++ sha start \/ ~ regular f0 p /\ tok = "new") -> token_holds sha f1 p tok -> unchanged sha f0 f1 p.
Proof.
  intros Hx H T. apply C29_token_meaning in T. destruct H as [[C ->]|[N ->]].
  - destruct T as [T|[[T _]|(c & C1 & T)]]; [discriminate|discriminate|]. apply un_same with start c; auto.
    apply (f_equal (sdrop 7)) in T. symmetry. exact T.
  - destruct T as [T|[[_ T]|(c & C1 & T)]]; [discriminate| |discriminate]. apply un_absent; assumption.
Qed.

(** What is saved is the text that the editor left last; the linter found nothing in it, and the
    server accepted it. The file has not been changed by anyone else meanwhile. *)
Theorem C91_saved sha f0 f1 lg fu pp arg edits replies f' : hex_digest sha ->
  editor_main sha f0 f1 lg fu pp arg edits replies = ((0, None), f') ->
  exists inc name start k text,
    edits_file (argument arg) inc name /\ starts_with f0 (admin_file pp inc name) start /\
    (forall j, j < k -> left_faulty inc edits start j) /\ left_clean inc edits start k /\
    after edits start (S k) = Some text /\
    unchanged sha f0 f1 (admin_file pp inc name) /\
    has_content f' (admin_file pp inc name) (univ_nl text) /\
    validate f1 [(admin_file pp inc name, Some (univ_nl text))] lg fu pp = Ok tt /\
    (inc = false \/ fget f1 (admin_temp pp inc name) = None -> same_elsewhere f1 f' [admin_file pp inc name]).
Proof.
  intros Hx. unfold editor_main. fold (argument arg).
  destruct (validate_name (if starts "include/" (argument arg) then sdrop 8 (argument arg) else argument arg)) as [name|] eqn:V; [|discriminate].
  set (inc := starts "include/" (argument arg)) in *. unfold manage_policy.
  destruct (start_text sha f0 lg fu pp name inc) as [[start tok]|] eqn:S; [|discriminate].
  apply start_spec in S as (St & Nt & Tk); [|exact Hx].
  destruct (lint_policy inc edits replies (Some start)) as [r t] eqn:L. apply lint_policy_spec in L. destruct r.
  - destruct L as (k & Et & Cl & Fb). destruct t as [t|]; [|discriminate].
    destruct (client_replace sha f1 lg fu pp name (univ_nl t) tok inc) as [[[]|] g] eqn:R; [|discriminate]. intros H. injection H as <-.
    apply client_replace_ok in R as (A & T & C & _ & Vd & Se); [|exact Nt].
    exists inc, name, start, k, t. split; [apply named_file; [exact V|]|].
    { destruct A as [N _]. exact N. }
    split; [exact St|]. split; [exact Fb|]. split; [exact Cl|]. split; [symmetry; exact Et|]. split; [eapply token_unchanged; [exact Hx|exact Tk|exact T]|].
    split; [exact C|]. split; [exact Vd|exact Se].
  - destruct L as (k & Et & Fb & P & _). intros H. destruct k as [|k]; [lia|]. destruct (Fb k) as [_ (u & errs & Eu & _)]; [lia|].
    rewrite Eu in Et. subst t. discriminate.
  - discriminate.
Qed.
(** Leaving without saving changes nothing, and the text is kept. *)
Theorem C91_quit sha f0 f1 lg fu pp arg edits replies t f' : hex_digest sha ->
  editor_main sha f0 f1 lg fu pp arg edits replies = ((0, Some t), f') ->
  f' = f1 /\ In "q" replies /\ exists inc name start k, starts_with f0 (admin_file pp inc name) start /\
    (forall j, j < k -> left_faulty inc edits start j) /\ 0 < k /\ after edits start k = Some t.
Proof.
  intros Hx. unfold editor_main. fold (argument arg).
  destruct (validate_name (if starts "include/" (argument arg) then sdrop 8 (argument arg) else argument arg)) as [name|] eqn:V; [|discriminate].
  set (inc := starts "include/" (argument arg)) in *. unfold manage_policy.
  destruct (start_text sha f0 lg fu pp name inc) as [[start tok]|] eqn:S; [|discriminate].
  apply start_spec in S as (St & Nt & Tk); [|exact Hx].
  destruct (lint_policy inc edits replies (Some start)) as [r u] eqn:L. apply lint_policy_spec in L. destruct r.
  - destruct u as [u|]; [|discriminate]. destruct (client_replace sha f1 lg fu pp name (univ_nl u) tok inc) as [[[]|] g]; discriminate.
  - destruct L as (k & Et & Fb & P & Q). intros H. injection H as -> <-. split; [reflexivity|]. split; [exact Q|]. exists inc, name, start, k. auto.
  - discriminate.
Qed.
(** If it fails nothing changes; if the editor had been started the text is kept (unless the
    editor itself removed it). *)
Theorem C91_failed sha f0 f1 lg fu pp arg edits replies n t f' : hex_digest sha ->
  editor_main sha f0 f1 lg fu pp arg edits replies = ((S n, t), f') ->
  (forall inc name, edits_file (argument arg) inc name -> fget f1 (admin_file pp inc name) <> Some NDir) ->
  n = 0 /\ f' = f1 /\ (t = None \/ exists inc name start k, edits_file (argument arg) inc name /\ starts_with f0 (admin_file pp inc name) start /\
    0 < k /\ t = after edits start k).
Proof.
  intros Hx H D. revert H. unfold editor_main. fold (argument arg).
  destruct (validate_name (if starts "include/" (argument arg) then sdrop 8 (argument arg) else argument arg)) as [name|] eqn:V.
  2:{ intros H. injection H as <- <- <-. auto. }
  destruct (String.eqb_spec name "") as [E0|N0].
  { (* the server refuses the empty name *)
    unfold manage_policy. subst name. set (inc := starts "include/" (argument arg)) in *.
    replace (start_text sha f0 lg fu pp "" inc) with (@None (string * string)).
    - intros H. injection H as <- <- <-. auto.
    - unfold start_text. destruct (client_get sha f0 lg fu pp "" inc) as [[[c t0]|] g] eqn:G.
      + exfalso. unfold client_get in G. destruct (client_call sha f0 lg fu pp "Get" inc (Some "") "") as [[out|] g'] eqn:C; [|discriminate].
        apply call_arg in C as (o & C & _); [|cbn; auto].
        assert (C' : handle_admin sha f0 lg fu pp (get_service inc) "" "" = (AOk o, g')) by (destruct inc; exact C).
        apply get_ok in C' as (x & _ & _ & [Q _] & _). congruence.
      + destruct (client_error sha f0 lg fu pp "Get" inc "" "") as [e|] eqn:C; [|reflexivity]. destruct e; try reflexivity. exfalso.
        unfold client_error in C. cbn [has_char] in C.
        replace ("policy." +++ (if inc then "include." else "") +++ "Get") with (get_service inc) in C by (destruct inc; reflexivity).
        unfold handle_admin in C. replace (dget methods (get_service inc)) with (Some (MGet inc)) in C by (destruct inc; reflexivity).
        cbn [no_arg no_payload andb sforall negb] in C. replace (negb (String.eqb "" "")) with false in C by reflexivity.
        destruct (negb (is_dir f0 pp)); [discriminate|]. discriminate. }
  pose proof (named_file _ _ V N0) as Nf. set (inc := starts "include/" (argument arg)) in *. unfold manage_policy.
  destruct (start_text sha f0 lg fu pp name inc) as [[start tok]|] eqn:S.
  2:{ intros H. injection H as <- <- <-. auto. }
  apply start_spec in S as (St & Nt & Tk); [|exact Hx].
  destruct (lint_policy inc edits replies (Some start)) as [r u] eqn:L. apply lint_policy_spec in L. destruct r.
  - destruct L as (k & Et & Cl & Fb). destruct u as [u|].
    + destruct (client_replace sha f1 lg fu pp name (univ_nl u) tok inc) as [[[]|] g] eqn:R; [discriminate|]. intros H. injection H as <- <- <-.
      apply client_replace_err in R; [|apply D; exact Nf]. split; [reflexivity|]. split; [exact R|]. right. exists inc, name, start, (S k). split; [exact Nf|]. split; [exact St|]. split; [lia|exact Et].
    + intros H. injection H as <- <- <-. auto.
  - discriminate.
  - destruct L as (k & Et & P). intros H. injection H as <- <- <-. split; [reflexivity|]. split; [reflexivity|]. right. exists inc, name, start, k. auto.
Qed.

(** ** A text that the linter and the server accept is saved *)
Lemma admin_no_dot name : admin_name name -> has_char "." name = false.
Proof.
  intros [_ H]. destruct (has_char "." name) eqn:E; [|reflexivity]. apply H in E. revert E. unfold name_letter. cbv. intuition (discriminate || lia).
Qed.
Lemma call_ok sha f lg fu pp rpc inc a payload o f' : In rpc ["Get"; "Replace"; "Remove"; "GetFiles"] ->
  handle_admin sha f lg fu pp (client_service inc rpc) a payload = (AOk o, f') -> has_char " " a = false ->
  utf8_valid (match o with Some s => s | None => "" end) = true ->
  client_call sha f lg fu pp rpc inc (Some a) payload = (Some (match o with Some s => s | None => "" end), f').
Proof.
  intros R H Sp U. unfold client_call. fold (client_service inc rpc).
  assert (P : has_char "+" (client_service inc rpc) = false /\ has_char " " (client_service inc rpc) = false).
  { destruct inc; cbn in R; destruct R as [<-|[<-|[<-|[<-|[]]]]]; split; reflexivity. }
  destruct P as [P1 P2]. rewrite P1, P2, Sp. cbn [orb]. rewrite script_arg by exact P1. rewrite H. rewrite U. reflexivity.
Qed.
Lemma admin_no_space name : admin_name name -> has_char " " name = false.
Proof.
  intros [_ H]. destruct (has_char " " name) eqn:E; [|reflexivity]. apply H in E. revert E. unfold name_letter. cbv. intuition (discriminate || lia).
Qed.
Lemma client_replace_total sha f lg fu pp name content token inc f' : admin_name name ->
  handle_admin sha f lg fu pp (replace_service inc) name (token +++ nl +++ content) = (AOk None, f') ->
  client_replace sha f lg fu pp name content token inc = (Some tt, f').
Proof.
  intros A H. unfold client_replace. rewrite (call_ok sha f lg fu pp "Replace" inc name (token +++ nl +++ content) None f'); [reflexivity|cbn; auto| | |reflexivity].
  - destruct inc; exact H.
  - apply admin_no_space; exact A.
Qed.
Lemma get_absent sha f lg fu pp inc name : admin_name name -> normalise [] pp = pp -> fget f pp = Some NDir -> ~ regular f (admin_file pp inc name) ->
  handle_admin sha f lg fu pp (get_service inc) name "" = (AErr AE_NotFound, f).
Proof.
  intros A N D R. unfold handle_admin. rewrite (name_rpc name A). cbn [negb].
  replace (dget methods (get_service inc)) with (Some (MGet inc)) by (destruct inc; reflexivity). cbn [no_arg no_payload andb].
  replace (negb (String.eqb "" "")) with false by reflexivity. unfold is_dir. rewrite D. cbn [negb]. cbn [run_method].
  rewrite with_path_total by assumption. unfold common_get, is_file. destruct (fget f (admin_file pp inc name)) as [nd|] eqn:E; [destruct nd|]; try reflexivity.
  exfalso. apply R. eexists. exact E.
Qed.
Lemma start_total sha f0 lg fu pp name inc start : hex_digest sha -> admin_name name -> normalise [] pp = pp -> fget f0 pp = Some NDir ->
  starts_with f0 (admin_file pp inc name) start -> utf8_valid start = true ->
  exists tok, start_text sha f0 lg fu pp name inc = Some (start, tok) /\ has_char NL tok = false /\
    (has_content f0 (admin_file pp inc name) start /\ tok = "sha256:" +++ sha start \/ ~ regular f0 (admin_file pp inc name) /\ tok = "new").
Proof.
  intros Hx A N D St U. assert (G : exists tok, start_text sha f0 lg fu pp name inc = Some (start, tok)).
  { unfold start_text. destruct St as [St|[St ->]].
    - rewrite (C33_get_complete sha f0 lg fu pp name inc start Hx A N D St U). eauto.
    - pose proof (get_absent sha f0 lg fu pp inc name A N D St) as G. assert (C : client_get sha f0 lg fu pp name inc = (None, f0)).
      { unfold client_get, client_call. fold (client_service inc "Get"). replace (client_service inc "Get") with (get_service inc) by (destruct inc; reflexivity).
        replace (has_char "+" (get_service inc) || has_char " " (get_service inc)) with false by (destruct inc; reflexivity).
        rewrite (admin_no_space name A). rewrite script_arg by (destruct inc; reflexivity). rewrite G. reflexivity. }
      rewrite C. unfold client_error. rewrite (admin_no_space name A).
      replace ("policy." +++ (if inc then "include." else "") +++ "Get") with (get_service inc) by (destruct inc; reflexivity). rewrite G. cbn [fst]. eauto. }
  destruct G as [tok G]. exists tok. split; [exact G|]. apply start_spec in G; [|exact Hx]. apply G.
Qed.
Lemma edit_once_faulty inc edits start k : left_faulty inc edits start k -> edit_once inc (edits k) (after edits start k) = (LFaulty, after edits start (S k)).
Proof.
  intros (W & t & errs & E & L & N). unfold went_well in W. cbn [after] in *. unfold edit_once. destruct (edits k (after edits start k)) as [ok u]. cbn [fst snd] in *.
  subst ok u. rewrite L. destruct errs; [congruence|reflexivity].
Qed.
Lemma edit_once_clean inc edits start k : left_clean inc edits start k -> edit_once inc (edits k) (after edits start k) = (LClean, after edits start (S k)).
Proof.
  intros (W & t & E & L). unfold went_well in W. cbn [after] in *. unfold edit_once. destruct (edits k (after edits start k)) as [ok u]. cbn [fst snd] in *.
  subst ok u. rewrite L. reflexivity.
Qed.
Lemma get_reply_total inc edits start k : left_clean inc edits start k -> faulty_before inc edits start k -> forall replies n, n <= k -> asks_again (S (k - n)) replies ->
  get_reply inc edits replies n (after edits start n) = (EDone, after edits start (S k)).
Proof.
  intros Cl Fb. induction replies as [|r rs IH]; intros n Le H; cbn [asks_again get_reply] in *; [discriminate|].
  destruct (String.eqb r "e").
  - destruct (Nat.eq_dec n k) as [-> |Ne].
    + rewrite (edit_once_clean inc edits start k Cl). reflexivity.
    + rewrite (edit_once_faulty inc edits start n) by (apply Fb; lia). apply IH; [lia|]. replace (S (k - S n)) with (k - n) by lia. exact H.
  - destruct (String.eqb r "q"); [discriminate|]. destruct H as [H|H]; [discriminate|]. apply IH; assumption.
Qed.
Lemma lint_policy_total inc edits start k replies : left_clean inc edits start k -> faulty_before inc edits start k -> asks_again k replies ->
  lint_policy inc edits replies (Some start) = (EDone, after edits start (S k)).
Proof.
  intros Cl Fb H. unfold lint_policy. change (Some start) with (after edits start 0). destruct k as [|k].
  - rewrite (edit_once_clean inc edits start 0 Cl). reflexivity.
  - rewrite (edit_once_faulty inc edits start 0) by (apply Fb; lia). apply get_reply_total; [exact Cl|exact Fb|lia|].
    replace (S (S k - 1)) with (S k) by lia. exact H.
Qed.
Lemma edits_name arg inc name : edits_file arg inc name -> admin_name name -> starts "include/" arg = inc /\ validate_name (if inc then sdrop 8 arg else arg) = Some name.
Proof.
  intros (n & Nf & E) A.
  assert (V : validate_name n = Some name).
  { unfold validate_name. pose proof (name_rpc name A) as R. destruct E as [-> | ->].
    - rewrite R. cbn [negb]. destruct (ends_with ".policy" name) eqn:W; [|reflexivity]. apply ends_with_spec in W as [m ->].
      pose proof (admin_no_dot _ A) as Dt. rewrite has_char_app in Dt. apply orb_false_iff in Dt as [_ Dt]. discriminate.
    - assert (R2 : sforall rpcname_char (name +++ ".policy") = true) by (rewrite sforall_app, R; reflexivity). rewrite R2. cbn [negb].
      assert (W : ends_with ".policy" (name +++ ".policy") = true) by (apply ends_with_spec; eauto). rewrite W.
      rewrite length_app_s. change (String.length ".policy") with 7. replace (String.length name + 7 - 7) with (String.length name) by lia.
      rewrite (AgentProofs.stake_app_eq name ".policy"); reflexivity. }
  destruct Nf as [n Ns Ne|n Ns Ne].
  - split; [|exact V]. destruct (starts "include/" n) eqn:S; [|reflexivity]. apply starts_spec in S as [m ->]. discriminate.
  - split; [|exact V]. apply starts_spec. eauto.
Qed.
Theorem C91_saves sha f0 f1 lg fu pp arg inc name start edits k replies text tok f' : hex_digest sha ->
  edits_file (argument arg) inc name -> admin_name name -> normalise [] pp = pp -> fget f0 pp = Some NDir ->
  starts_with f0 (admin_file pp inc name) start -> utf8_valid start = true ->
  (forall j, j < k -> left_faulty inc edits start j) -> left_clean inc edits start k -> asks_again k replies ->
  after edits start (S k) = Some text ->
  (has_content f0 (admin_file pp inc name) start /\ tok = "sha256:" +++ sha start \/ ~ regular f0 (admin_file pp inc name) /\ tok = "new") ->
  handle_admin sha f1 lg fu pp (replace_service inc) name (tok +++ nl +++ univ_nl text) = (AOk None, f') ->
  editor_main sha f0 f1 lg fu pp arg edits replies = ((0, None), f').
Proof.
  intros Hx Ef A N D St U Fb Cl Rp At Tk H. destruct (edits_name _ _ _ Ef A) as [Ei Ev]. unfold editor_main. fold (argument arg). rewrite Ei, Ev.
  unfold manage_policy. destruct (start_total sha f0 lg fu pp name inc start Hx A N D St U) as (tok' & -> & _ & Tk').
  assert (tok' = tok) as ->.
  { destruct Tk as [[C ->]|[C ->]], Tk' as [[C' ->]|[C' ->]]; try reflexivity; exfalso; [apply C'|apply C]; eexists; eassumption. }
  rewrite (lint_policy_total inc edits start k replies Cl Fb Rp), At.
  rewrite (client_replace_total sha f1 lg fu pp name (univ_nl text) tok inc f' A H). reflexivity.
Qed.

(** ** Examples *)
Definition ex_edit (arg : string) (texts : list string) (replies : list string) : (nat * option string) * fs :=
  editor_main ex_sha ex_fs ex_fs POLICYPATH_OLD 5 POLICYPATH (Some arg) (fun n _ => (true, nth_error texts n)) replies.
Definition ex_line : string := "qubes.New * work vault allow" +++ nl.
Example C91_example :
  ex_edit "40-new" [ex_line] [] = ((0, None), snd (ex_req ex_fs "policy.Replace" "40-new" ("new" +++ nl +++ ex_line))) /\
  ex_edit "40-new.policy" ["wrong"; ex_line] ["?"; "e"] = ex_edit "40-new" [ex_line] [] /\
  ex_edit "40-new" ["wrong"; ex_line] ["?"; "q"] = ((0, Some "wrong"), ex_fs).
Proof. repeat split; vm_compute; reflexivity. Qed.
(** A file with ordinary rules that another file includes cannot be edited. *)
Theorem C91_include_refuted :
  ex_edit "include/extra" [ex_line] ["q"] = ((0, Some ex_line), ex_fs) /\
  fst (ex_req ex_fs "policy.include.Replace" "extra" ("any" +++ nl +++ ex_line)) = AOk None.
Proof. split; vm_compute; reflexivity. Qed.
(** Someone else changed the file: it is not saved. *)
Example C91_changed_example :
  editor_main ex_sha ex_fs (fset ex_fs (POLICYPATH ++ ["40-new.policy"]) (NFile (Some "#"))) POLICYPATH_OLD 5 POLICYPATH (Some "40-new")
    (fun _ _ => (true, Some ex_line)) [] = ((1, Some ex_line), fset ex_fs (POLICYPATH ++ ["40-new.policy"]) (NFile (Some "#"))).
Proof. vm_compute. reflexivity. Qed.
