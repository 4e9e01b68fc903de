(** Properties C27-C33: policy administration.

    Statements use SpecAdmin.v and SpecLoader.v. *)
From Coq Require Import String Ascii List Bool Arith Lia Permutation Sorting.
From Verif Require Import Base SysInfo Token Rule Policy PolicyExec FileSys Loader Admin
  SpecPolicy SpecRule SpecLoader SpecAdmin
  TokenProofs RuleProofs TextProofs LoaderProofs SelectProofs LoaderExt Props_Policy Props_Loader AdminProofs AdminLoad.
Import ListNotations.
Open Scope string_scope.
Open Scope list_scope.

(** ** Successful requests *)
Lemma validate_change_ok f lg fu pp p c : validate_change f lg fu pp p c = None -> validate f [(p, c)] lg fu pp = Ok tt.
Proof. unfold validate_change. destruct (validate f [(p, c)] lg fu pp) as [[]|[]]; try discriminate. reflexivity. Qed.
Lemma app_inj_r a b s : a +++ s = b +++ s -> a = b.
Proof.
  revert b. induction a as [|c a IH]; intros [|d b] E; auto.
  - apply (f_equal String.length) in E. cbn in E. rewrite length_app_s in E. lia.
  - apply (f_equal String.length) in E. cbn in E. rewrite length_app_s in E. lia.
  - cbn in E. inv E. f_equal. auto.
Qed.
Lemma has_char_split c s : has_char c s = true -> exists a b, s = a +++ String c b /\ has_char c a = false.
Proof.
  intros H. destruct (split1 c s) as [[a b]|] eqn:E.
  - apply split1_spec in E. eauto.
  - apply split1_None in E. congruence.
Qed.
Lemma replace_ok sha f lg fu pp inc arg payload out f' :
  handle_admin sha f lg fu pp (replace_service inc) arg payload = (AOk out, f') ->
  let p := admin_file pp inc arg in let tmp := admin_temp pp inc arg in
  exists token data, out = None /\ payload = token +++ nl +++ data /\ has_char NL token = false /\
    admin_name arg /\ fget f pp = Some NDir /\ token_holds sha f p token /\ utf8_valid data = true /\
    validate f [(p, Some data)] lg fu pp = Ok tt /\
    f' = fset (fdel (fset f tmp (NFile (Some data))) tmp) p (NFile (Some data)) /\
    replaced f f' p tmp data /\
    fget f p <> Some NDir /\ (fget f tmp = None \/ regular f tmp).
Proof.
  intros H p tmp. apply handle_method in H as [(e&E&_)|(m&Hm&_&_&_&D&H)]; [discriminate|].
  rewrite methods_replace in Hm. injection Hm as <-. cbn [run_method] in H. unfold with_path in H.
  destruct (get_path _ _ _) as [q|] eqn:Eg; [|discriminate]. apply with_path_ok in Eg as [Hn ->].
  apply replace_outcome in H as [(e&E&_)|[(e&t&d&E&_)|(t&d&E&->&N&T&U&V&->&K1&K2)]]; [discriminate|discriminate|].
  exists t, d. injection E as ->. repeat (split; auto).
  - apply validate_change_ok. exact V.
  - apply (replaced_effect f p tmp d (temp_neq inc pp arg)).
  - apply (replaced_effect f p tmp d (temp_neq inc pp arg)).
  - apply (replaced_effect f p tmp d (temp_neq inc pp arg)).
Qed.
Lemma remove_ok sha f lg fu pp inc arg payload out f' :
  handle_admin sha f lg fu pp (remove_service inc) arg payload = (AOk out, f') ->
  let p := admin_file pp inc arg in
  out = None /\ admin_name arg /\ fget f pp = Some NDir /\ token_holds sha f p payload /\ regular f p /\
  validate f [(p, None)] lg fu pp = Ok tt /\ f' = fdel f p.
Proof.
  intros H p. apply handle_method in H as [(e&E&_)|(m&Hm&_&_&_&D&H)]; [discriminate|].
  rewrite methods_remove in Hm. injection Hm as <-. cbn [run_method] in H. unfold with_path in H.
  destruct (get_path _ _ _) as [q|] eqn:Eg; [|discriminate]. apply with_path_ok in Eg as [Hn ->].
  apply remove_outcome in H as [(e&E&_)|(E&->&T&R&V)]; [discriminate|]. injection E as ->.
  apply validate_change_ok in V. repeat (split; auto); apply Hn.
Qed.

(** ** C27 A failed request changes nothing *)

(** [_partial]: the object under the target name must not be a directory *)
Theorem C27_error_changes_nothing_partial sha f lg fu pp service arg payload e f' :
  handle_admin sha f lg fu pp service arg payload = (AErr e, f') ->
  (forall inc, service = replace_service inc -> fget f (admin_file pp inc arg) <> Some NDir) ->
  f' = f.
Proof.
  intros H N. apply handle_method in H as [(e'&_&->)|(m&Hm&_&_&_&_&H)]; [reflexivity|].
  apply methods_inv in Hm as [(inc&[[-> ->]|[[-> ->]|[[-> ->]|[-> ->]]]])|[-> ->]]; cbn [run_method] in H.
  - eapply common_list_same; eauto.
  - unfold with_path in H. destruct (get_path _ _ _); [|inv H; auto]. eapply common_get_same; eauto.
  - unfold with_path in H. destruct (get_path _ _ _) as [p|] eqn:Eg; [|inv H; auto].
    apply with_path_ok in Eg as [Hn ->].
    apply replace_outcome in H as [(e'&_&->)|[(e'&t&d&_&_&_&K)|(t&d&E&_)]]; [auto| |discriminate].
    exfalso. exact (N inc eq_refl K).
  - unfold with_path in H. destruct (get_path _ _ _) as [p|]; [|inv H; auto].
    apply remove_outcome in H as [(e'&_&->)|(E&_)]; [auto|discriminate].
  - eapply get_files_same; eauto.
Qed.

(** ** C28 Requests touch only the named file *)
Lemma bang_bad n : plain_filename ("!" +++ n) -> False.
Proof.
  intros H. assert (K : has_char "!" ("!" +++ n) = true) by reflexivity. apply H in K.
  destruct K as [K|K]; cbn in K; [lia|]. destruct K as [K|[K|[K|[]]]]; discriminate.
Qed.
Lemma temp_policy_file f pp arg : regular f (admin_temp pp false arg) -> policy_file f pp ("!" +++ arg +++ ".policy").
Proof.
  intros R. cbn [admin_temp] in R. split; [|split; [|exact R]].
  - apply entry_spec. destruct R as [c ->]. discriminate.
  - exists ("!" +++ arg). repeat split. discriminate.
Qed.
Lemma validate_no_temp f o lg fu pp arg u : validate f o lg fu pp = Ok u -> ~ regular f (admin_temp pp false arg).
Proof.
  unfold validate. rewrite os_to_denied_ok. intros V R.
  apply bind_ok in V as (fl & V & _). unfold validate_dir in V.
  apply bind_ok in V as (names & Hn & V). apply bind_ok in V as (l & Hl & _).
  unfold iterdir in Hn. destruct (is_dir f pp); [|discriminate]. inv Hn.
  unfold filter_filepaths in Hl. destruct (forallb (sforall filename_char) (filter (candidate f pp) (listing f pp))) eqn:E; [|discriminate].
  rewrite forallb_forall in E. apply temp_policy_file, candidates_In, E, filename_spec in R. exact (bang_bad _ R).
Qed.

Theorem C28_replace sha f lg fu pp arg payload out f' :
  handle_admin sha f lg fu pp "policy.Replace" arg payload = (AOk out, f') ->
  exists token data, payload = token +++ nl +++ data /\ has_char NL token = false /\
    has_content f' (pp ++ [arg +++ ".policy"]) data /\
    same_elsewhere f f' [pp ++ [arg +++ ".policy"]].
Proof.
  intros H. apply (replace_ok sha f lg fu pp false) in H as (t & d & _ & -> & N & A & D & T & U & V & _ & R & _ & Tm).
  exists t, d. destruct R as [R1 R2 R3]. repeat (split; auto).
  intros q Hq. cbn in Hq.
  destruct (path_eqb_spec q (admin_temp pp false arg)) as [->|Nq].
  - rewrite R2. destruct Tm as [->|Tm]; [auto|]. exfalso. eapply validate_no_temp; eauto.
  - apply R3. cbn. intros [K|[K|[]]]; [apply Hq; left; exact K|]. apply Nq. symmetry. exact K.
Qed.
(** [_partial]: unless a file with the name of the temporary file exists *)
Theorem C28_replace_include_partial sha f lg fu pp arg payload out f' :
  handle_admin sha f lg fu pp "policy.include.Replace" arg payload = (AOk out, f') ->
  exists token data, payload = token +++ nl +++ data /\ has_char NL token = false /\
    has_content f' (pp ++ ["include"; arg]) data /\
    same_elsewhere f f' [pp ++ ["include"; arg]; pp ++ ["include"; "!" +++ arg]] /\
    (fget f (pp ++ ["include"; "!" +++ arg]) = None -> same_elsewhere f f' [pp ++ ["include"; arg]]).
Proof.
  intros H. apply (replace_ok sha f lg fu pp true) in H as (t & d & _ & -> & N & A & D & T & U & V & _ & R & _ & Tm).
  exists t, d. destruct R as [R1 R2 R3]. repeat (split; auto).
  intros Ht q Hq. cbn in Hq.
  destruct (path_eqb_spec q (admin_temp pp true arg)) as [->|Nq].
  - rewrite R2. symmetry. exact Ht.
  - apply R3. cbn. intros [K|[K|[]]]; [apply Hq; left; exact K|]. apply Nq. symmetry. exact K.
Qed.
Theorem C28_remove sha f lg fu pp inc arg payload out f' :
  handle_admin sha f lg fu pp (remove_service inc) arg payload = (AOk out, f') ->
  regular f (admin_file pp inc arg) /\ fget f' (admin_file pp inc arg) = None /\
  same_elsewhere f f' [admin_file pp inc arg].
Proof.
  intros H. apply remove_ok in H as (_ & A & D & T & R & V & ->). split; auto. split; [apply fget_fdel|].
  intros q Hq. apply fget_fdel_other. cbn in Hq. intros ->. tauto.
Qed.
Theorem C28_read_only sha f lg fu pp service arg payload r f' :
  handle_admin sha f lg fu pp service arg payload = (r, f') ->
  (forall inc, service <> replace_service inc /\ service <> remove_service inc) -> f' = f.
Proof.
  intros H N. apply handle_method in H as [(e'&_&->)|(m&Hm&_&_&_&_&H)]; [reflexivity|].
  apply methods_inv in Hm as [(inc&[[-> ->]|[[-> ->]|[[-> ->]|[-> ->]]]])|[-> ->]]; cbn [run_method] in H.
  - eapply common_list_same; eauto.
  - unfold with_path in H. destruct (get_path _ _ _); [|inv H; auto]. eapply common_get_same; eauto.
  - exfalso. exact (proj1 (N inc) eq_refl).
  - exfalso. exact (proj2 (N inc) eq_refl).
  - eapply get_files_same; eauto.
Qed.

(** what Get answers *)
Lemma get_ok sha f lg fu pp inc arg payload out f' :
  handle_admin sha f lg fu pp (get_service inc) arg payload = (AOk out, f') ->
  exists c, out = Some ("sha256:" +++ sha c +++ nl +++ c) /\ f' = f /\ admin_name arg /\
    has_content f (admin_file pp inc arg) c.
Proof.
  intros H. apply handle_method in H as [(e&E&_)|(m&Hm&_&_&_&D&H)]; [discriminate|].
  rewrite methods_get in Hm. injection Hm as <-. cbn [run_method] in H. unfold with_path in H.
  destruct (get_path _ _ _) as [q|] eqn:Eg; [|discriminate]. apply with_path_ok in Eg as [Hn ->].
  unfold common_get in H. destruct (negb (is_file f (admin_file pp inc arg))); [discriminate|].
  destruct (read_bytes f (admin_file pp inc arg)) as [c|] eqn:Er; [|discriminate].
  apply read_bytes_spec in Er. inv H. exists c. repeat (split; auto); apply Hn.
Qed.
(** requests that find the named file reach it *)
Lemma name_rpc s : admin_name s -> sforall rpcname_char s = true.
Proof.
  intros [_ H]. apply sforall_has. intros c Hc. apply rpcname_char_spec. apply H in Hc.
  unfold service_char. destruct Hc as [Hc|Hc]; [|cbn in Hc; cbn; tauto]. cbn. tauto.
Qed.
Lemma get_path_total arg dir inc : admin_name arg -> normalise [] dir = dir ->
  get_path arg dir (target_suffix inc) = inl (dir ++ [arg +++ target_suffix inc]).
Proof.
  intros A Nd. destruct (get_path arg dir (target_suffix inc)) as [p|e] eqn:E.
  - apply get_path_ok in E as [_ ->]; [reflexivity|]. destruct inc; auto.
  - exfalso. unfold get_path in E. pose proof (proj2 (admin_name_spec arg) A) as Ea. rewrite Ea in E.
    assert (Ne : arg +++ target_suffix inc <> "") by (destruct A as [A _]; destruct arg; cbn; congruence).
    assert (Nd1 : arg +++ target_suffix inc <> ".").
    { apply (app_eq_last arg _ "."); [eapply admin_name_no; eauto|apply A]. }
    assert (Nd2 : arg +++ target_suffix inc <> "..").
    { pose proof (admin_name_no "." arg A eq_refl) as Hn. destruct A as [A _]. destruct arg as [|x s]; [congruence|].
      intros K. cbn in K. inv K. cbn in Hn. discriminate. }
    assert (Sl : has_char "/" (arg +++ target_suffix inc) = false).
    { rewrite has_char_app, (admin_name_no "/" arg A eq_refl). destruct inc; reflexivity. }
    assert (Ab : path_abs (arg +++ target_suffix inc) = false).
    { unfold path_abs. destruct (arg +++ target_suffix inc) as [|x s] eqn:K; auto. cbn in Sl |- *. destruct (Ascii.eqb "/" x); auto. }
    unfold resolve in E. rewrite Ab, path_parts_one, normalise_app, Nd in E; auto. cbn [normalise] in E.
    destruct (String.eqb_spec (arg +++ target_suffix inc) ".."); [contradiction|]. rewrite split_last_app in E.
    rewrite path_eqb_refl in E. discriminate.
Qed.
Lemma target_norm pp inc : normalise [] pp = pp -> normalise [] (target_dir pp inc) = target_dir pp inc.
Proof. intros N. destruct inc; [|exact N]. cbn [target_dir]. rewrite normalise_app, N. reflexivity. Qed.
Lemma target_file pp inc arg : target_dir pp inc ++ [arg +++ target_suffix inc] = admin_file pp inc arg.
Proof. destruct inc; cbn; [rewrite app_nil_s, <- app_assoc|]; reflexivity. Qed.
Lemma with_path_total f pp inc arg k : admin_name arg -> normalise [] pp = pp ->
  with_path f pp inc arg k = k (admin_file pp inc arg).
Proof.
  intros A N. unfold with_path. rewrite get_path_total; auto; [|apply target_norm; auto].
  rewrite target_file. reflexivity.
Qed.
Lemma get_total sha f lg fu pp inc arg c : admin_name arg -> normalise [] pp = pp -> fget f pp = Some NDir ->
  has_content f (admin_file pp inc arg) c ->
  handle_admin sha f lg fu pp (get_service inc) arg "" = (AOk (Some ("sha256:" +++ sha c +++ nl +++ c)), f).
Proof.
  intros A N D C. unfold handle_admin. rewrite (name_rpc _ A), methods_get. cbn [negb no_arg no_payload andb String.eqb].
  apply is_dir_spec in D. rewrite D. cbn [negb run_method]. rewrite with_path_total by auto.
  unfold common_get, is_file. pose proof C as C'. apply read_bytes_spec in C'. rewrite C'. unfold has_content in C. rewrite C.
  cbn [negb]. unfold compute_token. rewrite app_assoc_s. reflexivity.
Qed.
Lemma pp_neq_file pp inc arg : pp <> admin_file pp inc arg /\ pp <> admin_temp pp inc arg.
Proof.
  unfold admin_file, admin_temp. split; intros H; apply (f_equal (@length string)) in H; destruct inc; rewrite app_length in H; cbn in H; lia.
Qed.
(** a path the request could use is normalised *)
Lemma with_path_norm sha f lg fu pp inc arg payload out f' :
  handle_admin sha f lg fu pp (replace_service inc) arg payload = (AOk out, f') -> normalise [] pp = pp.
Proof.
  intros H. apply handle_method in H as [(e&E&_)|(m&Hm&_&_&_&D&H)]; [discriminate|].
  rewrite methods_replace in Hm. injection Hm as <-. cbn [run_method] in H. unfold with_path in H.
  destruct (get_path _ _ _) as [q|] eqn:Eg; [|discriminate]. clear H. pose proof Eg as Eg'. apply with_path_ok in Eg' as [Hn ->].
  unfold get_path in Eg. destruct (String.eqb arg "" || negb (sforall word_char arg)); [discriminate|].
  set (r := resolve (target_dir pp inc) (arg +++ target_suffix inc)) in *.
  destruct (split_last r) as [[d n]|] eqn:Es; [|discriminate].
  destruct (path_eqb_spec d (target_dir pp inc)) as [->|]; [|discriminate]. 
  assert (Er : r = admin_file pp inc arg) by (injection Eg; auto). unfold r in Er. clear - Er Hn.
  assert (Sl : has_char "/" (arg +++ target_suffix inc) = false).
  { rewrite has_char_app, (admin_name_no "/" arg Hn eq_refl). destruct inc; reflexivity. }
  assert (Ab : path_abs (arg +++ target_suffix inc) = false).
  { unfold path_abs. destruct (arg +++ target_suffix inc) as [|x s] eqn:K; auto. cbn in Sl |- *. destruct (Ascii.eqb "/" x); auto. }
  assert (Ne : arg +++ target_suffix inc <> "") by (destruct Hn as [A _]; destruct arg; cbn; congruence).
  assert (Nd1 : arg +++ target_suffix inc <> ".").
  { apply (app_eq_last arg _ "."); [eapply admin_name_no; eauto|apply Hn]. }
  assert (Nd2 : arg +++ target_suffix inc <> "..").
  { pose proof (admin_name_no "." arg Hn eq_refl) as Hx. destruct Hn as [A _]. destruct arg as [|x s]; [congruence|].
    intros K. cbn in K. inv K. cbn in Hx. discriminate. }
  unfold resolve in Er. rewrite Ab, path_parts_one, normalise_app, <- target_file in Er; auto. cbn [normalise] in Er.
  destruct (String.eqb_spec (arg +++ target_suffix inc) ".."); [contradiction|].
  apply app_inj_tail in Er as [Er _]. destruct inc; [|exact Er]. cbn [target_dir] in Er. rewrite normalise_app in Er. cbn in Er.
  apply app_inj_tail in Er as [Er _]. exact Er.
Qed.
Theorem C28_get_after_replace sha f lg fu pp inc arg payload out f' :
  handle_admin sha f lg fu pp (replace_service inc) arg payload = (AOk out, f') ->
  exists token data, payload = token +++ nl +++ data /\ has_char NL token = false /\
    handle_admin sha f' lg fu pp (get_service inc) arg "" = (AOk (Some ("sha256:" +++ sha data +++ nl +++ data)), f').
Proof.
  intros H. pose proof (with_path_norm _ _ _ _ _ _ _ _ _ _ H) as Nm.
  apply replace_ok in H as (t & d & _ & -> & N & A & D & T & U & V & _ & R & _ & Tm).
  exists t, d. split; [auto|split; [auto|]]. apply get_total; auto.
  - destruct R as [_ _ R3]. rewrite R3; auto. destruct (pp_neq_file pp inc arg) as [P1 P2]. cbn. intuition.
  - apply R.
Qed.

(** ** C29 Tokens *)
Theorem C29_replace_token sha f lg fu pp inc arg payload out f' :
  handle_admin sha f lg fu pp (replace_service inc) arg payload = (AOk out, f') ->
  exists token data, payload = token +++ nl +++ data /\ has_char NL token = false /\
    token_holds sha f (admin_file pp inc arg) token.
Proof. intros H. apply replace_ok in H as (t & d & _ & -> & N & _ & _ & T & _). eauto. Qed.
Theorem C29_remove_token sha f lg fu pp inc arg token out f' :
  handle_admin sha f lg fu pp (remove_service inc) arg token = (AOk out, f') ->
  token_holds sha f (admin_file pp inc arg) token.
Proof. intros H. apply remove_ok in H as (_ & _ & _ & T & _). exact T. Qed.

(** serialised requests *)
Definition succeeded (r : aresult) : bool := match r with AOk _ => true | AErr _ => false end.
Inductive history (sha : string -> string) (lg : path) (fu : nat) (pp : path) : fs -> list event -> fs -> Prop :=
| hi_nil f : history sha lg fu pp f [] f
| hi_step f h f1 service arg payload r f2 : history sha lg fu pp f h f1 ->
    handle_admin sha f1 lg fu pp service arg payload = (r, f2) ->
    history sha lg fu pp f (h ++ [mkEvent service arg payload (succeeded r)]) f2.

Lemma file_inj pp inc arg inc' arg' : admin_name arg -> admin_name arg' ->
  admin_file pp inc arg = admin_file pp inc' arg' -> inc = inc' /\ arg = arg'.
Proof.
  intros A A' H. unfold admin_file in H. destruct inc, inc'; apply app_inv_head in H; inv H; auto.
  split; auto. revert H1. apply app_inj_r.
Qed.
Lemma temp_not_file pp inc arg inc' arg' : admin_name arg' -> admin_temp pp inc arg <> admin_file pp inc' arg'.
Proof.
  intros A H. unfold admin_file, admin_temp in H.
  assert (K : forall x y, "!" +++ x = arg' +++ y -> False).
  { intros x y E. pose proof (admin_name_no "!" arg' A eq_refl) as Hb. destruct A as [A _].
    destruct arg' as [|c s]; [congruence|]. cbn in E. inv E. cbn in Hb. discriminate. }
  destruct inc, inc'; apply app_inv_head in H; try discriminate.
  - injection H as H. apply (K arg ""). rewrite app_nil_s. exact H.
  - injection H as H. apply (K (arg +++ ".policy") ".policy"). exact H.
Qed.
(** changes made to a file, by the log of requests *)
Lemma nl_split_unique t d t' d' : has_char NL t = false -> has_char NL t' = false ->
  t +++ nl +++ d = t' +++ nl +++ d' -> t = t' /\ d = d'.
Proof.
  intros H H' E.
  assert (S1 : split1 NL (t +++ nl +++ d) = Some (t, d)) by (apply split1_spec; auto).
  assert (S2 : split1 NL (t +++ nl +++ d) = Some (t', d')) by (rewrite E; apply split1_spec; auto).
  rewrite S1 in S2. inv S2. auto.
Qed.
Theorem C29_history sha lg fu pp f0 h f1 inc name x : history sha lg fu pp f0 h f1 -> admin_name name ->
  last_change inc name h x ->
  fget f1 (admin_file pp inc name) =
  match x with
  | None => fget f0 (admin_file pp inc name)
  | Some None => None
  | Some (Some data) => Some (NFile (Some data))
  end.
Proof.
  intros H A. revert x. induction H as [f|f h f1 service arg payload r f2 H IH Hs]; intros x L.
  - inversion L as [E|hh t d Nt E|hh t E|hh e y Ne Ly E]; auto;
      apply app_eq_nil in E; destruct E as [_ E]; discriminate E.
  - inversion L as [E|hh t d Nt E|hh t E|hh e y Ne Ly E]; subst.
    + symmetry in E. apply app_eq_nil in E as [_ E]. discriminate.
    + apply app_inj_tail in E as [_ E]. injection E as <- <- <- Er.
      destruct r as [out|]; [|discriminate].
      apply replace_ok in Hs as (t' & d' & _ & Ep & N & _ & _ & _ & _ & _ & _ & R & _).
      apply nl_split_unique in Ep as [-> ->]; auto. apply R.
    + apply app_inj_tail in E as [_ E]. injection E as <- <- <- Er.
      destruct r as [out|]; [|discriminate].
      apply remove_ok in Hs as (_ & _ & _ & _ & _ & _ & ->). apply fget_fdel.
    + apply app_inj_tail in E as [-> ->]. rewrite <- (IH _ Ly).
      pose proof (request_effect _ _ _ _ _ _ _ _ _ _ Hs) as Ef. cbn in Ne.
      destruct Ef as [|inc' arg' t d f' A' T U R|inc' arg' t d e A' D|inc' arg' t A' T R]; auto.
      * destruct (list_eq_dec string_dec (admin_file pp inc' arg') (admin_file pp inc name)) as [E|NE].
        { apply file_inj in E as [-> ->]; auto. exfalso. apply Ne. cbn. auto. }
        apply R. cbn. intros [K|[K|[]]]; [auto|]. symmetry in K. exact (temp_not_file _ _ _ _ _ A (eq_sym K)).
      * apply fget_fset_other. intros K. exact (temp_not_file _ _ _ _ _ A (eq_sym K)).
      * destruct (list_eq_dec string_dec (admin_file pp inc' arg') (admin_file pp inc name)) as [E|NE].
        { apply file_inj in E as [-> ->]; auto. exfalso. apply Ne. cbn. auto. }
        apply fget_fdel_other. auto.
Qed.
(** the log determines the last change *)
Theorem C29_log_total inc name h : (forall e, In e h -> ev_result e = true -> ev_service e = replace_service inc ->
    has_char NL (ev_payload e) = true) -> exists x, last_change inc name h x.
Proof.
  induction h as [|e h IH] using rev_ind; intros W; [eexists; constructor|].
  destruct IH as [x Lx]; [intros e' He'; apply W, in_or_app; auto|].
  destruct (ev_result e) eqn:Er; [|exists x; apply lc_other; auto; intros [K _]; congruence].
  destruct (string_dec (ev_arg e) name) as [En|En]; [|exists x; apply lc_other; auto; tauto].
  destruct (string_dec (ev_service e) (replace_service inc)) as [Es|Es].
  - assert (He : has_char NL (ev_payload e) = true) by (apply W; auto; apply in_or_app; right; left; auto).
    apply has_char_split in He as (t & d & Ep & Nt). exists (Some (Some d)).
    destruct e as [s a p r]; cbn in *; subst. apply lc_replace. exact Nt.
  - destruct (string_dec (ev_service e) (remove_service inc)) as [Es'|Es'].
    + exists (Some None). destruct e as [s a p r]; cbn in *; subst. apply lc_remove.
    + exists x. apply lc_other; auto. tauto.
Qed.

(** A client that got a token from Get, and whose Replace with that token
    succeeds after any history, replaces content with the same digest. *)
Theorem C29_no_lost_update sha lg fu pp inc name fa out h fb token data out' f' :
  hex_digest sha -> admin_name name ->
  handle_admin sha fa lg fu pp (get_service inc) name "" = (AOk (Some out), fa) ->
  starts (token +++ nl) out = true -> has_char NL token = false ->
  history sha lg fu pp fa h fb ->
  handle_admin sha fb lg fu pp (replace_service inc) name (token +++ nl +++ data) = (AOk out', f') ->
  exists c c', has_content fa (admin_file pp inc name) c /\ has_content fb (admin_file pp inc name) c' /\
    sha c' = sha c.
Proof.
  intros Hx A G St Nt Hh R.
  apply get_ok in G as (c & E & _ & _ & Hc).
  assert (Eo : out = "sha256:" +++ sha c +++ nl +++ c) by congruence. clear E. subst out.
  apply starts_split in St as [r St].
  assert (Nx : has_char NL ("sha256:" +++ sha c) = false).
  { rewrite has_char_app. replace (has_char NL "sha256:") with false by reflexivity. cbn [orb].
    destruct (has_char NL (sha c)) eqn:E; auto. apply Hx in E. cbn in E. lia. }
  assert (Et : "sha256:" +++ sha c = token /\ c = r).
  { apply nl_split_unique; auto. rewrite app_assoc_s. rewrite St, app_assoc_s. reflexivity. }
  destruct Et as [<- _].
  apply replace_ok in R as (t & d & _ & Ep & N & _ & _ & T & _).
  apply nl_split_unique in Ep as [<- <-]; auto.
  exists c. remember ("sha256:" +++ sha c) as tk eqn:Ek. destruct T as [|K|c' K].
  - discriminate.
  - discriminate.
  - exists c'. repeat (split; auto). apply app_inj_l_s in Ek. exact Ek.
Qed.
(** token "new": only if the file does not exist; any other token that is not
    "any" needs the digest of the present content *)
Theorem C29_token_meaning sha f p t : token_holds sha f p t <->
  t = "any" \/ (t = "new" /\ fget f p = None) \/ exists c, has_content f p c /\ t = "sha256:" +++ sha c.
Proof.
  split.
  - intros H. destruct H; auto. right. right. eauto.
  - intros [->|[[-> H]|(c & H & ->)]]; constructor; auto.
Qed.

(** ** C30 Confinement *)
Theorem C30_changes_confined sha f lg fu pp service arg payload r f' q :
  handle_admin sha f lg fu pp service arg payload = (r, f') -> fget f' q <> fget f q ->
  admin_name arg /\ exists inc, q = admin_file pp inc arg \/ q = admin_temp pp inc arg.
Proof.
  intros H N. apply request_effect in H. destruct H as [|inc arg t d f' A T U R|inc arg t d e A D|inc arg t A T R].
  - congruence.
  - split; auto. exists inc. destruct (list_eq_dec string_dec q (admin_file pp inc arg)); auto.
    destruct (list_eq_dec string_dec q (admin_temp pp inc arg)); auto.
    exfalso. apply N. apply R. cbn. intuition.
  - split; auto. exists inc. destruct (list_eq_dec string_dec q (admin_temp pp inc arg)); auto.
    exfalso. apply N. apply fget_fset_other. auto.
  - split; auto. exists inc. destruct (list_eq_dec string_dec q (admin_file pp inc arg)); auto.
    exfalso. apply N. apply fget_fdel_other. auto.
Qed.
(** Get reads nothing but the named file (and the presence of the directory) *)
Theorem C30_get_confined sha f1 f2 lg fu pp inc arg payload :
  fget f1 pp = fget f2 pp ->
  (admin_name arg -> fget f1 (admin_file pp inc arg) = fget f2 (admin_file pp inc arg)) ->
  fst (handle_admin sha f1 lg fu pp (get_service inc) arg payload) =
  fst (handle_admin sha f2 lg fu pp (get_service inc) arg payload).
Proof.
  intros D E. unfold handle_admin. destruct (negb (sforall rpcname_char arg)); [reflexivity|].
  rewrite methods_get. destruct (no_arg (MGet inc) && negb (String.eqb arg "")); [reflexivity|].
  destruct (no_payload (MGet inc) && negb (String.eqb payload "")); [reflexivity|].
  unfold is_dir. rewrite D. destruct (negb _); [reflexivity|]. cbn [run_method]. unfold with_path.
  destruct (get_path _ _ _) as [p|] eqn:Eg; [|reflexivity]. apply with_path_ok in Eg as [A ->]. specialize (E A).
  unfold common_get, is_file, read_bytes. rewrite E.
  destruct (fget f2 (admin_file pp inc arg)) as [[[c|]| |]|]; reflexivity.
Qed.
Theorem C30_names sha f lg fu pp service arg payload out f' :
  handle_admin sha f lg fu pp service arg payload = (AOk out, f') ->
  (exists inc, service = get_service inc \/ service = replace_service inc \/ service = remove_service inc) ->
  admin_name arg.
Proof.
  intros H (inc & [E|[E|E]]); subst service.
  - apply get_ok in H as (c & _ & _ & A & _). exact A.
  - apply replace_ok in H as (t & d & _ & _ & _ & A & _). exact A.
  - apply remove_ok in H as (_ & A & _). exact A.
Qed.

(** ** C31 Crash points of Replace *)
Lemma stages_spec f p tmp data g : tmp = temp_path p -> tmp <> p -> In g (stages f p data) ->
  g = f \/ (exists d r, data = d +++ r /\ g = fset f tmp (NFile (Some d))) \/
  (fget f p <> Some NDir /\ g = fset (fdel (fset f tmp (NFile (Some data))) tmp) p (NFile (Some data))).
Proof.
  intros Et N H. unfold stages in H. rewrite <- Et in H. cbn [In] in H. destruct H as [<-|H]; [auto|].
  apply in_app_or in H as [H|H].
  - right. left. apply in_map_iff in H as (d & <- & Hd).
    assert (X : forall s d, In d (prefixes s) -> exists r, s = d +++ r).
    { clear. induction s as [|c s IH]; cbn; intros d.
      - intros [<-|[]]. exists "". reflexivity.
      - intros [<-|H]; [exists (String c s); reflexivity|]. apply in_map_iff in H as (x & <- & Hx).
        destruct (IH x Hx) as [r ->]. exists r. reflexivity. }
    apply X in Hd as [r Hr]. eauto.
  - right. right. unfold frename in H. rewrite fget_fset in H.
    destruct (is_dir (fset f tmp (NFile (Some data))) p) eqn:E; [destruct H|]. destruct H as [<-|[]]. split; auto.
    intros K. rewrite <- (fget_fset_other f tmp (NFile (Some data))) in K by auto. apply is_dir_spec in K. congruence.
Qed.
Lemma stages_last sha f lg fu pp inc arg token data out f' : has_char NL token = false ->
  handle_admin sha f lg fu pp (replace_service inc) arg (token +++ nl +++ data) = (AOk out, f') ->
  exists mid, stages f (admin_file pp inc arg) data = f :: mid ++ [f'].
Proof.
  intros Nt H. apply replace_ok in H as (t & d & _ & E & N & _ & _ & _ & _ & _ & Ef & _ & K & _).
  apply nl_split_unique in E as [<- <-]; auto.
  unfold stages. rewrite temp_path_spec. unfold frename. rewrite fget_fset.
  destruct (is_dir _ _) eqn:Ed.
  { apply is_dir_spec in Ed. rewrite fget_fset_other in Ed; [contradiction|]. intros X. symmetry in X. exact (temp_neq _ _ _ X). }
  eexists. rewrite Ef. reflexivity.
Qed.
(** At every stage the named file has its complete old or new content and no
    file other than it and the temporary file differs; the stages start with
    the old tree and end with the new one. *)
Theorem C31_old_or_new sha f lg fu pp inc arg token data out f' : has_char NL token = false ->
  handle_admin sha f lg fu pp (replace_service inc) arg (token +++ nl +++ data) = (AOk out, f') ->
  (exists mid, stages f (admin_file pp inc arg) data = f :: mid ++ [f']) /\
  forall g, In g (stages f (admin_file pp inc arg) data) ->
    (fget g (admin_file pp inc arg) = fget f (admin_file pp inc arg) \/ has_content g (admin_file pp inc arg) data) /\
    same_elsewhere f g [admin_file pp inc arg; admin_temp pp inc arg].
Proof.
  intros Nt H. split; [eapply stages_last; eauto|]. intros g Hg.
  apply (stages_spec f _ (admin_temp pp inc arg)) in Hg; [|symmetry; apply temp_path_spec|apply temp_neq].
  pose proof (temp_neq inc pp arg) as Nq.
  destruct Hg as [->|[(d & r & -> & ->)|(_ & ->)]].
  - split; [auto|]. intros q _. reflexivity.
  - split; [left; apply fget_fset_other; auto|]. intros q Hq. apply fget_fset_other. cbn in Hq. intuition.
  - pose proof (replaced_effect f (admin_file pp inc arg) (admin_temp pp inc arg) data Nq) as R.
    split; [right|]; apply R.
Qed.
(** The full claim (the tree can still be loaded) is false of the code: while
    the temporary file of a policy file exists, loading fails for every reader,
    and no Replace or Remove succeeds, so the administration interface cannot
    repair the tree. *)
Theorem C31_stopped_in_between_refuted sha f lg fu pp arg d dirs service arg' payload r g g' :
  wf_fs f -> g = fset f (admin_temp pp false arg) (NFile (Some d)) -> In pp dirs ->
  load_policy g lg fu dirs = Err (EAccessDenied true) /\
  ((exists inc, service = replace_service inc \/ service = remove_service inc) ->
   handle_admin sha g lg fu pp service arg' payload = (r, g') -> exists e, r = AErr e).
Proof.
  intros W -> Hd.
  assert (Rg : regular (fset f (admin_temp pp false arg) (NFile (Some d))) (admin_temp pp false arg)).
  { exists (Some d). apply fget_fset. }
  split.
  - apply (C21_bad_name_refused _ _ _ _ pp ("!" +++ arg +++ ".policy")); auto.
    + apply wf_fset. exact W.
    + apply temp_policy_file. exact Rg.
    + intros K. exact (bang_bad _ K).
  - intros (inc & [E|E]) H; subst service; destruct r as [out|e]; eauto; exfalso.
    + apply replace_ok in H as (t & dd & _ & _ & _ & _ & _ & _ & _ & V & _). exact (validate_no_temp _ _ _ _ _ _ _ V Rg).
    + apply remove_ok in H as (_ & _ & _ & _ & _ & V & _). exact (validate_no_temp _ _ _ _ _ _ _ V Rg).
Qed.

(** ** A new file that is no policy file changes nothing *)
Lemma text_rules_incl (opens opens' : string -> string -> list string -> Prop)
  (lists lists' : string -> list (string * list string) -> Prop) (legacy legacy' : list rule -> Prop) :
  (forall p f l, opens p f l -> opens' p f l) -> (forall p fl, lists p fl -> lists' p fl) ->
  (forall rs, legacy rs -> legacy' rs) ->
  (forall file ls rs, text_rules opens lists legacy file ls rs -> text_rules opens' lists' legacy' file ls rs) /\
  (forall files rs, files_rules opens lists legacy files rs -> files_rules opens' lists' legacy' files rs).
Proof.
  intros Ho Hl Hc. apply text_files_ind; intros.
  - apply tr_end.
  - apply tr_inert; auto.
  - eapply tr_rule; eauto.
  - eapply tr_include; eauto.
  - eapply tr_include_dir; eauto.
  - eapply tr_include_service; eauto. eapply service_rules_mono; eauto.
  - eapply tr_compat; eauto.
  - constructor.
  - constructor; auto.
Qed.
Theorem new_file_inert f g lg dirs d0 n0 rs :
  (forall q, q <> d0 ++ [n0] -> fget g q = fget f q) -> fget f (d0 ++ [n0]) = None ->
  ~ policy_name n0 -> ~ service_chars n0 ->
  policy_of f lg dirs rs -> policy_of g lg dirs rs.
Proof.
  intros Same Abs Np Ns.
  assert (Keep : forall q x, fget f q = Some x -> fget g q = Some x).
  { intros q x H. rewrite Same; auto. intros ->. congruence. }
  assert (Lines : forall q ls, file_lines f q ls -> file_lines g q ls).
  { intros q ls (c & Hc & R). exists c. split; auto. }
  assert (PF : forall d n, policy_file g d n <-> policy_file f d n).
  { intros d n. unfold policy_file, regular. rewrite !entry_spec.
    destruct (list_eq_dec string_dec (d ++ [n]) (d0 ++ [n0])) as [E|E].
    - apply app_inj_tail in E as [-> ->]. split; intros (_ & K & _); contradiction.
    - rewrite Same by auto. reflexivity. }
  assert (LF : forall d n, legacy_file g d n <-> legacy_file f d n).
  { intros d n. unfold legacy_file, regular. rewrite !entry_spec.
    destruct (list_eq_dec string_dec (d ++ [n]) (d0 ++ [n0])) as [E|E].
    - apply app_inj_tail in E as [-> ->]. split; intros (_ & _ & _ & _ & K); contradiction.
    - rewrite Same by auto. reflexivity. }
  assert (Op : forall base p file ls, opens_at f base p file ls -> opens_at g base p file ls).
  { intros base p file ls [E H]. split; auto. }
  assert (PD : forall d l, policy_dir f d l -> policy_dir g d l).
  { intros d l (D & S & I & P). split; [auto|split; [auto|split; [|auto]]]. intros n. rewrite PF. auto. }
  assert (Li : forall base p fl, lists_at f base p fl -> lists_at g base p fl).
  { intros base p fl (names & D & F). exists names. split; auto.
    clear - F Lines. induction F as [|x y l l' [E H] F IH]; constructor; auto. }
  assert (Le : forall rs, legacy_policy f lg rs -> legacy_policy g lg rs).
  { intros r (l & (D & S & I) & R). exists l. split.
    - split; [auto|split; [auto|]]. intros s a n. rewrite LF. apply I.
    - clear - R Lines Op. induction R; [constructor| |].
      + eapply lr_general; eauto. eapply service_rules_mono; [apply Op|eassumption].
      + eapply lr_specific; eauto. eapply service_rules_mono; [apply Op|eassumption]. }
  intros (sel & (C1 & C2 & C3 & C4) & R). exists sel. split.
  - split; [auto|split; [|split; [auto|]]].
    + intros d n Hd Hn. eapply C2; eauto. apply PF, Hn.
    + intros d n. rewrite C4. split; intros (b & a & E & Hp & Hb); exists b, a; (split; [auto|split; [apply PF, Hp|]]);
        intros d' Hd' K; apply (Hb d' Hd'), PF, K.
  - clear - R Lines Op Li Le. induction R; [constructor|]. eapply cr_file; eauto. unfold file_rules in *.
    eapply (proj1 (text_rules_incl _ _ _ _ _ _ (Op d) (Li d) Le)); eauto.
Qed.

(** ** C32 Validated changes load *)
Lemma plain_policy_name arg : plain_filename arg -> plain_filename (arg +++ ".policy").
Proof.
  intros H c Hc. rewrite has_char_app in Hc. apply orb_true_iff in Hc as [Hc|Hc]; auto.
  assert (K : sforall filename_char ".policy" = true) by reflexivity.
  apply filename_char_spec. rewrite sforall_has in K. auto.
Qed.
Lemma admin_no_policy_name arg : admin_name arg -> ~ policy_name arg /\ ~ policy_name ("!" +++ arg).
Proof.
  intros A. pose proof (admin_name_no "." arg A eq_refl) as N. split; intros (s & E & _).
  - rewrite E, has_char_app in N. apply orb_false_iff in N as [_ N]. discriminate.
  - destruct s as [|c s]; [discriminate|]. cbn in E. inv E. rewrite has_char_app in N. apply orb_false_iff in N as [_ N]. discriminate.
Qed.
Lemma admin_file_name pp inc arg d n : admin_name arg -> (inc = false -> plain_filename arg) ->
  admin_file pp inc arg = d ++ [n] -> policy_name n -> plain_filename n.
Proof.
  intros A P E Hn. unfold admin_file in E. destruct inc.
  - change (pp ++ ["include"; arg]) with (pp ++ ["include"] ++ [arg]) in E. rewrite app_assoc in E.
    apply app_inj_tail in E as [_ <-]. exfalso. exact (proj1 (admin_no_policy_name _ A) Hn).
  - apply app_inj_tail in E as [_ <-]. apply plain_policy_name. auto.
Qed.

(** [_partial]: the name has no upper case letter (policy files only), the
    content has no carriage return, no file with the name of the temporary
    include file exists, no legacy file reads the changed file. The last two
    do not concern the usual trees; all but the third are needed (below). *)
Theorem C32_replace_loads_partial sha f lg fu pp inc arg token data out f' : wf_fs f ->
  has_char NL token = false ->
  handle_admin sha f lg fu pp (replace_service inc) arg (token +++ nl +++ data) = (AOk out, f') ->
  (inc = false -> plain_filename arg) -> has_char CR data = false ->
  (inc = true -> fget f (admin_temp pp inc arg) = None) ->
  legacy_apart f lg (admin_file pp inc arg) ->
  exists fuel rs, load_policy f' lg fuel [pp] = Ok rs.
Proof.
  intros W Nt H P Nc Ht La.
  apply replace_ok in H as (t & d & _ & E & N & A & D & T & U & V & Ef & R & Nd & Tm).
  apply nl_split_unique in E as [<- <-]; auto.
  assert (Tn : fget f (admin_temp pp inc arg) = None).
  { destruct inc; [auto|]. destruct Tm as [Tm|Tm]; auto. exfalso. eapply validate_no_temp; eauto. }
  assert (C : changed f f' (admin_file pp inc arg) (Some data)).
  { constructor; auto.
    - rewrite Ef. apply wf_fset, wf_fdel, wf_fset, W.
    - apply R.
    - intros q Hq. destruct (path_eqb_spec q (admin_temp pp inc arg)) as [->|Nq].
      + rewrite Tn. apply R.
      + apply R. cbn. intuition.
    - intros c K. inv K. split; auto. apply lines_univ_lf. exact Nc. }
  eapply validated_loads; eauto.
  - intros d' n K. eapply admin_file_name; eauto.
  - intros rs Hl. exists rs. eapply legacy_apart_loads; eauto.
Qed.
Theorem C32_remove_loads_partial sha f lg fu pp inc arg token out f' : wf_fs f ->
  handle_admin sha f lg fu pp (remove_service inc) arg token = (AOk out, f') ->
  legacy_apart f lg (admin_file pp inc arg) ->
  exists fuel rs, load_policy f' lg fuel [pp] = Ok rs.
Proof.
  intros W H La. apply remove_ok in H as (_ & A & D & T & Rg & V & ->).
  assert (C : changed f (fdel f (admin_file pp inc arg)) (admin_file pp inc arg) None).
  { constructor; auto.
    - apply wf_fdel, W.
    - apply fget_fdel.
    - intros q Hq. apply fget_fdel_other. exact Hq.
    - destruct Rg as [c ->]. discriminate.
    - intros c K. discriminate. }
  unfold validate in V. pose proof V as V'. 
  eapply (validated_loads f _ (admin_file pp inc arg) None); eauto.
  - (* the file to be removed is one of the checked ones *)
    intros d' n E Hn. unfold admin_file in E. destruct inc.
    + change (pp ++ ["include"; arg]) with (pp ++ ["include"] ++ [arg]) in E. rewrite app_assoc in E.
      apply app_inj_tail in E as [_ <-]. exfalso. exact (proj1 (admin_no_policy_name _ A) Hn).
    + apply app_inj_tail in E as [<- <-]. apply (proj1 (os_to_denied_ok _ _)) in V.
      apply bind_ok in V as (fl & V & _). unfold validate_dir in V.
      apply bind_ok in V as (names & Hns & V). apply bind_ok in V as (l & Hl & _).
      unfold iterdir in Hns. destruct (is_dir f pp); [|discriminate]. inv Hns.
      unfold filter_filepaths in Hl.
      destruct (forallb (sforall filename_char) (filter (candidate f pp) (listing f pp))) eqn:Ef; [|discriminate].
      rewrite forallb_forall in Ef. apply filename_spec, Ef, candidates_In. split; [|split; auto].
      apply entry_spec. destruct Rg as [c K]. cbn [admin_file] in K. rewrite K. discriminate.
  - intros rs Hl. exists rs. eapply legacy_apart_loads; eauto.
Qed.

(** An include file is replaced without a moment in which the policy does not
    load: [_partial] as above, and the policy must have loaded before. *)
Theorem C31_include_loads_partial sha f lg fu pp arg token data out f' fuel rs g : wf_fs f ->
  has_char NL token = false ->
  handle_admin sha f lg fu pp "policy.include.Replace" arg (token +++ nl +++ data) = (AOk out, f') ->
  has_char CR data = false -> fget f (pp ++ ["include"; "!" +++ arg]) = None ->
  legacy_apart f lg (pp ++ ["include"; arg]) ->
  load_policy f lg fuel [pp] = Ok rs ->
  In g (stages f (pp ++ ["include"; arg]) data) ->
  exists fuel' rs', load_policy g lg fuel' [pp] = Ok rs' /\ (g <> f' -> rs' = rs).
Proof.
  intros W Nt H Nc Tn La Ld Hg.
  pose proof (stages_last sha f lg fu pp true arg token data out f' Nt H) as _.
  apply (stages_spec f _ (admin_temp pp true arg)) in Hg; [|symmetry; apply (temp_path_spec true)|apply temp_neq].
  destruct Hg as [->|[(d & r & -> & ->)|(_ & Eg)]].
  - exists fuel, rs. auto.
  - assert (A : admin_name arg).
    { apply (replace_ok sha f lg fu pp true) in H as (t & dd & _ & _ & _ & A & _). exact A. }
    assert (X : policy_of f lg [pp] rs) by (apply load_policy_spec; eauto).
    cbn [admin_temp] in *. change (pp ++ ["include"; "!" +++ arg]) with (pp ++ ["include"] ++ ["!" +++ arg]) in *.
    rewrite app_assoc in *.
    apply (new_file_inert f (fset f ((pp ++ ["include"]) ++ ["!" +++ arg]) (NFile (Some d)))) with (d0 := pp ++ ["include"]) (n0 := "!" +++ arg) in X; auto.
    + apply load_policy_spec in X as [fu' X]; [|apply wf_fset; exact W]. exists fu', rs. auto.
    + intros q Hq. apply fget_fset_other. exact Hq.
    + exact (proj2 (admin_no_policy_name _ A)).
    + intros K. apply valid_chars_spec in K. vm_compute in K. discriminate.
  - assert (Eq : g = f').
    { apply (replace_ok sha f lg fu pp true) in H as (t & dd & _ & E & N & _ & _ & _ & _ & _ & Ef & _).
      apply nl_split_unique in E as [<- <-]; auto. rewrite Eg, Ef. reflexivity. }
    subst g. rewrite Eq. destruct (C32_replace_loads_partial sha f lg fu pp true arg token data out f') as (fu' & rs' & X); auto.
    + discriminate.
    + exists fu', rs'. split; auto. congruence.
Qed.

(** ** C33 The client library *)
Definition client_service (inc : bool) (rpc : string) : string := "policy." +++ (if inc then "include." else "") +++ rpc.
Lemma script_arg sha f lg fu pp service a payload : has_char "+" service = false ->
  admin_script sha f lg fu pp (service +++ "+" +++ a) payload =
  match handle_admin sha f lg fu pp service a payload with
  | (AOk out, f') => ((0, match out with Some s => s | None => "" end), f')
  | (AErr (AE_Raw _), f') => ((2, ""), f')
  | (AErr _, f') => ((1, ""), f')
  end.
Proof.
  intros H. unfold admin_script. replace (split1 "+" (service +++ "+" +++ a)) with (Some (service, a)); [reflexivity|].
  symmetry. apply split1_spec. auto.
Qed.
Lemma call_arg sha f lg fu pp rpc inc a payload out f' : In rpc ["Get"; "Replace"; "Remove"; "GetFiles"] ->
  client_call sha f lg fu pp rpc inc (Some a) payload = (Some out, f') ->
  exists o, handle_admin sha f lg fu pp (client_service inc rpc) a payload = (AOk o, f') /\
    out = match o with Some s => s | None => "" end /\ utf8_valid out = true.
Proof.
  intros Hr H. unfold client_call in H. fold (client_service inc rpc) in H.
  assert (P : has_char "+" (client_service inc rpc) = false).
  { cbn in Hr. destruct inc; destruct Hr as [<-|[<-|[<-|[<-|[]]]]]; reflexivity. }
  destruct (has_char "+" (client_service inc rpc) || has_char " " (client_service inc rpc)); [discriminate|].
  destruct (has_char " " a); [discriminate|]. rewrite script_arg in H by exact P.
  destruct (handle_admin sha f lg fu pp (client_service inc rpc) a payload) as [[o|e] g]; [|destruct e; discriminate].
  destruct (utf8_valid _) eqn:U in H; [|discriminate]. inv H. exists o. auto.
Qed.

Theorem C33_get_sound sha f lg fu pp name inc c t f' : hex_digest sha ->
  client_get sha f lg fu pp name inc = (Some (c, t), f') ->
  f' = f /\ has_content f (admin_file pp inc name) c /\ t = "sha256:" +++ sha c.
Proof.
  intros Hx H. unfold client_get in H.
  destruct (client_call sha f lg fu pp "Get" inc (Some name) "") as [[out|] g] eqn:E; [|discriminate].
  apply call_arg in E as (o & E & Eo & U); [|cbn; auto].
  assert (E' : handle_admin sha f lg fu pp (get_service inc) name "" = (AOk o, g)) by (destruct inc; exact E).
  apply get_ok in E' as (c' & -> & -> & A & Hc). subst out.
  assert (Nx : has_char NL ("sha256:" +++ sha c') = false).
  { rewrite has_char_app. replace (has_char NL "sha256:") with false by reflexivity. cbn [orb].
    destruct (has_char NL (sha c')) eqn:En; auto. apply Hx in En. cbn in En. lia. }
  replace (split1 NL ("sha256:" +++ sha c' +++ nl +++ c')) with (Some ("sha256:" +++ sha c', c')) in H.
  - injection H as Ec Et Ef. subst c t f'. auto.
  - symmetry. apply split1_spec. split; [|exact Nx]. rewrite app_assoc_s. reflexivity.
Qed.
Lemma utf8_ascii_app a b : sforall (fun c => (nat_of_ascii c <=? 127)%nat) a = true -> utf8_valid (a +++ b) = utf8_valid b.
Proof.
  unfold utf8_valid. induction a as [|c a IH]; [reflexivity|]. intros H. cbn [sforall] in H. apply andb_prop in H as [Hc H].
  cbn [append utf8_valid_aux]. rewrite Hc. auto.
Qed.
Theorem C33_get_complete sha f lg fu pp name inc c : hex_digest sha -> admin_name name -> normalise [] pp = pp ->
  fget f pp = Some NDir -> has_content f (admin_file pp inc name) c -> utf8_valid c = true ->
  client_get sha f lg fu pp name inc = (Some (c, "sha256:" +++ sha c), f).
Proof.
  intros Hx A Nm D Hc U. unfold client_get, client_call. fold (client_service inc "Get").
  replace (has_char "+" (client_service inc "Get") || has_char " " (client_service inc "Get")) with false by (destruct inc; reflexivity).
  rewrite (admin_name_no " " name A eq_refl). rewrite script_arg by (destruct inc; reflexivity).
  replace (client_service inc "Get") with (get_service inc) by (destruct inc; reflexivity).
  rewrite (get_total sha f lg fu pp inc name c) by auto.
  assert (Ha : sforall (fun c => (nat_of_ascii c <=? 127)%nat) (("sha256:" +++ sha c) +++ nl) = true).
  { apply sforall_has. intros x Hxx. rewrite !has_char_app in Hxx. apply Nat.leb_le.
    apply orb_prop in Hxx as [Hxx|Hxx]; [apply orb_prop in Hxx as [Hxx|Hxx]|].
    - assert (K : sforall (fun c => (nat_of_ascii c <=? 127)%nat) "sha256:" = true) by reflexivity.
      rewrite sforall_has in K. apply K in Hxx. apply Nat.leb_le. exact Hxx.
    - apply Hx in Hxx. cbn in Hxx. lia.
    - assert (K : sforall (fun c => (nat_of_ascii c <=? 127)%nat) nl = true) by reflexivity.
      rewrite sforall_has in K. apply K in Hxx. apply Nat.leb_le. exact Hxx. }
  replace ("sha256:" +++ sha c +++ nl +++ c) with ((("sha256:" +++ sha c) +++ nl) +++ c) by (rewrite !app_assoc_s; reflexivity).
  rewrite utf8_ascii_app, U by exact Ha.
  assert (Nx : has_char NL ("sha256:" +++ sha c) = false).
  { rewrite has_char_app. replace (has_char NL "sha256:") with false by reflexivity. cbn [orb].
    destruct (has_char NL (sha c)) eqn:En; auto. apply Hx in En. cbn in En. lia. }
  replace (split1 NL ((("sha256:" +++ sha c) +++ nl) +++ c)) with (Some ("sha256:" +++ sha c, c)); [reflexivity|].
  symmetry. apply split1_spec. split; [|exact Nx]. rewrite app_assoc_s. reflexivity.
Qed.
Theorem C33_replace sha f lg fu pp name content token inc f' : has_char NL token = false ->
  client_replace sha f lg fu pp name content token inc = (Some tt, f') ->
  has_content f' (admin_file pp inc name) content /\ token_holds sha f (admin_file pp inc name) token.
Proof.
  intros Nt H. unfold client_replace in H.
  destruct (client_call sha f lg fu pp "Replace" inc (Some name) (token +++ nl +++ content)) as [[out|] g] eqn:E; [|discriminate].
  apply call_arg in E as (o & E & _ & _); [|cbn; auto]. inv H.
  assert (E' : handle_admin sha f lg fu pp (replace_service inc) name (token +++ nl +++ content) = (AOk o, f')) by (destruct inc; exact E).
  apply replace_ok in E' as (t & d & _ & Ep & N & _ & _ & T & _ & _ & _ & R & _).
  apply nl_split_unique in Ep as [<- <-]; auto. split; [apply R|exact T].
Qed.
Theorem C33_remove sha f lg fu pp name token inc f' :
  client_remove sha f lg fu pp name token inc = (Some tt, f') ->
  regular f (admin_file pp inc name) /\ fget f' (admin_file pp inc name) = None /\
  token_holds sha f (admin_file pp inc name) token.
Proof.
  intros H. unfold client_remove in H.
  destruct (client_call sha f lg fu pp "Remove" inc (Some name) token) as [[out|] g] eqn:E; [|discriminate].
  apply call_arg in E as (o & E & _ & _); [|cbn; auto]. inv H.
  assert (E' : handle_admin sha f lg fu pp (remove_service inc) name token = (AOk o, f')) by (destruct inc; exact E).
  apply remove_ok in E' as (_ & _ & _ & T & R & _ & ->). split; [auto|]. split; [apply fget_fdel|auto].
Qed.

(** lists *)
Lemma lines_out_split l : l <> [] -> (forall n, In n l -> has_char NL n = false) -> (forall n, n = last l "" -> n <> "" \/ l = [""]) ->
  split_all NL (rstrip_char NL (lines_out l)) = l.
Proof.
  intros Ne Nn La.
  assert (R1 : forall s, has_char NL s = false -> rstrip_char NL (s +++ nl) = rstrip_char NL s).
  { induction s as [|c s IH]; intros H; [reflexivity|]. cbn [has_char] in H. apply orb_false_iff in H as [_ H].
    cbn [append rstrip_char]. rewrite IH by auto. reflexivity. }
  assert (R2 : forall s, has_char NL s = false -> rstrip_char NL s = s).
  { induction s as [|c s IH]; intros H; [reflexivity|]. cbn [has_char] in H. apply orb_false_iff in H as [Hc H].
    cbn [rstrip_char]. rewrite IH by auto. destruct s; [|reflexivity]. rewrite Ascii.eqb_sym, Hc. reflexivity. }
  assert (R3 : forall s t, rstrip_char NL t <> "" -> rstrip_char NL (s +++ t) = s +++ rstrip_char NL t).
  { induction s as [|c s IH]; intros t H; [reflexivity|]. cbn [append rstrip_char]. rewrite IH by auto.
    destruct (s +++ rstrip_char NL t) eqn:E; [|reflexivity]. destruct s; [cbn in E; contradiction|discriminate]. }
  assert (Sp : forall a t, has_char NL a = false -> split_all NL (a +++ String NL t) = a :: split_all NL t).
  { induction a as [|c a IH]; intros t H; [cbn [append split_all]; rewrite Ascii.eqb_refl; reflexivity|].
    cbn [has_char] in H. apply orb_false_iff in H as [Hc H]. cbn [append split_all]. rewrite Hc, IH by auto. reflexivity. }
  destruct (list_eq_dec string_dec l [""]) as [->|N1]; [reflexivity|].
  assert (La' : last l "" <> "") by (destruct (La _ eq_refl); [auto|contradiction]). clear La N1.
  assert (G : rstrip_char NL (lines_out l) <> "" /\ split_all NL (rstrip_char NL (lines_out l)) = l); [|apply G].
  induction l as [|x l IH]; [contradiction|]. destruct l as [|y l].
  - cbn in La'. cbn [lines_out fold_right]. rewrite app_nil_s, R1, R2 by (apply Nn; left; auto). split; auto.
    apply split_all_single. apply Nn. left; auto.
  - destruct IH as [I1 I2]; [discriminate|intros n Hn; apply Nn; right; auto|exact La'|].
    change (lines_out (x :: y :: l)) with (x +++ nl +++ lines_out (y :: l)).
    assert (Q : rstrip_char NL (nl +++ lines_out (y :: l)) = nl +++ rstrip_char NL (lines_out (y :: l))) by (apply R3; auto).
    rewrite R3; rewrite Q; [|discriminate]. split; [destruct x; discriminate|].
    change (x +++ nl +++ rstrip_char NL (lines_out (y :: l))) with (x +++ String NL (rstrip_char NL (lines_out (y :: l)))).
    rewrite Sp by (apply Nn; left; auto). rewrite I2. reflexivity.
Qed.

Lemma stake_sdrop n s : stake n s +++ sdrop n s = s.
Proof. revert s. induction n as [|n IH]; intros [|c s]; cbn; auto. rewrite IH. reflexivity. Qed.
Lemma stake_app a b : stake (String.length a) (a +++ b) = a.
Proof. induction a as [|c a IH]; cbn; [destruct b; reflexivity|]. rewrite IH. reflexivity. Qed.
Lemma ends_with_spec suff s : ends_with suff s = true <-> exists n, s = n +++ suff.
Proof.
  unfold ends_with. rewrite andb_true_iff, Nat.leb_le, String.eqb_eq. split.
  - intros [L E]. exists (stake (String.length s - String.length suff) s). pose proof (stake_sdrop (String.length s - String.length suff) s) as K. rewrite E in K. auto.
  - intros [n ->]. rewrite length_app_s. split; [lia|].
    replace (String.length n + String.length suff - String.length suff) with (String.length n) by lia. apply sdrop_app.
Qed.
Lemma list_name_spec suff s n : In n (list_name suff s) <-> s = n +++ suff.
Proof.
  unfold list_name. destruct (String.eqb_spec suff "") as [->|Ns].
  - rewrite app_nil_s. cbn. intuition.
  - destruct (ends_with suff s) eqn:E.
    + apply ends_with_spec in E as [m ->]. cbn. rewrite length_app_s.
      replace (String.length m + String.length suff - String.length suff) with (String.length m) by lia.
      rewrite stake_app. split; [intros [<-|[]]; reflexivity|]. intros H. apply app_inj_r in H. auto.
    + cbn. split; [tauto|]. intros ->. rewrite (proj2 (ends_with_spec suff (n +++ suff))) in E; [discriminate|eauto].
Qed.
Lemma list_name_one suff s : exists l, list_name suff s = l /\ NoDup l.
Proof.
  eexists. split; [reflexivity|]. unfold list_name. destruct (String.eqb suff ""); [repeat constructor; auto|].
  destruct (ends_with suff s); repeat constructor; auto.
Qed.
Theorem list_names_spec f d suff l : wf_fs f -> list_names f d suff = Ok l -> listed f d suff l.
Proof.
  intros W H. unfold list_names in H. apply bind_ok in H as (names & Hn & H). inv H.
  unfold iterdir in Hn. destruct (is_dir f d) eqn:Ed; [|discriminate]. inv Hn.
  set (fl := filter (fun n => is_file f (d ++ [n])) (listing f d)).
  assert (In' : forall n, In n (flat_map (list_name suff) fl) <-> entry f d (n +++ suff) /\ regular f (d ++ [n +++ suff])).
  { intros n. rewrite in_flat_map. split.
    - intros (x & Hx & Hl). apply list_name_spec in Hl. subst x. apply filter_In in Hx as [H1 H2].
      split; auto. apply is_file_spec. exact H2.
    - intros [H1 H2]. exists (n +++ suff). split; [apply filter_In; split; auto; apply is_file_spec; exact H2|]. apply list_name_spec. reflexivity. }
  assert (Nd : NoDup (flat_map (list_name suff) fl)).
  { assert (Nl : NoDup fl) by (apply NoDup_filter, listing_NoDup, W). clear In'.
    induction Nl as [|x l Hx Nl IH]; cbn; [constructor|]. apply NoDup_app_iff_local; auto.
    - destruct (list_name_one suff x) as (y & -> & Hy). exact Hy.
    - intros n Hn K. apply in_flat_map in K as (z & Hz & K). apply list_name_spec in Hn, K. subst. contradiction. }
  split; [apply is_dir_spec; exact Ed|]. split.
  - apply (sort_sorted (fun _ => True)); auto. apply str_strict.
  - intros n. rewrite <- In'. split; intros K.
    + eapply Permutation_in; [apply Permutation_sym, sort_perm|exact K].
    + eapply Permutation_in; [apply sort_perm|exact K].
Qed.
Lemma listed_fun f d suff l l' : listed f d suff l -> listed f d suff l' -> l = l'.
Proof.
  intros (_ & S & I) (_ & S' & I'). apply (sorted_unique lt_bytes); auto.
  - intros x _. apply lt_irrefl.
  - intros x y _ _ H H'. exact (lt_irrefl x (lt_trans _ _ _ H H')).
  - intros x. rewrite I, I'. reflexivity.
Qed.
Definition list_dir (pp : path) (inc : bool) : path := if inc then pp ++ ["include"] else pp.
Definition list_suffix (inc : bool) : string := if inc then "" else ".policy".
(** The server lists the regular files; [_partial]: the client returns that
    list if no name contains a line break and there is a file at all. *)
Theorem C33_list_partial sha f lg fu pp inc l f' : wf_fs f ->
  client_list sha f lg fu pp inc = (Some l, f') ->
  f' = f /\ exists l', listed f (list_dir pp inc) (list_suffix inc) l' /\
    ((forall n, In n l' -> has_char NL n = false) -> l' <> [] -> l = l').
Proof.
  intros W H. unfold client_list, client_call in H. fold (client_service inc "List") in H.
  replace (has_char "+" (client_service inc "List") || has_char " " (client_service inc "List")) with false in H by (destruct inc; reflexivity).
  unfold admin_script in H. replace (split1 "+" (client_service inc "List")) with (@None (string * string)) in H by (destruct inc; reflexivity).
  replace (client_service inc "List") with (list_service inc) in H by (destruct inc; reflexivity).
  destruct (handle_admin sha f lg fu pp (list_service inc) "" "") as [r g] eqn:E.
  apply handle_method in E as [(e&->&->)|(m&Hm&_&_&_&D&E)]; [destruct e; discriminate|].
  rewrite methods_list in Hm. injection Hm as <-. cbn [run_method] in E. unfold common_list in E.
  destruct (list_names f (target_dir pp inc) (target_suffix inc)) as [ln|] eqn:El; [|inv E; discriminate].
  apply list_names_spec in El; [|exact W].
  destruct (is_ascii (lines_out ln)); [|inv E; discriminate]. inv E.
  destruct (utf8_valid (lines_out ln)); [|discriminate]. inv H.
  split; [reflexivity|]. exists ln. split; [destruct inc; exact El|].
  intros Nn Ne. apply lines_out_split; auto. intros n ->.
  destruct El as (_ & S & _). destruct ln as [|x ln] using rev_ind; [contradiction|]. clear IHln. rewrite last_last.
  destruct (string_dec x "") as [->|]; [|auto]. right. destruct ln as [|y ln]; [reflexivity|]. exfalso.
  pose proof (sorted_before lt_bytes (y :: ln) "" [] S y (or_introl eq_refl)) as K. inversion K.
Qed.

(** GetFiles *)
Lemma dedup_spec l : forall seen done, first_occurrences done seen ->
  first_occurrences (done ++ l) (seen ++ dedup seen l).
Proof.
  induction l as [|x l IH]; intros seen done H; cbn [dedup]; [rewrite !app_nil_r; exact H|].
  assert (Hin : In x done <-> In x seen).
  { clear - H. induction H; cbn; [tauto| |].
    - rewrite !in_app_iff, IHfirst_occurrences. reflexivity.
    - rewrite in_app_iff, <- IHfirst_occurrences. cbn. intuition (subst; auto). }
  replace (done ++ x :: l) with ((done ++ [x]) ++ l) by (rewrite <- app_assoc; reflexivity).
  destruct (smem x seen) eqn:E.
  - apply smem_In in E. apply IH. apply fo_old; auto. apply Hin. exact E.
  - replace (seen ++ x :: dedup (seen ++ [x]) l) with ((seen ++ [x]) ++ dedup (seen ++ [x]) l) by (rewrite <- app_assoc; reflexivity).
    apply IH. apply fo_new; auto. rewrite Hin, <- smem_In, E. discriminate.
Qed.

Lemma split_all_ne c s : split_all c s <> [].
Proof. destruct s as [|d s]; cbn; [discriminate|]. destruct (Ascii.eqb c d); [discriminate|]. destruct (split_all c s); discriminate. Qed.
Lemma split_all_app c a b : split_all c (a +++ String c b) = split_all c a ++ split_all c b.
Proof.
  induction a as [|d a IH]; cbn [append split_all]; [rewrite Ascii.eqb_refl; reflexivity|].
  destruct (Ascii.eqb c d); [rewrite IH; reflexivity|]. rewrite IH.
  destruct (split_all c a) as [|h t] eqn:E; [destruct (split_all_ne c a E)|reflexivity].
Qed.
Lemma last_of_app a b : b <> [] -> last_of (a ++ b) = last_of b.
Proof.
  intros N. induction a as [|x a IH]; [reflexivity|]. cbn [app last_of]. rewrite IH.
  destruct (a ++ b) eqn:E; [|reflexivity]. apply app_eq_nil in E as [_ E]. contradiction.
Qed.
Lemma last_split s : exists d, s = d +++ last_of (split_all "/" s) /\ (d = "" \/ exists d', d = d' +++ "/") /\
  has_char "/" (last_of (split_all "/" s)) = false.
Proof.
  induction s as [|c s IH]; [exists ""; cbn; auto|]. cbn [split_all].
  destruct (Ascii.eqb_spec "/" c) as [<-|Nc].
  - destruct IH as (d & E & Hd & Hn). exists (String "/" d).
    replace (last_of ("" :: split_all "/" s)) with (last_of (split_all "/" s)).
    + split; [cbn; f_equal; exact E|]. split; [|exact Hn]. right. destruct Hd as [->|[d' ->]]; [exists ""; reflexivity|exists (String "/" d'); reflexivity].
    + destruct (split_all "/" s) eqn:K; [destruct (split_all_ne _ _ K)|reflexivity].
  - destruct IH as (d & E & Hd & Hn). destruct (split_all "/" s) as [|h t] eqn:K; [destruct (split_all_ne _ _ K)|].
    destruct t as [|y t].
    + cbn [last_of] in E, Hn |- *. exists d.
      assert (Ed : d = "").
      { destruct Hd as [->|[d' ->]]; [reflexivity|]. exfalso. rewrite E in K. 
        change ((d' +++ "/") +++ h) with ((d' +++ "/") +++ h) in K. rewrite app_assoc_s in K.
        change ("/" +++ h) with (String "/" h) in K. rewrite split_all_app in K.
        destruct (split_all "/" d') as [|x1 x2] eqn:K1; [exact (split_all_ne _ _ K1)|].
        destruct (split_all "/" h) as [|y1 y2] eqn:K2; [exact (split_all_ne _ _ K2)|].
        cbn in K. inv K. destruct x2; discriminate. }
      subst d. cbn in E. subst s. cbn. split; auto. split; auto.
      apply orb_false_iff. split; [apply Ascii.eqb_neq; exact Nc|exact Hn].
    + cbn [last_of] in E, Hn |- *. exists (String c d). split; [cbn; f_equal; exact E|]. split; [|exact Hn].
      destruct Hd as [->|[d' ->]]; [|right; exists (String c d'); reflexivity].
      exfalso. cbn in E. rewrite E in K. rewrite split_all_single in K by exact Hn. discriminate.
Qed.
Lemma stem_spec n : extension n (stem n).
Proof.
  unfold stem, suffix. destruct (last_dot n) as [r|] eqn:E.
  - apply last_dot_some in E as (a & t & -> & -> & Nt).
    destruct (Nat.eqb_spec (String.length (String "." t)) (String.length (a +++ String "." t))) as [El|El]; cbn [orb].
    + left. assert (a = "") by (rewrite length_app_s in El; destruct a; [reflexivity|cbn in El; lia]). subst a.
      split; [cbn [String.length]; rewrite Nat.sub_0_r; symmetry; rewrite <- (app_nil_s ("" +++ String "." t)) at 2; apply stake_app|].
      intros s u Hs Hu Nu K. cbn [append] in K. destruct s as [|x s]; [congruence|]. injection K as _ K.
      rewrite K, has_char_app in Nt. apply orb_false_iff in Nt as [_ Nt]. discriminate.
    + destruct (String.eqb_spec (String "." t) ".") as [Et|Et].
      * left. split; [cbn [String.length]; rewrite Nat.sub_0_r; symmetry; rewrite <- (app_nil_s (a +++ String "." t)) at 2; apply stake_app|].
        injection Et as ->. intros s u Hs Hu Nu K.
        assert (X : last_dot (a +++ String "." "") = Some ".") by (apply last_dot_some; exists a, ""; auto).
        assert (Y : last_dot (a +++ String "." "") = Some (String "." u)) by (rewrite K; apply last_dot_some; exists s, u; auto).
        rewrite X in Y. injection Y as Y. congruence.
      * right. exists t. rewrite length_app_s.
        replace (String.length a + String.length (String "." t) - String.length (String "." t)) with (String.length a) by lia.
        rewrite stake_app. repeat split; auto.
        -- intros ->. apply El. reflexivity.
        -- intros ->. apply Et. reflexivity.
  - left. split; [cbn [String.length]; rewrite Nat.sub_0_r; symmetry; rewrite <- (app_nil_s n) at 2; apply stake_app|].
    apply last_dot_none in E. intros s u _ _ _ K. rewrite K, !has_char_app in E.
    apply orb_false_iff in E as [_ E]. discriminate.
Qed.
Lemma shown_file_spec pp file : shown_as pp file (shown_file pp file).
Proof.
  unfold shown_file. destruct (starts (path_str pp +++ "/") file) eqn:E.
  - apply starts_split in E as [r ->]. rewrite app_assoc_s.
    change ("/" +++ r) with (String "/" r). rewrite split_all_app, last_of_app by apply split_all_ne.
    destruct (last_split r) as (d & Er & Hd & Hn).
    replace (String "/" r) with ("/" +++ d +++ last_of (split_all "/" r)) by (rewrite <- Er; reflexivity).
    apply sa_inside; auto. apply stem_spec.
  - apply sa_outside. intros r ->. rewrite <- app_assoc_s, starts_app in E. discriminate.
Qed.

(** GetFiles: the files of the rules for the service, in policy order, each
    once. [_partial]: if no shown name contains a line break. *)
Theorem C33_get_files_partial sha f lg fu pp name l f' :
  client_get_files sha f lg fu pp name = (Some l, f') ->
  f' = f /\ exists rules shown l', load_policy f lg fu [pp] = Ok rules /\
    Forall2 (fun r x => shown_as pp (r_file r) x)
      (filter (fun r => match r_service r with None => true | Some s => String.eqb s name end) rules) shown /\
    first_occurrences shown l' /\
    ((forall x, In x l' -> has_char NL x = false /\ x <> "") -> l = l').
Proof.
  intros H. unfold client_get_files in H.
  destruct (client_call sha f lg fu pp "GetFiles" false (Some name) "") as [[out|] g] eqn:E; [|discriminate].
  apply call_arg in E as (o & E & Eo & _); [|cbn; auto]. injection H as El Eg.
  apply handle_method in E as [(e&K&_)|(m&Hm&_&_&_&_&E)]; [discriminate|].
  replace (dget methods (client_service false "GetFiles")) with (Some MGetFiles) in Hm by reflexivity.
  injection Hm as <-. cbn [run_method] in E. unfold get_files in E.
  destruct (String.eqb name ""); [discriminate|]. destruct (negb (valid_chars_no_plus name)); [discriminate|].
  destruct (load_policy f lg fu [pp]) as [rules|] eqn:Ld; [|discriminate]. inv E. split; [reflexivity|].
  set (rs := find_rules_for_service rules name).
  exists rules, (map (fun r => shown_file pp (r_file r)) rs), (dedup [] (map (fun r => shown_file pp (r_file r)) rs)).
  split; [reflexivity|]. split; [|split].
  - unfold rs, find_rules_for_service.
    replace (filter (fun r => match r_service r with None => true | Some s => String.eqb s name end) rules)
      with (filter (fun r => opt_match (r_service r) name) rules).
    + induction (filter (fun r => opt_match (r_service r) name) rules); cbn; constructor; auto. apply shown_file_spec.
    + apply filter_ext. intros r. unfold opt_match. destruct (r_service r); auto; apply String.eqb_sym.
  - exact (dedup_spec _ [] [] fo_nil).
  - intros Hn. set (l' := dedup [] (map (fun r => shown_file pp (r_file r)) rs)) in *.
    clearbody l'. destruct l' as [|x l']; [reflexivity|].
    destruct (String.eqb_spec (lines_out (x :: l')) "") as [K|_].
    + cbn in K. destruct x; discriminate.
    + apply lines_out_split; [discriminate|intros n Hi; apply Hn; exact Hi|]. intros n ->. left.
      apply Hn. destruct (exists_last (l := x :: l') ltac:(discriminate)) as (a & b & Eab). rewrite Eab, last_last. apply in_or_app. right; left; auto.
Qed.

(** ** Examples and counterexamples *)
(** a toy digest *)
Fixpoint ex_sha (s : string) : string :=
  match s with EmptyString => "0" | String _ s' => String "a" (ex_sha s') end.
Lemma ex_sha_hex : hex_digest ex_sha.
Proof.
  intros s. induction s as [|x s IH]; intros c H; cbn [ex_sha has_char] in H; apply orb_prop in H as [H|H].
  - apply Ascii.eqb_eq in H. subst. cbn. lia.
  - discriminate.
  - apply Ascii.eqb_eq in H. subst. cbn. lia.
  - apply IH. exact H.
Qed.
Definition ex_data : string := "qubes.New * work vault allow" +++ nl +++ "!include include/extra" +++ nl.
Definition ex_req (f : fs) (service arg payload : string) : outcome :=
  handle_admin ex_sha f POLICYPATH_OLD 5 POLICYPATH service arg payload.
Definition ex_after : fs := snd (ex_req ex_fs "policy.Replace" "40-new" ("new" +++ nl +++ ex_data)).
Example C28_example_replace :
  ex_req ex_fs "policy.Replace" "40-new" ("new" +++ nl +++ ex_data) = (AOk None, ex_after) /\
  has_content ex_after (POLICYPATH ++ ["40-new.policy"]) ex_data.
Proof. split; vm_compute; reflexivity. Qed.
Definition ex_token : string := "sha256:" +++ ex_sha ex_data.
Example C29_example :
  fst (ex_req ex_after "policy.Get" "40-new" "") = AOk (Some (ex_token +++ nl +++ ex_data)) /\
  fst (ex_req ex_after "policy.Replace" "40-new" (ex_token +++ nl +++ "# empty" +++ nl)) = AOk None /\
  fst (ex_req ex_after "policy.Replace" "40-new" ("new" +++ nl +++ "# empty" +++ nl)) = AErr AE_Token /\
  fst (ex_req ex_after "policy.Replace" "40-new" ("sha256:00" +++ nl +++ "# empty" +++ nl)) = AErr AE_Token /\
  fst (ex_req ex_after "policy.Remove" "40-new" ex_token) = AOk None.
Proof. repeat split; vm_compute; reflexivity. Qed.
(** a history of three clients *)
Definition ex_history : list event := [
  mkEvent "policy.Replace" "40-new" ("new" +++ nl +++ ex_data) true;
  mkEvent "policy.Replace" "40-new" ("new" +++ nl +++ "# mine" +++ nl) false;
  mkEvent "policy.include.Replace" "40-new" ("any" +++ nl +++ "# include" +++ nl) true].
Example C29_example_history : exists f1, history ex_sha POLICYPATH_OLD 5 POLICYPATH ex_fs ex_history f1 /\
  last_change false "40-new" ex_history (Some (Some ex_data)) /\
  last_change true "40-new" ex_history (Some (Some ("# include" +++ nl))).
Proof.
  eexists. split; [|split].
  - eapply (hi_step _ _ _ _ _ [mkEvent "policy.Replace" "40-new" ("new" +++ nl +++ ex_data) true;
      mkEvent "policy.Replace" "40-new" ("new" +++ nl +++ "# mine" +++ nl) false] _ _ _ _ (AOk None)).
    + eapply (hi_step _ _ _ _ _ [mkEvent "policy.Replace" "40-new" ("new" +++ nl +++ ex_data) true] _ _ _ _ (AErr AE_Token)).
      * eapply (hi_step _ _ _ _ _ [] _ _ _ _ (AOk None)); [constructor|]. vm_compute. reflexivity.
      * vm_compute. reflexivity.
    + vm_compute. reflexivity.
  - apply (lc_other _ _ [mkEvent "policy.Replace" "40-new" ("new" +++ nl +++ ex_data) true;
      mkEvent "policy.Replace" "40-new" ("new" +++ nl +++ "# mine" +++ nl) false]).
    + cbn. intros (_ & _ & [K|K]); discriminate.
    + apply (lc_other _ _ [mkEvent "policy.Replace" "40-new" ("new" +++ nl +++ ex_data) true]).
      * cbn. intros (K & _). discriminate.
      * apply (lc_replace false "40-new" [] "new" ex_data). reflexivity.
  - apply (lc_replace true "40-new" [mkEvent "policy.Replace" "40-new" ("new" +++ nl +++ ex_data) true;
      mkEvent "policy.Replace" "40-new" ("new" +++ nl +++ "# mine" +++ nl) false] "any"). reflexivity.
Qed.
(** bad names *)
Example C30_example :
  fst (ex_req ex_fs "policy.Get" "..-user" "") = AErr AE_Name /\
  fst (ex_req ex_fs "policy.Get" "include+x" "") = AErr AE_Name /\
  fst (ex_req ex_fs "policy.include.Replace" "../90-default" ("any" +++ nl)) = AErr AE_Protocol /\
  fst (ex_req ex_fs "policy.Replace" ".." ("any" +++ nl)) = AErr AE_Name /\
  fst (ex_req ex_fs "policy.include.Get" "extra" "") <> AErr AE_NotFound.
Proof. repeat split; try (vm_compute; reflexivity). vm_compute. discriminate. Qed.

(** Replace of a name under which there is a directory fails, but leaves its
    temporary file behind. *)
Definition ex_dir_fs : fs := (POLICYPATH ++ ["x.policy"], NDir) :: ex_fs.
Theorem C27_directory_refuted :
  let '(r, f') := ex_req ex_dir_fs "policy.Replace" "x" ("any" +++ nl +++ "# hi" +++ nl) in
  r = AErr (AE_Raw EOs) /\ fget ex_dir_fs (POLICYPATH ++ ["!x.policy"]) = None /\
  has_content f' (POLICYPATH ++ ["!x.policy"]) ("# hi" +++ nl) /\
  (exists rs, load_policy ex_dir_fs POLICYPATH_OLD 5 [POLICYPATH] = Ok rs) /\
  load_policy f' POLICYPATH_OLD 5 [POLICYPATH] = Err (EAccessDenied true).
Proof. vm_compute. repeat split. eexists. reflexivity. Qed.
Example C27_example : ex_req ex_fs "policy.Replace" "40-new" ("any" +++ nl +++ "nonsense" +++ nl) = (AErr AE_Syntax, ex_fs).
Proof. vm_compute. reflexivity. Qed.

(** Replacing include file x overwrites and removes a file named !x. *)
Definition ex_bang_fs : fs := (POLICYPATH ++ ["include"; "!extra"], L ["# precious"]) :: ex_fs.
Theorem C28_temp_name_refuted :
  let '(r, f') := ex_req ex_bang_fs "policy.include.Replace" "extra" ("any" +++ nl +++ "# hi" +++ nl) in
  r = AOk None /\ fget ex_bang_fs (POLICYPATH ++ ["include"; "!extra"]) = Some (L ["# precious"]) /\
  fget f' (POLICYPATH ++ ["include"; "!extra"]) = None.
Proof. vm_compute. repeat split. Qed.

Lemma ex_apart p : (forall n, p <> POLICYPATH_OLD ++ [n]) -> legacy_apart ex_fs POLICYPATH_OLD p.
Proof.
  intros H. split; [exact H|]. intros n ls x q Lf Hl Hx (b & l & l' & Ex & Hb & Hbg & Hs & Hst & Hf).
  exfalso.
  assert (Hn : n = "svc" \/ n = "svc+arg").
  { assert (K : In n (filter (compat_candidate ex_fs POLICYPATH_OLD) (listing ex_fs POLICYPATH_OLD))) by (apply compat_candidate_spec; exact Lf).
    vm_compute in K. intuition. }
  assert (Els : forall y, In y ls -> starts "!" (compat_subst (strip y)) = false).
  { assert (E : read_lines ex_fs (POLICYPATH_OLD ++ [n]) = Ok ls) by (apply read_lines_spec; exact Hl).
    intros y Hy. destruct Hn as [Hn|Hn]; subst n; vm_compute in E; injection E as <-; cbn [In] in Hy;
      repeat (destruct Hy as [<-|Hy]; [vm_compute; reflexivity|]); destruct Hy. }
  assert (G : forall b l l', blanks b -> begins l -> legacy_spelling l l' -> starts "!" l' = true -> In (b +++ l) ls -> False).
  { clear - Els. intros b l l' Hb Hbg Hs Hst Hin. apply Els in Hin.
    destruct (service_line_view b l Hb Hbg) as (b' & _ & _ & E & _). rewrite Hin in E.
    apply compat_subst_spec in Hs. rewrite Hs, Hst in E. discriminate. }
  assert (Ha : In x ls).
  { clear - Hx G. destruct Hx as [|ls b l l' p file ls' x Hin Hb Hbg Hs Hst]; auto. exfalso. exact (G b l l' Hb Hbg Hs Hst Hin). }
  subst x. exact (G b l l' Hb Hbg Hs Hst Ha).
Qed.
Example C32_example : wf_fs ex_fs /\ plain_filename "40-new" /\ has_char CR ex_data = false /\
  legacy_apart ex_fs POLICYPATH_OLD (POLICYPATH ++ ["40-new.policy"]) /\
  exists rs, load_policy ex_after POLICYPATH_OLD 5 [POLICYPATH] = Ok rs /\ length rs > 5.
Proof.
  split; [exact ex_fs_wf|]. split; [apply filename_spec; reflexivity|]. split; [reflexivity|].
  split; [apply ex_apart; intros n K; discriminate|]. eexists. split; [vm_compute; reflexivity|]. cbn. lia.
Qed.
Example C31_example : exists rs, load_policy ex_fs POLICYPATH_OLD 5 [POLICYPATH] = Ok rs /\
  legacy_apart ex_fs POLICYPATH_OLD (POLICYPATH ++ ["include"; "extra"]) /\
  fget ex_fs (POLICYPATH ++ ["include"; "!extra"]) = None /\
  fst (ex_req ex_fs "policy.include.Replace" "extra" ("any" +++ nl +++ "qubes.New * work vault allow" +++ nl)) = AOk None /\
  length (stages ex_fs (POLICYPATH ++ ["include"; "extra"]) ("qubes.New * work vault allow" +++ nl)) = 32.
Proof.
  eexists. split; [vm_compute; reflexivity|]. split; [apply ex_apart; intros n K; discriminate|].
  split; [vm_compute; reflexivity|]. split; [vm_compute; reflexivity|]. vm_compute. reflexivity.
Qed.

(** The full claim C32 is false of the code in four ways. A name with an upper
    case letter is accepted by the administration interface but not by the
    loader: *)
Theorem C32_upper_case_refuted :
  let '(r, f') := ex_req ex_fs "policy.Replace" "Test" ("new" +++ nl +++ "# fine" +++ nl) in
  r = AOk None /\ load_policy f' POLICYPATH_OLD 5 [POLICYPATH] = Err (EAccessDenied true).
Proof. vm_compute. auto. Qed.
(** a carriage return ends a line for the loader but not for the validator: *)
Theorem C32_carriage_return_refuted :
  let '(r, f') := ex_req ex_fs "policy.Replace" "test" ("new" +++ nl +++ "# fine" +++ str1 CR +++ "not a rule" +++ nl) in
  r = AOk None /\ load_policy f' POLICYPATH_OLD 5 [POLICYPATH] = Err ESyntax.
Proof. vm_compute. auto. Qed.
(** the validator reads the old include file on behalf of legacy files: *)
Definition ex_legacy_fs : fs :=
  fset ex_fs (POLICYPATH_OLD ++ ["svc"]) (L ["$include:/etc/qubes/policy.d/include/common"])
  ++ [(POLICYPATH ++ ["include"; "common"], L ["work vault allow"])].
Theorem C32_legacy_include_refuted :
  let '(r, f') := ex_req ex_legacy_fs "policy.include.Replace" "common" ("any" +++ nl +++ "qubes.Gpg * work vault allow" +++ nl) in
  r = AOk None /\ (exists rs, load_policy ex_legacy_fs POLICYPATH_OLD 5 [POLICYPATH] = Ok rs) /\
  load_policy f' POLICYPATH_OLD 5 [POLICYPATH] = Err ESyntax.
Proof. vm_compute. repeat split. eexists. reflexivity. Qed.
(** and a file with the name of the temporary file disappears: *)
Definition ex_bang_used_fs : fs := (POLICYPATH ++ ["50-x.policy"], L ["!include include/!extra"]) :: ex_bang_fs.
Theorem C32_temp_name_refuted :
  let '(r, f') := ex_req ex_bang_used_fs "policy.include.Replace" "extra" ("any" +++ nl +++ "# hi" +++ nl) in
  r = AOk None /\ (exists rs, load_policy ex_bang_used_fs POLICYPATH_OLD 5 [POLICYPATH] = Ok rs) /\
  load_policy f' POLICYPATH_OLD 5 [POLICYPATH] = Err ESyntax.
Proof. vm_compute. repeat split. eexists. reflexivity. Qed.

(** the client *)
Example C33_example :
  fst (client_get ex_sha ex_after POLICYPATH_OLD 5 POLICYPATH "40-new" false) = Some (ex_data, ex_token) /\
  fst (client_list ex_sha ex_after POLICYPATH_OLD 5 POLICYPATH false) = Some [".hidden"; "30-user"; "40-new"; "90-default"] /\
  fst (client_list ex_sha ex_after POLICYPATH_OLD 5 POLICYPATH true) = Some ["extra"] /\
  fst (client_get_files ex_sha ex_after POLICYPATH_OLD 5 POLICYPATH "qubes.New") = Some ["40-new"; "90-default"] /\
  fst (client_get_files ex_sha ex_after POLICYPATH_OLD 5 POLICYPATH "svc") = Some ["90-default"; "/etc/qubes-rpc/policy/svc+arg"; "/etc/qubes-rpc/policy/svc"].
Proof. repeat split; vm_compute; reflexivity. Qed.
(** an empty directory is listed as one file with an empty name *)
Definition ex_empty_fs : fs := fdel ex_fs (POLICYPATH ++ ["include"; "extra"]).
Theorem C33_empty_list_refuted :
  fst (client_list ex_sha ex_empty_fs POLICYPATH_OLD 5 POLICYPATH true) = Some [""] /\
  listed ex_empty_fs (POLICYPATH ++ ["include"]) "" [].
Proof.
  split; [vm_compute; reflexivity|]. split; [vm_compute; reflexivity|]. split; [constructor|].
  intros n. rewrite app_nil_s. split; [intros []|]. intros [K _]. vm_compute in K. destruct K.
Qed.
