(** Property C83: changes that leave a policy are accepted.

    The converse of C32. Statements use SpecAdmin.v and SpecLoader.v. *)
From Coq Require Import String Ascii List Bool Arith Lia Permutation Sorting.
From Verif Require Import Base SysInfo Token Rule Policy PolicyExec FileSys Loader Admin
  SpecPolicy SpecRule SpecLoader SpecAdmin
  TokenProofs RuleProofs TextProofs LoaderProofs SelectProofs LoaderExt Props_Policy Props_Loader AdminProofs AdminLoad
  Props_Admin AdminAccept.
Import ListNotations.
Open Scope string_scope.
Open Scope list_scope.

Lemma validate_change_none f lg fu pp p c : validate f [(p, c)] lg fu pp = Ok tt -> validate_change f lg fu pp p c = None.
Proof. unfold validate_change. intros ->. reflexivity. Qed.
Lemma admin_policy_name arg : admin_name arg -> policy_name (arg +++ ".policy").
Proof.
  intros A. exists arg. split; auto. split; [apply A|].
  pose proof (admin_name_no "." arg A eq_refl) as N. destruct arg as [|c arg]; [destruct A as [A _]; congruence|].
  cbn [has_char] in N. apply orb_false_iff in N as [N _].
  change (String c arg +++ ".policy") with (String c (arg +++ ".policy")). cbn [starts].
  destruct (Ascii.eqb_spec "." c) as [<-|]; [discriminate|reflexivity].
Qed.
Lemma admin_file_last pp inc arg d n : admin_file pp inc arg = d ++ [n] ->
  (inc = true /\ d = pp ++ ["include"] /\ n = arg) \/ (inc = false /\ d = pp /\ n = arg +++ ".policy").
Proof.
  unfold admin_file. destruct inc.
  - change (pp ++ ["include"; arg]) with (pp ++ ["include"] ++ [arg]). rewrite app_assoc.
    intros E. apply app_inj_tail in E as [<- <-]. auto.
  - intros E. apply app_inj_tail in E as [<- <-]. auto.
Qed.
Lemma admin_temp_last pp inc arg : exists n, admin_temp pp inc arg = target_dir pp inc ++ [n].
Proof.
  unfold admin_temp, target_dir. destruct inc; [|eauto]. exists ("!" +++ arg). rewrite <- app_assoc. reflexivity.
Qed.

(** What must hold of the directories *)
Definition in_place (f : fs) (pp : path) (inc : bool) : Prop :=
  normalise [] pp = pp /\ fget f pp = Some NDir /\ (inc = true -> fget f (pp ++ ["include"]) = Some NDir).
(** no line of the policy includes the directory of include files as a whole *)
Definition include_dir_unused (f : fs) (pp : path) : Prop :=
  forall m ls x q, policy_file f pp m -> file_lines f (pp ++ [m]) ls ->
    reached (opens_at f pp) (lists_at f pp) ls x -> fields x ["!include-dir"; q] -> resolve pp q <> pp ++ ["include"].

(** [_partial]: the conditions of C32 (no carriage return, no file with the name
    of the temporary file, no legacy file reads the changed file), and for
    include files: their directory is not included as a whole. The last is
    needed, see below. The theorem gives a bound on the depth of includes
    sufficient for validation; larger ones do, too. *)
Theorem C83_replace_accepted_partial sha f lg pp inc arg token data f' rs :
  wf_fs f -> wf_fs f' -> in_place f pp inc -> admin_name arg ->
  has_char NL token = false -> token_holds sha f (admin_file pp inc arg) token ->
  utf8_valid data = true -> has_char CR data = false ->
  fget f (admin_file pp inc arg) <> Some NDir -> fget f (admin_temp pp inc arg) = None ->
  has_content f' (admin_file pp inc arg) data -> same_elsewhere f f' [admin_file pp inc arg] ->
  legacy_apart f' lg (admin_file pp inc arg) ->
  (inc = true -> include_dir_unused f' pp) ->
  policy_of f' lg [pp] rs ->
  exists fuel, forall fuel', fuel <= fuel' -> exists f1,
    handle_admin sha f lg fuel' pp (replace_service inc) arg (token +++ nl +++ data) = (AOk None, f1) /\
    has_content f1 (admin_file pp inc arg) data /\ same_elsewhere f f1 [admin_file pp inc arg].
Proof.
  intros W W' (Norm & Dp & Di) A Nt T U Nc Nd Tn Hc Se La Iu Pol.
  set (p := admin_file pp inc arg) in *. set (tmp := admin_temp pp inc arg) in *.
  assert (Np : tmp <> p) by apply temp_neq.
  assert (C : changed f f' p (Some data)).
  { constructor; auto.
    - intros q Hq. apply Se. intros [K|[]]. congruence.
    - intros c K. injection K as <-. split; auto. apply lines_univ_lf. exact Nc. }
  assert (Pl : forall d n, p = d ++ [n] -> policy_name n -> plain_filename n).
  { intros d n E Pn. destruct (admin_file_last pp inc arg d n E) as [(-> & -> & ->)|(-> & -> & ->)].
    - exfalso. exact (proj1 (admin_no_policy_name _ A) Pn).
    - destruct Pol as (sel & (_ & Plain & _) & _). eapply Plain; [left; reflexivity|]. split; [|split; auto].
      + apply entry_spec. rewrite <- E. unfold has_content in Hc. rewrite Hc. discriminate.
      + exists (Some data). rewrite <- E. exact Hc. }
  destruct (loads_validated f f' p (Some data) lg pp rs C) as [fuel V]; auto.
  - intros c n _ E. destruct (admin_file_last pp inc arg pp n E) as [(_ & K & _)|(_ & _ & ->)].
    + exfalso. rewrite <- (app_nil_r pp) in K at 1. apply app_inv_head in K. discriminate.
    + apply admin_policy_name. exact A.
  - intros m ls x q c n Hm Hl Hx Hf _ E. destruct (admin_file_last pp inc arg _ n E) as [(Ei & K & _)|(_ & K & ->)].
    + exfalso. exact (Iu Ei m ls x q Hm Hl Hx Hf K).
    + apply admin_policy_name. exact A.
  - intros r Hr. exists r. eapply (legacy_elsewhere f' f p); eauto.
    + intros q Hq. symmetry. apply (ch_rest _ _ _ _ C). exact Hq.
    + apply (changed_file_not_dir _ _ _ _ C).
  - exists fuel. intros fuel' Hf. apply V, validate_change_none in Hf.
    exists (fset (fdel (fset f tmp (NFile (Some data))) tmp) p (NFile (Some data))). split.
    + unfold handle_admin. rewrite (name_rpc _ A), methods_replace. cbn [negb no_arg no_payload andb].
      pose proof Dp as Dx. apply is_dir_spec in Dx. rewrite Dx. cbn [negb run_method].
      rewrite with_path_total by auto. fold p. unfold common_replace.
      change (nl +++ data) with (String NL data).
      replace (split1 NL (token +++ String NL data)) with (Some (token, data)).
      2: { symmetry. apply split1_spec. split; auto. }
      apply check_token_spec in T. rewrite T, U. cbn [negb]. rewrite Hf.
      replace (temp_path p) with tmp by (symmetry; apply temp_path_spec).
      unfold write_bytes. destruct (admin_temp_last pp inc arg) as [n En]. fold tmp in En. rewrite En at 1. rewrite split_last_app.
      replace (is_dir f (target_dir pp inc)) with true.
      2: { symmetry. apply is_dir_spec. unfold target_dir. destruct inc; auto. }
      unfold exists_path. rewrite Tn. cbn [negb orb andb].
      unfold frename. rewrite fget_fset.
      replace (is_dir (fset f tmp (NFile (Some data))) p) with false; [reflexivity|].
      symmetry. apply not_true_iff_false. rewrite is_dir_spec, fget_fset_other by auto. exact Nd.
    + split; [unfold has_content; apply fget_fset|].
      intros q Hq. rewrite fget_fset_other by (intros ->; apply Hq; left; auto).
      destruct (path_eqb_spec q tmp) as [->|Nq]; [rewrite fget_fdel, Tn; reflexivity|].
      rewrite fget_fdel_other, fget_fset_other by auto. reflexivity.
Qed.

(** [_partial]: no legacy file reads the removed file, and the name of a policy
    file must be one the loader accepts (needed, see below). *)
Theorem C83_remove_accepted_partial sha f lg pp inc arg token f' rs :
  wf_fs f -> wf_fs f' -> normalise [] pp = pp -> fget f pp = Some NDir -> admin_name arg ->
  token_holds sha f (admin_file pp inc arg) token -> regular f (admin_file pp inc arg) ->
  fget f' (admin_file pp inc arg) = None -> same_elsewhere f f' [admin_file pp inc arg] ->
  legacy_apart f' lg (admin_file pp inc arg) ->
  (inc = false -> plain_filename arg) ->
  policy_of f' lg [pp] rs ->
  exists fuel, forall fuel', fuel <= fuel' -> exists f1,
    handle_admin sha f lg fuel' pp (remove_service inc) arg token = (AOk None, f1) /\
    fget f1 (admin_file pp inc arg) = None /\ same_elsewhere f f1 [admin_file pp inc arg].
Proof.
  intros W W' Norm Dp A T Rg Hn Se La Pl Pol.
  set (p := admin_file pp inc arg) in *.
  assert (C : changed f f' p None).
  { constructor; auto.
    - intros q Hq. apply Se. intros [K|[]]. congruence.
    - destruct Rg as [c ->]. discriminate.
    - intros c K. discriminate. }
  destruct (loads_validated f f' p None lg pp rs C) as [fuel V]; auto; try discriminate.
  - intros d n E. eapply admin_file_name; eauto.
  - intros r Hr. exists r. eapply (legacy_elsewhere f' f p); eauto.
    + intros q Hq. symmetry. apply (ch_rest _ _ _ _ C). exact Hq.
    + rewrite Hn. discriminate.
  - exists fuel. intros fuel' Hf. apply V, validate_change_none in Hf. exists (fdel f p). split.
    + unfold handle_admin. rewrite (name_rpc _ A), methods_remove. cbn [negb no_arg no_payload andb].
      apply is_dir_spec in Dp. rewrite Dp. cbn [negb run_method].
      rewrite with_path_total by auto. fold p. unfold common_remove.
      apply check_token_spec in T. rewrite T. apply is_file_spec in Rg. rewrite Rg. cbn [negb]. rewrite Hf. reflexivity.
    + split; [apply fget_fdel|]. intros q Hq. apply fget_fdel_other. intros ->. apply Hq. left; auto.
Qed.

(** ** Both directions: acceptance is exactly loading afterwards *)
(** the change [data] at a name: [None] removes *)
Definition after (f : fs) (p : path) (data : option string) : fs :=
  match data with Some d => fset f p (NFile (Some d)) | None => fdel f p end.
Theorem C83_replace_iff_partial sha f lg pp inc arg token data :
  wf_fs f -> in_place f pp inc -> admin_name arg ->
  has_char NL token = false -> token_holds sha f (admin_file pp inc arg) token ->
  utf8_valid data = true -> has_char CR data = false ->
  fget f (admin_file pp inc arg) <> Some NDir -> fget f (admin_temp pp inc arg) = None ->
  legacy_apart f lg (admin_file pp inc arg) ->
  legacy_apart (after f (admin_file pp inc arg) (Some data)) lg (admin_file pp inc arg) ->
  (inc = true -> include_dir_unused (after f (admin_file pp inc arg) (Some data)) pp) ->
  (inc = false -> plain_filename arg) ->
  (exists fuel f1, handle_admin sha f lg fuel pp (replace_service inc) arg (token +++ nl +++ data) = (AOk None, f1)) <->
  (exists rs, policy_of (after f (admin_file pp inc arg) (Some data)) lg [pp] rs).
Proof.
  intros W Ip A Nt T U Nc Nd Tn La La' Iu Pl. split.
  - intros (fuel & f1 & H). pose proof H as H0.
    destruct (C32_replace_loads_partial sha f lg fuel pp inc arg token data None f1 W Nt H Pl Nc (fun _ => Tn) La) as (fu & rs & L).
    apply replace_ok in H0 as (t & d & _ & E & N & _ & _ & _ & _ & _ & Ef & _).
    apply nl_split_unique in E as [<- <-]; auto. exists rs.
    apply load_policy_spec; [apply wf_fset, W|]. exists fu. rewrite <- L. symmetry.
    apply load_policy_same_tree.
    + subst f1. apply wf_fset, wf_fdel, wf_fset, W.
    + apply wf_fset, W.
    + intros q. left. subst f1. cbn [after].
      destruct (path_eqb_spec q (admin_file pp inc arg)) as [->|Nq]; [rewrite !fget_fset; reflexivity|].
      rewrite !fget_fset_other by auto. destruct (path_eqb_spec q (admin_temp pp inc arg)) as [->|Nq'].
      * rewrite fget_fdel, Tn. reflexivity.
      * rewrite fget_fdel_other, fget_fset_other by auto. reflexivity.
  - intros (rs & Pol).
    destruct (C83_replace_accepted_partial sha f lg pp inc arg token data (after f (admin_file pp inc arg) (Some data)) rs) as (fuel & H); auto.
    + apply wf_fset, W.
    + apply fget_fset.
    + intros q Hq. apply fget_fset_other. intros ->. apply Hq. left; auto.
    + destruct (H fuel (le_n _)) as (f1 & E & _). eauto.
Qed.

(** ** Witnesses *)
Lemma ex_after_40 : exists rs, policy_of (after ex_fs (POLICYPATH ++ ["40-new.policy"]) (Some ex_data)) POLICYPATH_OLD [POLICYPATH] rs.
Proof.
  eexists. apply load_policy_spec; [apply wf_fset, ex_fs_wf|]. exists 5. vm_compute. reflexivity.
Qed.
Example C83_example : wf_fs ex_fs /\ in_place ex_fs POLICYPATH false /\ admin_name "40-new" /\
  token_holds ex_sha ex_fs (POLICYPATH ++ ["40-new.policy"]) "new" /\ utf8_valid ex_data = true /\ has_char CR ex_data = false /\
  (exists rs, policy_of (after ex_fs (POLICYPATH ++ ["40-new.policy"]) (Some ex_data)) POLICYPATH_OLD [POLICYPATH] rs) /\
  legacy_apart ex_fs POLICYPATH_OLD (POLICYPATH ++ ["40-new.policy"]) /\
  fst (ex_req ex_fs "policy.Replace" "40-new" ("new" +++ nl +++ ex_data)) = AOk None.
Proof.
  split; [exact ex_fs_wf|]. split; [split; [reflexivity|split; [reflexivity|discriminate]]|].
  split; [apply admin_name_spec; reflexivity|]. split; [apply th_new; reflexivity|].
  split; [reflexivity|]. split; [reflexivity|]. split; [exact ex_after_40|].
  split; [apply ex_apart; intros n K; discriminate|]. vm_compute. reflexivity.
Qed.

(** An include file for service rules, in a directory that the policy includes
    as a whole: the loader reads only the *.policy files of that directory, the
    validator also the new file, as policy text, and refuses it. *)
Definition ex_incdir_fs : fs :=
  fset ex_fs (POLICYPATH ++ ["30-user.policy"]) (L ["!include-dir include"; "!include-service qubes.Foo * include/extra"])
  ++ [(POLICYPATH ++ ["include"; "a.policy"], L ["qubes.Gpg * work vault allow"])].
Definition ex_service_rule : string := "work @dispvm allow" +++ nl.
Theorem C83_include_dir_refuted :
  let f := fset ex_incdir_fs (POLICYPATH ++ ["include"; "extra"]) (L ["work vault allow"]) in
  (exists rs, load_policy f POLICYPATH_OLD 5 [POLICYPATH] = Ok rs) /\
  (exists rs, policy_of (after f (POLICYPATH ++ ["include"; "extra"]) (Some ex_service_rule)) POLICYPATH_OLD [POLICYPATH] rs) /\
  ex_req f "policy.include.Replace" "extra" ("any" +++ nl +++ ex_service_rule) = (AErr AE_Syntax, f).
Proof.
  split; [eexists; vm_compute; reflexivity|]. split; [|vm_compute; reflexivity].
  eexists. apply load_policy_spec.
  - apply wf_fset, wf_fset. unfold wf_fs. cbn. repeat (constructor; [cbn; intuition discriminate|]). constructor.
  - exists 5. vm_compute. reflexivity.
Qed.
(** After a file with an upper case letter in its name was accepted (C32), the
    policy no longer loads, and neither can the file be removed, although the
    policy would load without it. *)
Theorem C83_stuck_refuted :
  let f := snd (ex_req ex_fs "policy.Replace" "Test" ("new" +++ nl +++ "# fine" +++ nl)) in
  load_policy f POLICYPATH_OLD 5 [POLICYPATH] = Err (EAccessDenied true) /\
  (exists rs, load_policy (fdel f (POLICYPATH ++ ["Test.policy"])) POLICYPATH_OLD 5 [POLICYPATH] = Ok rs) /\
  ex_req f "policy.Remove" "Test" "any" = (AErr (AE_Raw (EAccessDenied true)), f).
Proof. split; [vm_compute; reflexivity|]. split; [eexists; vm_compute; reflexivity|vm_compute; reflexivity]. Qed.
