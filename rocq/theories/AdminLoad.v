(** A validated change leaves a policy that loads. *)
From Coq Require Import String Ascii List Bool Arith Lia Permutation Sorting.
From Verif Require Import Base SysInfo Token Rule Policy FileSys Loader Admin
  SpecPolicy SpecRule SpecLoader SpecAdmin
  TokenProofs RuleProofs TextProofs LoaderProofs SelectProofs LoaderExt AdminProofs.
Import ListNotations.
Open Scope string_scope.
Open Scope list_scope.

Lemma Forall2_In_l {A B} (P : A -> B -> Prop) l l' : Forall2 P l l' -> forall x, In x l -> exists y, In y l' /\ P x y.
Proof.
  induction 1; intros z; cbn; [tauto|]. intros [<-|Hz]; [eauto|]. destruct (IHForall2 z Hz) as (w & H1 & H2). eauto.
Qed.

(** ** Texts keep a meaning when files are added *)
Lemma service_rules_mono (opens opens' : string -> string -> list string -> Prop) sv ar file ls rs :
  (forall p f l, opens p f l -> opens' p f l) ->
  service_rules opens sv ar file ls rs -> service_rules opens' sv ar file ls rs.
Proof.
  intros H. induction 1.
  - constructor.
  - apply sr_inert; auto.
  - eapply sr_rule; eauto.
  - eapply sr_include; eauto.
Qed.
Lemma text_rules_mono (opens opens' : string -> string -> list string -> Prop)
  (lists lists' : string -> list (string * list string) -> Prop) (legacy legacy' : list rule -> Prop) :
  (forall p f l, opens p f l -> opens' p f l) ->
  (forall p files, lists p files -> exists files', lists' p files' /\ incl files' files) ->
  (forall rs, legacy rs -> exists rs', legacy' rs') ->
  (forall file ls rs, text_rules opens lists legacy file ls rs -> exists rs', text_rules opens' lists' legacy' file ls rs') /\
  (forall files rs, files_rules opens lists legacy files rs -> forall file ls, In (file, ls) files ->
     exists rs', text_rules opens' lists' legacy' file ls rs').
Proof.
  intros Ho Hl Hc. apply text_files_ind.
  - intros. eexists. apply tr_end.
  - intros file l ls rs Hi _ [rs' IH]. eexists. apply tr_inert; eauto.
  - intros file l ls ws r rs Hi Hd Hf Hr _ [rs' IH]. eexists. eapply tr_rule; eauto.
  - intros file l ls p file' ls' rs1 rs2 Hf Hop _ [r1 IH1] _ [r2 IH2]. eexists. eapply tr_include; eauto.
  - intros file l ls p files rs1 rs2 Hf Hli _ IH1 _ [r2 IH2]. destruct (Hl _ _ Hli) as (files' & Hl' & Hin).
    assert (X : exists r1, files_rules opens' lists' legacy' files' r1).
    { clear Hl' Hli. induction files' as [|[fl lsx] files' IHf]; [eexists; constructor|].
      destruct IHf as [r1 Hr1]; [intros x Hx; apply Hin; right; auto|].
      destruct (IH1 fl lsx) as [r0 Hr0]; [apply Hin; left; auto|]. eexists. constructor; eauto. }
    destruct X as [r1 X]. eexists. eapply tr_include_dir; eauto.
  - intros file l ls s a p sv ar file' ls' rs1 rs2 Hf Hs Hop Hsr _ [r2 IH2].
    eexists. eapply tr_include_service; eauto. eapply service_rules_mono; eauto.
  - intros file l ls rs1 rs2 Hf Hle _ [r2 IH2]. destruct (Hc _ Hle) as [r1 H1]. eexists. eapply tr_compat; eauto.
  - intros file ls [].
  - intros file ls files rs1 rs2 _ [r1 IH1] _ IH2 file0 ls0 [E|Hin]; [inv E; eauto|eauto].
Qed.

(** ** The change *)
Record changed (f f' : fs) (p : path) (content : option string) : Prop := {
  ch_wf : wf_fs f;
  ch_wf' : wf_fs f';
  ch_at : fget f' p = option_map (fun c => NFile (Some c)) content;
  ch_rest : forall q, q <> p -> fget f' q = fget f q;
  ch_nodir : fget f p <> Some NDir;
  ch_text : forall c, content = Some c -> utf8_valid c = true /\ lines_univ c = lines_lf c
}.

Lemma oget_one p c q : oget [(p, c)] q = if path_eqb q p then Some c else None.
Proof. reflexivity. Qed.
Lemma entry_spec f d n : entry f d n <-> fget f (d ++ [n]) <> None.
Proof. unfold entry. rewrite listing_In, fget_In. reflexivity. Qed.

Lemma changed_open f f' p content lg pp : changed f f' p content -> forall q file ls,
  ld_open (validate_loader f [(p, content)] lg pp) q = Ok (file, ls) -> opens_at f' pp q file ls.
Proof.
  intros C q file ls H. cbn [validate_loader ld_open] in H. rewrite oget_one in H.
  destruct (path_eqb_spec (resolve pp q) p) as [E|N].
  - destruct content as [c|]; [|discriminate]. inv H. split; auto.
    exists c. rewrite (ch_at _ _ _ _ C). cbn. destruct (ch_text _ _ _ _ C c eq_refl) as [U Eq]. auto.
  - apply open_file_spec in H as [-> (c & Hc & U & ->)]. split; auto. exists c. rewrite (ch_rest _ _ _ _ C); auto.
Qed.

(** names of the files of the changed tree *)
Lemma changed_policy_file f f' p content d n : changed f f' p content -> d ++ [n] <> p ->
  (policy_file f' d n <-> policy_file f d n).
Proof.
  intros C N. unfold policy_file, regular. rewrite !entry_spec, (ch_rest _ _ _ _ C) by auto. reflexivity.
Qed.
Lemma changed_lines f f' p content q ls : changed f f' p content -> q <> p ->
  (file_lines f' q ls <-> file_lines f q ls).
Proof. intros C N. unfold file_lines. rewrite (ch_rest _ _ _ _ C) by auto. reflexivity. Qed.
Lemma changed_dir f f' p content d : changed f f' p content -> fget f d = Some NDir -> fget f' d = Some NDir.
Proof.
  intros C H. rewrite (ch_rest _ _ _ _ C); auto. intros ->. apply (ch_nodir _ _ _ _ C). exact H.
Qed.

(** what [validate_dir] yields covers the files of the directory after the change *)
Lemma changed_listing f f' p content d files : changed f f' p content ->
  (forall d' n, p = d' ++ [n] -> policy_name n -> plain_filename n) ->
  validate_dir f [(p, content)] d = Ok (map readable files) ->
  exists names files', policy_dir f' d names /\
    Forall2 (fun n fl => fst fl = path_str (d ++ [n]) /\ file_lines f' (d ++ [n]) (snd fl)) names files' /\
    incl files' files.
Proof.
  intros C Hp H. unfold validate_dir in H.
  apply bind_ok in H as (names & Hn & H). apply bind_ok in H as (l & Hl & H). inv H. rename H1 into H.
  assert (PD : policy_dir f d l).
  { apply filter_filepaths_spec; [exact (ch_wf _ _ _ _ C)|]. rewrite Hn. exact Hl. }
  destruct PD as (Dd & Srt & Hin & Pl).
  (* the selection of the new tree *)
  assert (Sel : exists names', policy_dir f' d names').
  { assert (X : exists l', (do ns <- iterdir f' d; filter_filepaths f' d ns) = Ok l').
    { unfold iterdir. pose proof (changed_dir _ _ _ _ _ C Dd) as Dd'. apply is_dir_spec in Dd'. rewrite Dd'. cbn [bind].
      unfold filter_filepaths. destruct (forallb (sforall filename_char) (filter (candidate f' d) (listing f' d))) eqn:E; eauto.
      exfalso. apply not_true_iff_false in E. apply E. apply forallb_forall. intros x Hx. apply candidates_In in Hx.
      apply filename_spec. destruct (path_eqb_spec (d ++ [x]) p) as [Ep|Np].
      - eapply Hp; [symmetry; exact Ep|apply Hx].
      - apply Pl, Hin. apply (changed_policy_file _ _ _ _ d x C Np). exact Hx. }
    destruct X as [l' X]. exists l'. apply filter_filepaths_spec; [exact (ch_wf' _ _ _ _ C)|exact X]. }
  destruct Sel as [names' PD']. pose proof PD' as (Dd' & Srt' & Hin' & Pl').
  assert (Each : forall n, In n names' -> exists ls, file_lines f' (d ++ [n]) ls /\ In (path_str (d ++ [n]), ls) files).
  { intros n Hn'. apply Hin' in Hn'. destruct (path_eqb_spec (d ++ [n]) p) as [Ep|Np].
    - assert (Hc : exists c, content = Some c).
      { destruct Hn' as (_ & _ & (x & Hx)). rewrite Ep, (ch_at _ _ _ _ C) in Hx. destruct content; [eauto|discriminate]. }
      destruct Hc as [c ->]. destruct (ch_text _ _ _ _ C c eq_refl) as [U Eq].
      exists (lines_lf c). split.
      + exists c. rewrite Ep, (ch_at _ _ _ _ C). cbn. auto.
      + assert (I : In (path_str (d ++ [n]), Ok (lines_lf c)) (map readable files)).
        { rewrite <- H. apply in_or_app. right. unfold override_files. cbn [flat_map fst snd].
          rewrite <- Ep, split_last_app, path_eqb_refl. left. reflexivity. }
        apply in_map_iff in I as ([fl lsx] & E & I). unfold readable in E. cbn in E. inv E. exact I.
    - apply (changed_policy_file _ _ _ _ d n C Np) in Hn'. apply Hin in Hn'.
      assert (I : In (path_str (d ++ [n]), read_lines f (d ++ [n])) (map readable files)).
      { rewrite <- H. apply in_or_app. left. apply in_map_iff. exists n. split; auto. apply filter_In. split; auto.
        cbn [oget]. destruct (path_eqb_spec (d ++ [n]) p); [contradiction|reflexivity]. }
      apply in_map_iff in I as ([fl lsx] & E & I). unfold readable in E. cbn in E. injection E as E1 E2. subst fl.
      exists lsx. split; auto. apply (changed_lines _ _ _ _ _ _ C Np). apply read_lines_spec. auto. }
  exists names'. clear - Each PD'.
  assert (X : exists files', Forall2 (fun n fl => fst fl = path_str (d ++ [n]) /\ file_lines f' (d ++ [n]) (snd fl)) names' files' /\
    incl files' files).
  { clear PD'. induction names' as [|n names' IH]; [exists []; split; [constructor|intros x []]|].
    destruct IH as (files' & F & I); [intros; apply Each; right; auto|].
    destruct (Each n) as (ls & Hls & Hi); [left; auto|].
    exists ((path_str (d ++ [n]), ls) :: files'). split; [constructor; auto|]. intros x [<-|Hx]; auto. }
  destruct X as (files' & X). exists files'. tauto.
Qed.

Theorem validated_loads f f' p content lg fuel pp :
  changed f f' p content ->
  (forall d' n, p = d' ++ [n] -> policy_name n -> plain_filename n) ->
  (forall rs, legacy_policy f lg rs -> exists rs', legacy_policy f' lg rs') ->
  validate f [(p, content)] lg fuel pp = Ok tt ->
  exists fuel' rs, load_policy f' lg fuel' [pp] = Ok rs.
Proof.
  intros C Hp Hc V. unfold validate in V. apply (proj1 (os_to_denied_ok _ _)) in V.
  apply bind_ok in V as (vfiles & Hv & V). apply bind_ok in V as (rs & Hr & _).
  destruct (files_readable _ _ _ Hr) as (files & ->).
  set (L := validate_loader f [(p, content)] lg pp) in *.
  set (opens := fun q file ls => ld_open L q = Ok (file, ls)).
  set (lists := fun q fl => ld_dir L q = Ok (map readable fl)).
  set (leg := fun r => exists g, ld_compat L g = Ok r).
  assert (LS : loader_sound L opens lists leg).
  { constructor; unfold opens, lists, leg; auto. intros g r H. eauto. }
  destruct (text_rules_mono opens (opens_at f' pp) lists (lists_at f' pp) leg (legacy_policy f' lg)) as [M _].
  - intros q file ls. apply (changed_open _ _ _ _ _ _ C).
  - intros q fl H. unfold lists, L in H. cbn [validate_loader ld_dir] in H.
    destruct (is_dir f (resolve pp q)) eqn:E; [|discriminate].
    destruct (changed_listing _ _ _ _ _ _ C Hp H) as (names & files' & H1 & H2 & H3).
    exists files'. split; [exists names; auto|exact H3].
  - intros r (g & Hg). apply (Hc r). apply compat_execute_spec; [exact (ch_wf _ _ _ _ C)|]. exists g. exact Hg.
  - destruct (changed_listing _ _ _ _ _ _ C Hp Hv) as (names & files' & PD & F & I).
    assert (T : forall n, In n names -> exists ls r, file_lines f' (pp ++ [n]) ls /\
               file_rules f' lg pp (path_str (pp ++ [n])) ls r).
    { intros n Hn. destruct (Forall2_In_l _ _ _ F n Hn) as ([file ls] & Hin & E & Hls). cbn in E, Hls. subst file.
      apply I in Hin. exists ls.
      apply concatM_ok in Hr as (rss & Fr & ->).
      assert (In (readable (path_str (pp ++ [n]), ls)) (map readable files)) as Hin' by (apply in_map; exact Hin).
      destruct (Forall2_In_l _ _ _ Fr _ Hin') as (r & _ & E). cbn in E.
      apply (load_file_sound L opens lists leg LS) in E. apply M in E as (r' & E). eauto. }
    assert (X : exists r, policy_of f' lg [pp] r).
    { unfold policy_of.
      assert (Ch : chosen f' [pp] (map (fun n => (pp, n)) names)).
      { destruct PD as (P1 & P2 & P3 & P4). repeat split.
        - intros d [<-|[]]. exact P1.
        - intros d n [<-|[]] Hn. apply P4, P3, Hn.
        - clear - P2. induction P2 as [|n l S IH Hf]; cbn; constructor; auto.
          apply Forall_forall. intros x Hx. apply in_map_iff in Hx as (y & <- & Hy). cbn.
          rewrite Forall_forall in Hf. auto.
        - intros H. apply in_map_iff in H as (y & E & Hy). inv E. exists [], []. repeat split; auto.
          + apply P3, Hy.
          + apply P3, Hy.
          + apply P3, Hy.
        - intros (before & after & E & Hf & _). destruct before as [|b before]; cbn in E.
          + inv E. apply in_map_iff. exists n. split; auto. apply P3, Hf.
          + inv E. destruct before; discriminate. }
      assert (Y : exists r, chosen_rules f' lg (map (fun n => (pp, n)) names) r).
      { clear - T. induction names as [|n names IH]; [eexists; constructor|].
        destruct IH as [r2 H2]; [intros; apply T; right; auto|].
        destruct (T n) as (ls & r1 & H1 & H1'); [left; auto|]. eexists. eapply cr_file; eauto. }
      destruct Y as [r Y]. eauto. }
    destruct X as [r X]. apply load_policy_spec in X as [g X]; [eauto|exact (ch_wf' _ _ _ _ C)].
Qed.

(** ** Legacy files that do not read the changed file *)
Definition includes (x p : string) : Prop :=
  exists b l l', x = b +++ l /\ blanks b /\ begins l /\ legacy_spelling l l' /\ starts "!" l' = true /\
    fields l' ["!include"; p].
(** no legacy policy file is, or includes, the file [p] *)
Definition legacy_apart (f : fs) (lg p : path) : Prop :=
  (forall n, p <> lg ++ [n]) /\
  forall n ls x q, legacy_file f lg n -> file_lines f (lg ++ [n]) ls ->
    service_reached (opens_at f lg) ls x -> includes x q -> resolve lg q <> p.

Lemma service_apart f f' p content lg sv ar file ls rs : changed f f' p content ->
  (forall x q, service_reached (opens_at f lg) ls x -> includes x q -> resolve lg q <> p) ->
  service_rules (opens_at f lg) sv ar file ls rs -> service_rules (opens_at f' lg) sv ar file ls rs.
Proof.
  intros C H R. induction R.
  - constructor.
  - apply sr_inert; auto. apply IHR. intros x q Hx. apply H. inv Hx; [apply sre_line; right; auto|].
    eapply sre_include; eauto. right; auto.
  - eapply sr_rule; eauto. apply IHR. intros x q Hx. apply H. inv Hx; [apply sre_line; right; auto|].
    eapply sre_include; eauto. right; auto.
  - assert (Nq : resolve lg p0 <> p).
    { apply (H (b +++ l)); [apply sre_line; left; auto|]. exists b, l, l'. repeat split; auto. }
    assert (Op : opens_at f' lg p0 file' ls').
    { match goal with K : opens_at f lg p0 _ _ |- _ => destruct K as [E Hl] end. split; auto. apply (changed_lines _ _ _ _ _ _ C Nq). exact Hl. }
    eapply sr_include; [eassumption|eassumption|eassumption|eassumption|eassumption|exact Op| |].
    + apply IHR1. intros x q Hx. apply H. eapply sre_include; eauto. left; auto.
    + apply IHR2. intros x q Hx. apply H. inv Hx; [apply sre_line; right; auto|].
      eapply sre_include; eauto. right; auto.
Qed.
Lemma legacy_apart_loads f f' p content lg rs : changed f f' p content -> legacy_apart f lg p ->
  legacy_policy f lg rs -> legacy_policy f' lg rs.
Proof.
  intros C [Hn Hi] (l & LF & LR). exists l.
  assert (Same : forall n, legacy_file f' lg n <-> legacy_file f lg n).
  { intros n. unfold legacy_file, regular. rewrite !entry_spec, (ch_rest _ _ _ _ C) by auto. reflexivity. }
  split.
  - destruct LF as (D & S & LF). split; [|split; auto].
    + apply (changed_dir _ _ _ _ _ C D).
    + intros s a n. rewrite Same. apply LF.
  - assert (LFi : forall s a n, In (s, a, n) l -> legacy_file f lg n) by (intros s a n H; apply LF in H; apply H).
    clear LF. induction LR.
    + constructor.
    + eapply lr_general; eauto.
      * apply (changed_lines _ _ _ _ _ _ C); [intros K; exact (Hn _ (eq_sym K))|eassumption].
      * eapply service_apart; eauto. intros x q Hx. eapply Hi; eauto. eapply LFi. left; eauto.
      * apply IHLR. intros. eapply LFi. right; eauto.
    + eapply lr_specific; eauto.
      * apply (changed_lines _ _ _ _ _ _ C); [intros K; exact (Hn _ (eq_sym K))|eassumption].
      * eapply service_apart; eauto. intros x q Hx. eapply Hi; eauto. eapply LFi. left; eauto.
      * apply IHLR. intros. eapply LFi. right; eauto.
Qed.
