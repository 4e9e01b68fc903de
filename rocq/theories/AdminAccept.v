(** A change that leaves a policy that loads is validated. *)
From Coq Require Import String Ascii List Bool Arith Lia Permutation Sorting.
From Verif Require Import Base SysInfo Token Rule Policy FileSys Loader Admin
  SpecPolicy SpecRule SpecLoader SpecAdmin
  TokenProofs RuleProofs TextProofs LoaderProofs SelectProofs LoaderExt AdminProofs AdminLoad.
Import ListNotations.
Open Scope string_scope.
Open Scope list_scope.

(** ** Texts keep a meaning, the lines that are reached being known *)
Lemma text_rules_mono_P (opens opens' : string -> string -> list string -> Prop)
  (lists lists' : string -> list (string * list string) -> Prop) (legacy legacy' : list rule -> Prop) (P : string -> Prop) :
  (forall p f l, opens p f l -> opens' p f l) ->
  (forall l p files, fields l ["!include-dir"; p] -> P l -> lists p files -> exists files', lists' p files' /\ incl files' files) ->
  (forall rs, legacy rs -> exists rs', legacy' rs') ->
  (forall file ls rs, text_rules opens lists legacy file ls rs -> (forall x, reached opens lists ls x -> P x) ->
     exists rs', text_rules opens' lists' legacy' file ls rs') /\
  (forall files rs, files_rules opens lists legacy files rs ->
     (forall file ls x, In (file, ls) files -> reached opens lists ls x -> P x) -> forall file ls, In (file, ls) files ->
     exists rs', text_rules opens' lists' legacy' file ls rs').
Proof.
  intros Ho Hl Hc.
  assert (R : forall l ls x, reached opens lists ls x -> reached opens lists (l :: ls) x).
  { intros l ls x Hx. inv Hx; [apply re_line; right; auto|eapply re_include; eauto; right; auto|
      eapply re_include_dir; eauto; right; auto]. }
  apply (text_files_ind opens lists legacy
    (fun file ls rs => (forall x, reached opens lists ls x -> P x) -> exists rs', text_rules opens' lists' legacy' file ls rs')
    (fun files rs => (forall file ls x, In (file, ls) files -> reached opens lists ls x -> P x) -> forall file ls, In (file, ls) files ->
     exists rs', text_rules opens' lists' legacy' file ls rs')).
  - intros. eexists. apply tr_end.
  - intros file l ls rs Hi _ IH HP. destruct IH as [rs' IH]; [intros x Hx; apply HP, R, Hx|]. eexists. apply tr_inert; eauto.
  - intros file l ls ws r rs Hi Hd Hf Hr _ IH HP. destruct IH as [rs' IH]; [intros x Hx; apply HP, R, Hx|]. eexists. eapply tr_rule; eauto.
  - intros file l ls p file' ls' rs1 rs2 Hf Hop _ IH1 _ IH2 HP.
    destruct IH1 as [r1 IH1]; [intros x Hx; apply HP; eapply re_include; eauto; left; auto|].
    destruct IH2 as [r2 IH2]; [intros x Hx; apply HP, R, Hx|]. eexists. eapply tr_include; eauto.
  - intros file l ls p files rs1 rs2 Hf Hli _ IH1 _ IH2 HP.
    destruct IH2 as [r2 IH2]; [intros x Hx; apply HP, R, Hx|].
    assert (Pl : P l) by (apply HP, re_line; left; auto).
    destruct (Hl l _ _ Hf Pl Hli) as (files' & Hl' & Hin).
    specialize (IH1 ltac:(intros fl lsx x Hi Hx; apply HP; eapply re_include_dir; eauto; left; auto)).
    assert (X : exists r1, files_rules opens' lists' legacy' files' r1).
    { clear Hl' Hli HP. induction files' as [|[fl lsx] files' IHf]; [eexists; constructor|].
      destruct IHf as [r1 Hr1]; [intros x Hx; apply Hin; right; auto|].
      destruct (IH1 fl lsx) as [r0 Hr0]; [apply Hin; left; auto|]. eexists. constructor; eauto. }
    destruct X as [r1 X]. eexists. eapply tr_include_dir; eauto.
  - intros file l ls s a p sv ar file' ls' rs1 rs2 Hf Hs Hop Hsr _ IH2 HP.
    destruct IH2 as [r2 IH2]; [intros x Hx; apply HP, R, Hx|].
    eexists. eapply tr_include_service; eauto. eapply service_rules_mono; eauto.
  - intros file l ls rs1 rs2 Hf Hle _ IH2 HP. destruct IH2 as [r2 IH2]; [intros x Hx; apply HP, R, Hx|].
    destruct (Hc _ Hle) as [r1 H1]. eexists. eapply tr_compat; eauto.
  - intros _ file ls [].
  - intros file ls files rs1 rs2 _ IH1 _ IH2 HP file0 ls0 [E|Hin].
    + inv E. apply IH1. intros x Hx. eapply HP; [left; reflexivity|exact Hx].
    + apply IH2; auto. intros fl lsx x Hi. eapply HP. right; eauto.
Qed.

(** ** Legacy files that do not read the changed file *)
Lemma service_elsewhere f f' p lg sv ar file ls rs : (forall q, q <> p -> fget f' q = fget f q) ->
  (forall x q, service_reached (opens_at f lg) ls x -> includes x q -> resolve lg q <> p) ->
  service_rules (opens_at f lg) sv ar file ls rs -> service_rules (opens_at f' lg) sv ar file ls rs.
Proof.
  intros C H R. induction R.
  - constructor.
  - apply sr_inert; auto. apply IHR. intros x q Hx. apply H. inv Hx; [apply sre_line; right; auto|].
    eapply sre_include; eauto. right; auto.
  - eapply sr_rule; eauto. apply IHR. intros x q Hx. apply H. inv Hx; [apply sre_line; right; auto|].
    eapply sre_include; eauto. right; auto.
  - assert (Nq : resolve lg p0 <> p).
    { apply (H (b +++ l)); [apply sre_line; left; auto|]. exists b, l, l'. repeat split; auto. }
    assert (Op : opens_at f' lg p0 file' ls').
    { match goal with K : opens_at f lg p0 _ _ |- _ => destruct K as [E (c & Hc & Hl)] end.
      split; auto. exists c. rewrite (C _ Nq). auto. }
    eapply sr_include; [eassumption|eassumption|eassumption|eassumption|eassumption|exact Op| |].
    + apply IHR1. intros x q Hx. apply H. eapply sre_include; eauto. left; auto.
    + apply IHR2. intros x q Hx. apply H. inv Hx; [apply sre_line; right; auto|].
      eapply sre_include; eauto. right; auto.
Qed.
Lemma legacy_elsewhere f f' p lg rs : (forall q, q <> p -> fget f' q = fget f q) -> fget f p <> Some NDir ->
  legacy_apart f lg p -> legacy_policy f lg rs -> legacy_policy f' lg rs.
Proof.
  intros C Nd [Hn Hi] (l & LF & LR). exists l.
  assert (Same : forall n, legacy_file f' lg n <-> legacy_file f lg n).
  { intros n. unfold legacy_file, regular. rewrite !entry_spec, C by auto. reflexivity. }
  assert (Lines : forall n ls, file_lines f (lg ++ [n]) ls -> file_lines f' (lg ++ [n]) ls).
  { intros n ls (c & Hc). exists c. rewrite C by auto. exact Hc. }
  split.
  - destruct LF as (D & S & LF). split; [|split; auto].
    + rewrite C; auto. intros ->. contradiction.
    + intros s a n. rewrite Same. apply LF.
  - assert (LFi : forall s a n, In (s, a, n) l -> legacy_file f lg n) by (intros s a n H; apply LF in H; apply H).
    clear LF. induction LR.
    + constructor.
    + eapply lr_general; eauto.
      * eapply service_elsewhere; eauto. intros x q Hx. eapply Hi; eauto. eapply LFi. left; eauto.
      * apply IHLR. intros. eapply LFi. right; eauto.
    + eapply lr_specific; eauto.
      * eapply service_elsewhere; eauto. intros x q Hx. eapply Hi; eauto. eapply LFi. left; eauto.
      * apply IHLR. intros. eapply LFi. right; eauto.
Qed.

(** ** The files the validator reads *)
Lemma changed_file_not_dir f f' p content : changed f f' p content -> fget f' p <> Some NDir.
Proof. intros C. rewrite (ch_at _ _ _ _ C). destruct content; discriminate. Qed.

Lemma changed_opens f f' p content lg pp : changed f f' p content -> forall q file ls,
  opens_at f' pp q file ls -> ld_open (validate_loader f [(p, content)] lg pp) q = Ok (file, ls).
Proof.
  intros C q file ls [-> (c & Hc & U & ->)]. cbn [validate_loader ld_open]. rewrite oget_one.
  destruct (path_eqb_spec (resolve pp q) p) as [E|N].
  - rewrite E, (ch_at _ _ _ _ C) in Hc. destruct content as [d|]; [|discriminate]. cbn in Hc. injection Hc as ->.
    destruct (ch_text _ _ _ _ C c eq_refl) as [_ Eq]. rewrite Eq. reflexivity.
  - apply open_file_spec. split; auto. exists c. rewrite <- (ch_rest _ _ _ _ C) by auto. auto.
Qed.

Lemma changed_listing_back f f' p content d names files' : changed f f' p content ->
  (forall c n, content = Some c -> p = d ++ [n] -> policy_name n) ->
  (forall n, p = d ++ [n] -> policy_file f d n -> plain_filename n) ->
  policy_dir f' d names ->
  Forall2 (fun n fl => fst fl = path_str (d ++ [n]) /\ file_lines f' (d ++ [n]) (snd fl)) names files' ->
  exists files, validate_dir f [(p, content)] d = Ok (map readable files) /\ incl files files'.
Proof.
  intros C Ha Hb PD F. pose proof PD as (Dd' & _ & Hin' & Pl').
  assert (Dd : fget f d = Some NDir).
  { rewrite <- (ch_rest _ _ _ _ C); auto. intros ->. exact (changed_file_not_dir _ _ _ _ C Dd'). }
  assert (X : exists l, (do ns <- iterdir f d; filter_filepaths f d ns) = Ok l).
  { unfold iterdir. pose proof Dd as Dx. apply is_dir_spec in Dx. rewrite Dx. cbn [bind].
    unfold filter_filepaths. destruct (forallb (sforall filename_char) (filter (candidate f d) (listing f d))) eqn:E; eauto.
    exfalso. apply not_true_iff_false in E. apply E. apply forallb_forall. intros x Hx. apply candidates_In in Hx.
    apply filename_spec. destruct (path_eqb_spec (d ++ [x]) p) as [Ep|Np].
    - apply Hb; auto.
    - apply Pl', Hin'. apply (changed_policy_file _ _ _ _ d x C Np). exact Hx. }
  destruct X as [l X].
  assert (PDf : policy_dir f d l) by (apply filter_filepaths_spec; [exact (ch_wf _ _ _ _ C)|exact X]).
  destruct PDf as (_ & _ & Hin & _).
  assert (Z : exists r, validate_dir f [(p, content)] d = Ok r /\
     forall x, In x r -> exists y, x = readable y /\ In y files').
  { unfold validate_dir. apply bind_ok in X as (ns & -> & X). cbn [bind]. rewrite X. cbn [bind].
    eexists. split; [reflexivity|]. intros x Hx. apply in_app_or in Hx as [Hx|Hx].
    - apply in_map_iff in Hx as (n & <- & Hn). apply filter_In in Hn as [Hn Ho]. rewrite oget_one in Ho.
      destruct (path_eqb_spec (d ++ [n]) p) as [Ep|Np]; [discriminate|].
      apply Hin in Hn. apply (changed_policy_file _ _ _ _ d n C Np) in Hn. apply Hin' in Hn.
      destruct (Forall2_In_l _ _ _ F _ Hn) as ([fl ls] & Hy & E1 & E2). cbn in E1, E2. subst fl.
      exists (path_str (d ++ [n]), ls). split; auto. unfold readable. cbn. f_equal.
      apply read_lines_spec. apply (changed_lines _ _ _ _ _ _ C Np). exact E2.
    - unfold override_files in Hx. cbn [flat_map fst snd] in Hx. rewrite app_nil_r in Hx.
      destruct (split_last p) as [[d' n]|] eqn:Es; [|destruct Hx]. apply split_last_spec in Es.
      destruct content as [c|]; [|destruct Hx].
      destruct (path_eqb_spec d d') as [<-|N]; [|destruct Hx]. destruct Hx as [<-|[]].
      assert (Hn : In n names).
      { apply Hin'. split; [|split].
        - apply entry_spec. rewrite <- Es, (ch_at _ _ _ _ C). discriminate.
        - eapply Ha; eauto.
        - exists (Some c). rewrite <- Es, (ch_at _ _ _ _ C). reflexivity. }
      destruct (Forall2_In_l _ _ _ F _ Hn) as ([fl ls] & Hy & E1 & (c' & E2 & E3 & E4)). cbn in E1, E4. subst fl.
      rewrite <- Es, (ch_at _ _ _ _ C) in E2. cbn in E2. injection E2 as <-.
      destruct (ch_text _ _ _ _ C c eq_refl) as [_ Eq].
      exists (path_str (d ++ [n]), ls). split; auto. unfold readable. cbn. rewrite Es, E4, Eq. reflexivity. }
  destruct Z as (r & -> & Z). clear - Z. induction r as [|x r IH]; [exists []; split; [reflexivity|intros x []]|].
  destruct IH as (files & E & I); [intros y Hy; apply Z; right; auto|]. injection E as ->.
  destruct (Z x (or_introl eq_refl)) as (y & -> & Hy). exists (y :: files). split; [reflexivity|].
  intros z [<-|Hz]; auto.
Qed.

(** ** Every change that leaves a policy is validated *)
Theorem loads_validated f f' p content lg pp rs :
  changed f f' p content ->
  (forall c n, content = Some c -> p = pp ++ [n] -> policy_name n) ->
  (forall d n, p = d ++ [n] -> policy_name n -> plain_filename n) ->
  (forall m ls x q c n, policy_file f' pp m -> file_lines f' (pp ++ [m]) ls ->
     reached (opens_at f' pp) (lists_at f' pp) ls x -> fields x ["!include-dir"; q] ->
     content = Some c -> p = resolve pp q ++ [n] -> policy_name n) ->
  (forall rs, legacy_policy f' lg rs -> exists rs', legacy_policy f lg rs') ->
  policy_of f' lg [pp] rs ->
  exists fuel, forall fuel', fuel <= fuel' -> validate f [(p, content)] lg fuel' pp = Ok tt.
Proof.
  intros C Ha Hb Hr Hc (sel & (Dirs & Plain & Sorted & Sel) & CR).
  set (L := validate_loader f [(p, content)] lg pp).
  set (opens := fun q file ls => ld_open L q = Ok (file, ls)).
  set (lists := fun q fl => ld_dir L q = Ok (map readable fl)).
  set (leg := fun r => exists g, ld_compat L g = Ok r).
  assert (Mono : compat_mono L).
  { intros g g' r Hg Hx. eapply compat_execute_mono; eauto. }
  assert (LC : loader_complete L opens lists leg).
  { constructor; unfold opens, lists, leg; auto. }
  set (P := fun l : string => forall q c n, fields l ["!include-dir"; q] -> content = Some c -> p = resolve pp q ++ [n] -> policy_name n).
  destruct (text_rules_mono_P (opens_at f' pp) opens (lists_at f' pp) lists (legacy_policy f' lg) leg P) as [M _].
  { intros q file ls Hx. apply (changed_opens _ _ _ _ _ _ C). exact Hx. }
  { intros l q files Hf HP (names & PD & F).
    destruct (changed_listing_back f f' p content (resolve pp q) names files C) as (files1 & E & I); auto.
    - intros c n. apply HP. exact Hf.
    - intros n E (_ & Pn & _). eapply Hb; eauto.
    - exists files1. split; auto. unfold lists, L. cbn [validate_loader ld_dir].
      replace (is_dir f (resolve pp q)) with true; [exact E|]. symmetry. apply is_dir_spec.
      destruct PD as (PD & _). rewrite <- (ch_rest _ _ _ _ C); auto. intros K. rewrite K in PD. exact (changed_file_not_dir _ _ _ _ C PD). }
  { intros r Hl. destruct (Hc r Hl) as [r' Hr']. exists r'. apply compat_execute_spec in Hr'; [exact Hr'|exact (ch_wf _ _ _ _ C)]. }
  (* the files of the directory *)
  assert (SelIn : forall d n, In (d, n) sel <-> d = pp /\ policy_file f' pp n).
  { intros d n. rewrite Sel. split.
    - intros (before & after & E & Hf & _). destruct before as [|b before]; cbn in E; [inv E; auto|]. inv E. destruct before; discriminate.
    - intros [-> Hf]. exists [], []. repeat split; auto. apply Hf. apply Hf. apply Hf. }
  assert (T : forall d n, In (d, n) sel -> exists ls r, file_lines f' (d ++ [n]) ls /\ file_rules f' lg d (path_str (d ++ [n])) ls r).
  { clear - CR. induction CR; [intros d n []|]. intros d0 n0 [E|Hi]; [inv E; eauto|eauto]. }
  assert (PD : policy_dir f' pp (map snd sel)).
  { split; [apply Dirs; left; auto|]. split; [|split].
    - clear - Sorted. induction Sorted as [|x l S IH Hf]; cbn; constructor; auto.
      apply Forall_forall. intros y Hy. apply in_map_iff in Hy as (z & <- & Hz). rewrite Forall_forall in Hf. auto.
    - intros n. rewrite in_map_iff. split.
      + intros ([d m] & <- & Hi). apply SelIn in Hi as [_ Hi]. exact Hi.
      + intros Hf. exists (pp, n). split; auto. apply SelIn. auto.
    - intros n Hn. apply in_map_iff in Hn as ([d m] & <- & Hi). apply SelIn in Hi as [_ Hi]. eapply Plain; [left; reflexivity|exact Hi]. }
  assert (F : exists files', Forall2 (fun n fl => fst fl = path_str (pp ++ [n]) /\ file_lines f' (pp ++ [n]) (snd fl)) (map snd sel) files' /\
    forall file ls, In (file, ls) files' -> exists r, text_rules opens lists leg file ls r).
  { assert (G : forall d n, In (d, n) sel -> exists ls, file_lines f' (pp ++ [n]) ls /\ exists r, text_rules opens lists leg (path_str (pp ++ [n])) ls r).
    { intros d n Hi. destruct (T d n Hi) as (ls & r & H1 & H2). apply SelIn in Hi as [-> Hf]. exists ls. split; auto.
      apply M in H2; auto. intros x Hx q c m Hfx. eapply Hr; eauto. }
    clear - G. induction sel as [|[d n] sel IH]; [exists []; split; [constructor|intros ? ? []]|].
    destruct IH as (files' & IH1 & IH2); [intros d' n' Hi; eapply G; right; eauto|].
    destruct (G d n (or_introl eq_refl)) as (ls & H1 & H2).
    exists ((path_str (pp ++ [n]), ls) :: files'). split; [constructor; auto|].
    intros file ls' [E|Hi]; [inv E; exact H2|eauto]. }
  destruct F as (files' & F & Ft).
  destruct (changed_listing_back f f' p content pp (map snd sel) files' C) as (files & E & I); auto.
  { intros n En (_ & Pn & _). eapply Hb; eauto. }
  assert (Y : exists r, files_rules opens lists leg files r).
  { clear E. induction files as [|[file ls] files IH]; [eexists; constructor|].
    destruct IH as [r2 H2]; [intros z Hz; apply I; right; auto|].
    destruct (Ft file ls) as [r1 H1]; [apply I; left; auto|]. eexists. constructor; eauto. }
  destruct Y as [r Y]. apply (proj2 (load_file_complete L opens lists leg LC)) in Y as [g Y].
  exists g. intros g' Hg. unfold validate. apply os_to_denied_ok. rewrite E. cbn [bind]. fold L.
  assert (Y' : concatM (fun fl : string * res (list string) => do ls <- snd fl; load_file g' L (fst fl) ls) (map readable files) = Ok r).
  { eapply concatM_mono; [|exact Y]. intros [fl rls] r0 _ H0. cbn [fst snd] in *. destruct rls as [ls|]; [|discriminate]. cbn [bind] in *.
    eapply load_file_mono; eauto. }
  rewrite Y'. reflexivity.
Qed.
