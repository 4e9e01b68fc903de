(** C55: what becomes of the rules of the old format. *)
From Coq Require Import String Ascii List Bool Arith Lia.
From Verif Require SelectProofs AdminProofs.
From Verif Require Import Base SysInfo Token Rule Policy FileSys Loader LineLoader LoadAll Graph Convert SpecConvert ConvertProofs ConvertText ConvertFs ConvertRun RulePrint Props_Policy Props_Loader.
Import ListNotations.
Open Scope string_scope.
Open Scope list_scope.

Lemma nloaded_made P f fuel all : made P -> nload_policy f POLICYPATH_OLD (ncompat f POLICYPATH_OLD) fuel [POLICYPATH] = Ok all ->
  forall r, In r all -> P (fst r).
Proof.
  intros M E r H. pose proof (lines_erase f POLICYPATH_OLD fuel [POLICYPATH]) as L. rewrite E in L. cbn in L. symmetry in L.
  apply (loaded_made P) in L; [|exact M]. rewrite Forall_forall in L. apply L. apply in_map. exact H.
Qed.
Lemma filter_sub {A} (P : A -> bool) a b : subseq a b -> subseq (filter P a) (filter P b).
Proof.
  intros H. induction H as [|x a b H IH|x a b H IH]; [constructor| |]; cbn [filter]; destruct (P x); try assumption; try (apply ss_skip; assumption); apply ss_keep; assumption.
Qed.
Lemma subseq_refl {A} (l : list A) : subseq l l.
Proof. induction l; [constructor|apply ss_keep; assumption]. Qed.
Lemma subseq_nil {A} (l : list A) : subseq [] l.
Proof. induction l; [constructor|apply ss_skip; assumption]. Qed.

(** the rules planned for a file *)
Lemma plan_sub (legacy new : list nrule) sv : subseq (map snd (for_service legacy new sv)) (of_service sv legacy).
Proof.
  unfold for_service. destruct (_ || _); [apply subseq_nil|]. rewrite map_map. cbn [snd]. rewrite map_id.
  eapply subseq_trans; [apply cut_subseq|]. apply filter_subseq.
Qed.
Lemma map_sub {A B} (g : A -> B) a b : subseq a b -> subseq (map g a) (map g b).
Proof. intros H. induction H; cbn; [constructor|apply ss_skip; assumption|apply ss_keep; assumption]. Qed.
Lemma of_service_other sv sv' l : sv <> sv' -> of_service sv (of_service sv' l) = [].
Proof.
  intros N. destruct (of_service sv (of_service sv' l)) as [|x m] eqn:E; [reflexivity|].
  assert (H : In x (of_service sv (of_service sv' l))) by (rewrite E; left; reflexivity).
  apply of_service_spec in H as [H H1]. apply of_service_spec in H as [_ H2]. congruence.
Qed.
Lemma of_service_sub sv a b : subseq a b -> subseq (of_service sv a) (of_service sv b).
Proof. apply filter_sub. Qed.
Lemma sub_nil_inv {A} (a : list A) : subseq a [] -> a = [].
Proof. inversion 1. reflexivity. Qed.
Lemma of_service_app sv a b : of_service sv (a ++ b) = of_service sv a ++ of_service sv b.
Proof. apply filter_app. Qed.
Lemma of_service_idem sv l : subseq (of_service sv (of_service sv l)) (of_service sv l).
Proof. apply filter_subseq. Qed.
Lemma planned_sub legacy new sv (keep : string * nrule -> bool) : forall services, NoDup services ->
  subseq (of_service sv (map snd (filter keep (flat_map (for_service legacy new) services)))) (of_service sv legacy).
Proof.
  induction services as [|x services IH]; intros D; [apply subseq_nil|]. inversion D as [|? ? N D']; subst. cbn [flat_map].
  rewrite filter_app, map_app, of_service_app.
  assert (S0 : subseq (map snd (filter keep (for_service legacy new x))) (of_service x legacy)).
  { eapply subseq_trans; [|apply plan_sub]. apply map_sub. apply filter_subseq. }
  destruct (service_dec x sv) as [E|E].
  - subst x. replace (of_service sv (map snd (filter keep (flat_map (for_service legacy new) services)))) with (@nil nrule).
    + rewrite app_nil_r. eapply subseq_trans; [apply of_service_sub; exact S0|]. apply of_service_idem.
    + symmetry. clear - N. induction services as [|y l IH]; [reflexivity|]. cbn [flat_map]. rewrite filter_app, map_app, of_service_app.
      rewrite IH by (intros K; apply N; right; exact K). rewrite app_nil_r. apply sub_nil_inv. rewrite <- (of_service_other sv y legacy).
      * apply of_service_sub. eapply subseq_trans; [|apply plan_sub]. apply map_sub. apply filter_subseq.
      * intros ->. apply N. left. reflexivity.
  - replace (of_service sv (map snd (filter keep (for_service legacy new x)))) with (@nil nrule); [exact (IH D')|].
    symmetry. apply sub_nil_inv. rewrite <- (of_service_other sv x legacy); [apply of_service_sub; exact S0|congruence].
Qed.
Lemma legacy_sub all new : subseq (legacy_rules all new) all.
Proof. unfold legacy_rules. eapply subseq_trans; apply filter_subseq. Qed.

(** Every rule that is written was a rule of the old format, and the rules of a service
    that are written to the same file keep their order. *)
Theorem C55_only_old all new services file rs : services_of all new services -> saved all new services file rs ->
  (forall r, In r rs -> of_old_format all new r) /\
  forall sv, subseq (rules_for sv rs) all.
Proof.
  intros [D _] H. unfold saved, rules_to_save in H. apply in_map_iff in H as (f & E & _).
  set (l := map snd (filter (fun x : string * nrule => String.eqb (fst x) f) (flat_map (for_service (legacy_rules all new) new) services))) in *.
  injection E as -> <-.
  assert (S1 : subseq (if String.eqb file INPUT_FILE then split_input [] l else l) l) by (destruct (String.eqb file INPUT_FILE); [apply split_subseq|apply subseq_refl]).
  split.
  - intros r H. apply (subseq_In _ _ _ S1) in H. unfold l in H. apply in_map_iff in H as (x & <- & H).
    apply filter_In in H as [H _]. apply in_flat_map in H as (sv & _ & H). apply legacy_spec.
    assert (K : In (snd x) (map snd (for_service (legacy_rules all new) new sv))) by (apply in_map; exact H).
    apply (subseq_In _ _ _ (plan_sub _ _ _)) in K. apply of_service_spec in K. tauto.
  - intros sv. assert (F : forall m, rules_for sv m = of_service sv m).
    { intros m. unfold rules_for, of_service. apply filter_ext. intros r. destruct (service_dec (r_service (fst r)) sv) as [<-|N].
      - destruct (r_service (fst r)); [now rewrite String.eqb_refl|reflexivity].
      - destruct (r_service (fst r)) as [a|], sv as [b|]; try reflexivity; [|congruence]. symmetry. apply String.eqb_neq. congruence. }
    rewrite F. eapply subseq_trans; [apply of_service_sub; exact S1|].
    eapply subseq_trans; [apply planned_sub; exact D|]. eapply subseq_trans; [apply filter_subseq|apply legacy_sub].
Qed.

(** What is not written *)
Theorem C55_kept_partial f fuel all new services :
  nload_policy f POLICYPATH_OLD (ncompat f POLICYPATH_OLD) fuel [POLICYPATH] = Ok all ->
  nload_policy f POLICYPATH_OLD no_compat fuel [POLICYPATH] = Ok new ->
  services_of all new services ->
  forall r n, In r all -> snd r = Some (S n) -> ~ In r new -> accounted all new services r.
Proof.
  intros Ha _ [D Sv] r n Hr Hn _. destruct (existsb (same_place r) new) eqn:Pl.
  { apply existsb_exists in Pl as (r' & H & K). apply same_place_spec in K as [K1 K2]. eapply ac_place; eauto. }
  assert (O : of_old_format all new r).
  { split; [exact Hr|]. split; [exists (S n); split; [exact Hn|discriminate]|]. intros r' H K. apply same_place_spec in K.
    assert (existsb (same_place r) new = true) by (apply existsb_exists; eauto). congruence. }
  pose proof (proj2 (Sv (r_service (fst r))) (ex_intro _ r (conj O eq_refl))) as Hs.
  set (legacy := legacy_rules all new). set (sv := r_service (fst r)) in *.
  assert (Hl : In r (of_service sv legacy)) by (apply of_service_spec; split; [apply legacy_spec; exact O|reflexivity]).
  destruct (smem (nrule_str r) (map nrule_str (of_service sv new))) eqn:Sm.
  { apply smem_In in Sm. apply in_map_iff in Sm as (r' & E & H). apply of_service_spec in H as [H1 H2]. eapply ac_there; eauto. }
  assert (Ne : (strs_eqb (map nrule_str (of_service sv legacy)) (map nrule_str (of_service sv new))
    || match of_service sv legacy with [] => true | _ => false end) = false).
  { apply orb_false_iff. split; [|destruct (of_service sv legacy); [destruct Hl|reflexivity]].
    unfold strs_eqb. destruct (list_eq_dec string_dec _ _) as [E|]; [|reflexivity]. exfalso.
    assert (K : In (nrule_str r) (map nrule_str (of_service sv new))) by (rewrite <- E; apply in_map; exact Hl).
    apply smem_In in K. congruence. }
  assert (Hm : In r (filter (fun r => negb (smem (nrule_str r) (map nrule_str (of_service sv new)))) (of_service sv legacy)))
    by (apply filter_In; split; [exact Hl|now rewrite Sm]).
  destruct (cut_spec _ r Hm) as [C|(r' & l1 & l2 & E & Dn & K)].
  - set (file := if is_rule_compatible (fst r) then target_file sv else CONFIG_FILE).
    assert (P : In (file, r) (flat_map (for_service legacy new) services)).
    { apply in_flat_map. exists sv. split; [exact Hs|]. unfold for_service. rewrite Ne. apply in_map_iff. exists r. auto. }
    set (l := map snd (filter (fun x : string * nrule => String.eqb (fst x) file) (flat_map (for_service legacy new) services))).
    assert (Il : In r l).
    { unfold l. apply in_map_iff. exists (file, r). split; [reflexivity|]. apply filter_In. split; [exact P|]. apply String.eqb_refl. }
    assert (If : In file files_to_save) by (unfold file; destruct (is_rule_compatible (fst r)); [apply target_file_In|left; reflexivity]).
    assert (Sd : saved all new services file (if String.eqb file INPUT_FILE then split_input [] l else l)).
    { unfold saved, rules_to_save. apply in_map_iff. exists file. split; [reflexivity|exact If]. }
    destruct (String.eqb_spec file INPUT_FILE) as [Ef|]; [|eapply ac_saved; eauto].
    destruct (split_input_spec l [] r Il) as [J|[(r' & J & J1 & J2)|J]]; [eapply ac_saved; eauto| |destruct J].
    rewrite Ef in Sd. eapply ac_input; eauto. apply file_of_service. unfold file in Ef. destruct (is_rule_compatible (fst r)); [exact Ef|discriminate].
  - assert (Sb : subseq (filter (fun r => negb (smem (nrule_str r) (map nrule_str (of_service sv new)))) (of_service sv legacy)) all)
      by (eapply subseq_trans; [apply filter_subseq|]; eapply subseq_trans; [apply filter_subseq|apply legacy_sub]).
    destruct (subseq_split _ _ Sb r' l1 l2 E) as (m1 & m2 & Em & Sm2).
    assert (Hr' : In r' (of_service sv legacy)).
    { assert (X : In r' (filter (fun r => negb (smem (nrule_str r) (map nrule_str (of_service sv new)))) (of_service sv legacy)))
        by (rewrite E; apply in_or_app; right; left; reflexivity). apply filter_In in X. tauto. }
    apply of_service_spec in Hr' as [L1 L2]. apply legacy_spec in L1.
    eapply ac_denied with (r' := r') (l1 := m1) (l2 := m2); [exact Em|exact L1|exact L2| |].
    + apply deny_all_spec; [| |exact Dn].
      * apply (nloaded_made wf_cols f fuel all made_cols Ha). destruct L1; assumption.
      * apply (nloaded_made tok_cols f fuel all made_tok_cols Ha). destruct L1; assumption.
    + destruct K as [->|K]; [left; reflexivity|right]. eapply subseq_In; eauto.
Qed.

(** The files that are written read back as the rules that were to be saved, before what was
    there, if they can be printed; the only rules that cannot are those with other parameters
    notify= or autostart= than the default, with an empty user= or for an empty service. *)
Theorem C55_text f fuel all new services : 
  nload_policy f POLICYPATH_OLD (ncompat f POLICYPATH_OLD) fuel [POLICYPATH] = Ok all -> services_of all new services ->
  forall file rs, saved all new services file rs -> rs <> [] ->
  (forall r, In r rs -> printable (fst r) /\ r_service (fst r) <> Some "") ->
  forall n L path current,
    load_file (S n) L path (lines_univ (new_text file rs)) = Ok (map (fun r => moved path (fst r)) rs) /\
    load_file (S n) L path (lines_univ (merged (new_text file rs) (univ_nl current))) =
      do rest <- load_file (S n) L path (lines_univ current); Ok (map (fun r => moved path (fst r)) rs ++ rest).
Proof.
  intros Ha Sv file rs S N P n L path current.
  assert (W : Forall writable (map fst rs)).
  { apply Forall_map, Forall_forall. intros r Hr. destruct (P r Hr) as [P1 P2]. split; [exact P1|]. split; [exact P2|].
    destruct (C55_only_old _ _ _ _ _ Sv S) as [O _]. destruct (O r Hr) as [I _].
    exact (nloaded_made is_line f fuel all made_line Ha r I P2). }
  split; [apply new_text_reads_back|apply merged_reads_back]; assumption.
Qed.

(** ** The run of the tool *)
Lemma convert_cases i color fuel services yes f ops o : convert i color fuel services yes f = (ops, o) ->
  (ops = [] /\ exists e, o = Died e) \/
  exists all new ops1 r1 initial,
    nload_policy f POLICYPATH_OLD (ncompat f POLICYPATH_OLD) fuel [POLICYPATH] = Ok all /\
    nload_policy f POLICYPATH_OLD no_compat fuel [POLICYPATH] = Ok new /\
    graph_of i color fuel f = Ok initial /\
    save_all f (rules_to_save all new services) = (ops1, r1) /\
    ((ops = ops1 /\ exists e, o = Died e) \/
     exists b1 names ops2 b2, r1 = Ok b1 /\
       let f1 := fold_left apply_op ops1 f in let f2 := fold_left apply_op ops2 f1 in
       iterdir f1 POLICYPATH_OLD = Ok names /\ remove_old f1 names = (ops2, b2) /\
       ((ops = ops1 ++ ops2 /\ exists e, o = Died e) \/
        exists current, graph_of i color fuel f2 = Ok current /\
          ((ops = ops1 ++ ops2 /\ set_eqb initial current = true /\ o = Converted) \/
           (ops = ops1 ++ ops2 /\ set_eqb initial current = false /\ yes = false /\ o = ConvertedAnyway) \/
           (set_eqb initial current = false /\ yes = true /\ exists ops3 r, restore f2 (b1 ++ b2) = (ops3, r) /\ ops = ops1 ++ ops2 ++ ops3 /\
              o = match r with Ok _ => Reverted | Err e => Died e end)))).
Proof.
  unfold convert. destruct (graph_of i color fuel f) as [initial|e]; [|intros E; left; split; [congruence|exists e; congruence]].
  destruct (nload_policy f POLICYPATH_OLD (ncompat f POLICYPATH_OLD) fuel [POLICYPATH]) as [all|e]; [|intros E; left; split; [congruence|exists e; congruence]].
  destruct (nload_policy f POLICYPATH_OLD no_compat fuel [POLICYPATH]) as [new|e]; [|intros E; left; split; [congruence|exists e; congruence]].
  destruct (save_all f (rules_to_save all new services)) as [ops1 r1] eqn:Es. intros E. right. exists all, new, ops1, r1, initial.
  split; [reflexivity|]. split; [reflexivity|]. split; [reflexivity|]. split; [exact Es|].
  destruct r1 as [b1|e]; [|left; split; [congruence|exists e; congruence]].
  destruct (iterdir (fold_left apply_op ops1 f) POLICYPATH_OLD) as [names|e] eqn:Hd; [|left; split; [congruence|exists e; congruence]].
  destruct (remove_old (fold_left apply_op ops1 f) names) as [ops2 b2] eqn:Er. right. exists b1, names, ops2, b2.
  split; [reflexivity|]. cbn zeta. split; [reflexivity|]. split; [exact Er|].
  destruct (graph_of i color fuel (fold_left apply_op ops2 (fold_left apply_op ops1 f))) as [current|e]; [|left; split; [congruence|exists EAttr; congruence]].
  right. exists current. split; [reflexivity|]. destruct (set_eqb initial current); [left; repeat split; congruence|]. right.
  destruct yes; [|left; repeat split; congruence]. right. split; [reflexivity|]. split; [reflexivity|].
  destruct (restore _ (b1 ++ b2)) as [ops3 r] eqn:R. exists ops3, r. split; [reflexivity|]. destruct r; split; congruence.
Qed.
Lemma files_NoDup all new services : NoDup (map fst (rules_to_save all new services)).
Proof.
  unfold rules_to_save. rewrite map_map. cbn [fst]. rewrite map_id.
  unfold files_to_save. repeat (apply NoDup_cons; [cbn; intuition discriminate|]). apply NoDup_nil.
Qed.
Lemma kept_start f : kept f f (fun p => p).
Proof. constructor; auto. intros p _. apply as_same. Qed.

(** Wherever the tool is stopped, everything that was there is still there. *)
Theorem C87_nothing_lost i color fuel services yes f ops o : convert i color fuel services yes f = (ops, o) ->
  forall f', stopped f ops f' -> all_there f f'.
Proof.
  intros E. assert (G : safe f f ops); [|exact G].
  assert (S0 : safe f f []) by (apply safe_nil; apply (kept_all _ _ _ (kept_start f))).
  apply convert_cases in E as [[-> _]|(all & new & ops1 & r1 & initial & _ & _ & _ & Es & H)]; [exact S0|].
  destruct (save_all_safe f _ f _ ops1 r1 (files_NoDup all new services) (kept_start f) Es) as [S1 R1].
  destruct H as [[-> _]|(b1 & names & ops2 & b2 & -> & H)]; [exact S1|]. cbn zeta in H. destruct H as (_ & Er & H).
  destruct (R1 b1 eq_refl) as (m1 & K1 & D1 & _ & B1 & _).
  destruct (remove_old_safe f names _ m1 ops2 b2 K1 Er) as (S2 & m2 & K2 & P2).
  assert (S12 : safe f f (ops1 ++ ops2)) by (apply safe_app; assumption).
  destruct H as [[-> _]|(current & _ & [[-> _]|[[-> _]|(_ & _ & ops3 & r & R & -> & _)]])]; [exact S12|exact S12|exact S12|].
  rewrite app_assoc. apply safe_app; [exact S12|]. rewrite fold_left_app.
  destruct (save_all_writes _ _ _ _ Es) as [_ V]. destruct (V b1 eq_refl) as [D2 _].
  eapply restore_safe; [exact K2|exact D1|exact D2| | |apply (remove_old_first _ _ _ _ Er)|exact R].
  - intros x Hx. apply P2. apply B1. exact Hx.
  - intros x Hx. destruct (proj2 (remove_old_in _ _ _ _ Er) x Hx) as (n & Hn & _). eauto.
Qed.

(** what is known of the directory of the old files *)
Lemma old_dir f ops : Forall (op_in POLICYPATH) ops -> forall n, fget (fold_left apply_op ops f) (POLICYPATH_OLD ++ n) = fget f (POLICYPATH_OLD ++ n).
Proof.
  intros F n. eapply ops_in_other; [exact F|]. intros a Z. destruct n as [|? ?]; discriminate.
Qed.
Lemma removed_files f names ops b : iterdir f POLICYPATH_OLD = Ok names -> remove_old f names = (ops, b) ->
  is_dir (fold_left apply_op ops f) POLICYPATH_OLD = true /\
  forall n, is_file (fold_left apply_op ops f) (POLICYPATH_OLD ++ [n]) = true -> ends ".rpmsave" n = true.
Proof.
  intros Hd Er. unfold iterdir in Hd. destruct (is_dir f POLICYPATH_OLD) eqn:D; [|discriminate]. injection Hd as <-. split.
  - unfold is_dir. rewrite (ops_in_other POLICYPATH_OLD); [exact D|exact (proj1 (remove_old_in _ _ _ _ Er))|discriminate].
  - intros n H. destruct (remove_old_gone _ _ _ _ Er n H) as [K|[K K']]; [exact K|]. exfalso. apply K'. apply SelectProofs.listing_In.
    apply fget_keys. apply is_file_get in K as [c ->]. discriminate.
Qed.
Lemma removed_all f names ops b : iterdir f POLICYPATH_OLD = Ok names -> remove_old f names = (ops, b) ->
  compat_files (fold_left apply_op ops f) POLICYPATH_OLD = Ok [].
Proof. intros Hd Er. destruct (removed_files _ _ _ _ Hd Er). apply compat_off; assumption. Qed.

(** After a conversion the old files have no more effect. *)
Theorem C55_old_files_off i color fuel services yes f ops o : convert i color fuel services yes f = (ops, o) ->
  o = Converted \/ o = ConvertedAnyway ->
  forall n, compat_execute (fold_left apply_op ops f) POLICYPATH_OLD n = Ok [].
Proof.
  intros E O n. apply compat_off_execute.
  apply convert_cases in E as [[_ [e ->]]|(all & new & ops1 & r1 & initial & _ & _ & _ & Es & H)]; [destruct O; discriminate|].
  destruct H as [[_ [e ->]]|(b1 & names & ops2 & b2 & -> & H)]; [destruct O; discriminate|]. cbn zeta in H. destruct H as (Hd & Er & H).
  destruct H as [[_ [e ->]]|(current & _ & [[-> _]|[[-> _]|(_ & _ & ops3 & r & R & -> & ->)]])].
  - destruct O; discriminate.
  - rewrite fold_left_app. eapply removed_all; eassumption.
  - rewrite fold_left_app. eapply removed_all; eassumption.
  - destruct r; destruct O; discriminate.
Qed.

(** *** Going back *)
Lemma something_removed i color fuel services f all new ops1 b1 names ops2 b2 initial current :
  nload_policy f POLICYPATH_OLD (ncompat f POLICYPATH_OLD) fuel [POLICYPATH] = Ok all ->
  nload_policy f POLICYPATH_OLD no_compat fuel [POLICYPATH] = Ok new ->
  graph_of i color fuel f = Ok initial ->
  save_all f (rules_to_save all new services) = (ops1, Ok b1) ->
  iterdir (fold_left apply_op ops1 f) POLICYPATH_OLD = Ok names -> remove_old (fold_left apply_op ops1 f) names = (ops2, b2) ->
  graph_of i color fuel (fold_left apply_op ops2 (fold_left apply_op ops1 f)) = Ok current ->
  set_eqb initial current = false -> b2 <> [].
Proof.
  intros Ha Hn Hi Es Hd Er Hc Ne ->.
  pose proof (save_all_in _ _ _ _ Es) as Fi. set (f1 := fold_left apply_op ops1 f) in *.
  assert (Old : forall p, fget f1 (POLICYPATH_OLD ++ p) = fget f (POLICYPATH_OLD ++ p)) by (intros p; apply old_dir; exact Fi).
  assert (N2 : ops2 = []).
  { clear - Er. clearbody f1. revert f1 ops2 Er. induction names as [|n names IH]; intros f1 ops2 Er; cbn [remove_old] in Er; [congruence|].
    destruct (is_file f1 (POLICYPATH_OLD ++ [n]) && _); [|exact (IH f1 ops2 Er)]. destruct (remove_old _ names); discriminate. }
  pose proof (removed_all _ _ _ _ Hd Er) as Off. subst ops2. cbn [fold_left] in *.
  assert (Off0 : compat_files f POLICYPATH_OLD = Ok []).
  { unfold iterdir in Hd. destruct (is_dir f1 POLICYPATH_OLD) eqn:D; [|discriminate]. apply compat_off.
    - unfold is_dir in *. specialize (Old []). rewrite app_nil_r in Old. rewrite <- Old. exact D.
    - intros n H. unfold is_file in H. rewrite <- Old in H. fold (is_file f1 (POLICYPATH_OLD ++ [n])) in H.
      destruct (remove_old_gone _ _ _ _ Er n H) as [K|[K K']]; [exact K|]. exfalso. apply K'. injection Hd as <-. apply SelectProofs.listing_In.
      apply fget_keys. apply is_file_get in K as [c ->]. discriminate. }
  rewrite (nload_policy_ext _ _ _ no_compat) in Ha by (apply ncompat_off; exact Off0). assert (all = new) by congruence. subst new.
  rewrite save_nothing in Es.
  - assert (ops1 = []) by congruence. subst ops1. unfold f1 in Hc. cbn [fold_left] in Hc. assert (initial = current) by congruence. subst current.
    rewrite set_eqb_refl in Ne. discriminate.
  - pose proof (nothing_to_save all services) as T. revert T. unfold rules_to_save. rewrite !map_map. cbn [snd]. intros T.
    apply Forall_map, Forall_forall. intros fn Hf. cbn [snd].
    assert (X : forall g : string -> list nrule, map g files_to_save = map (fun _ => []) files_to_save -> forall fn, In fn files_to_save -> g fn = []).
    { intros g. generalize files_to_save. induction l as [|y l IHl]; intros Y z Hz; [destruct Hz|]. cbn [map] in Y. destruct Hz as [<-|Hz]; [congruence|].
      apply IHl; [congruence|exact Hz]. }
    exact (X _ T fn Hf).
Qed.

(** The tool never says that it went back to the initial state. *)
Theorem C88_never_reverted_refuted i color fuel services yes f ops o : convert i color fuel services yes f = (ops, o) -> o <> Reverted.
Proof.
  intros E ->. apply convert_cases in E as [[_ [e H]]|(all & new & ops1 & r1 & initial & Ha & Hn & Hi & Es & H)]; [discriminate|].
  destruct H as [[_ [e H]]|(b1 & names & ops2 & b2 & -> & H)]; [discriminate|]. cbn zeta in H. destruct H as (Hd & Er & H).
  destruct H as [[_ [e H]]|(current & Hc & [(_ & _ & H)|[(_ & _ & _ & H)|(Ne & _ & ops3 & r & R & _ & Hr)]])]; try discriminate.
  pose proof (something_removed _ _ _ _ _ _ _ _ _ _ _ _ _ _ Ha Hn Hi Es Hd Er Hc Ne) as Nb.
  pose proof (remove_old_first _ _ _ _ Er) as F. destruct b2 as [|x b2]; [congruence|].
  assert (G : forall b g ops r, fget g (fst x) = None -> (forall y, In y b -> fst y <> fst x /\ snd y <> fst x) -> restore g (b ++ x :: b2) = (ops, r) -> exists e, r = Err e).
  { induction b as [|[p q] b IH]; intros g ops4 r' Gx Hb R'; cbn [app restore] in R'.
    - destruct x as [p q]. cbn [fst] in Gx. unfold exists_path in R'. rewrite Gx in R'. exists EOs. congruence.
    - destruct (exists_path g p); [|exists EOs; congruence]. cbn [fold_left] in R'. destruct (restore _ (b ++ x :: b2)) as [o1 r1] eqn:R1.
      assert (r' = r1) by congruence. subst r1. destruct (Hb _ (or_introl eq_refl)) as [Y1 Y2]. cbn [fst snd] in Y1, Y2.
      eapply IH; [|intros y Hy; apply Hb; right; exact Hy|exact R1]. cbn [apply_op].
      assert (Gd : fget (fdel g p) (fst x) = None) by (rewrite AdminProofs.fget_fdel_other by congruence; exact Gx).
      destruct (fget (fdel g p) q); [|exact Gd]. rewrite AdminProofs.fget_fset_other, AdminProofs.fget_fdel_other by congruence. exact Gd. }
  assert (Hy0 : forall y, In y b1 -> fst y <> fst x /\ snd y <> fst x); [|destruct (G b1 _ _ _ F Hy0 R) as [e He]; rewrite He in Hr; discriminate].
  intros y Hy. destruct (save_all_safe f _ f _ ops1 _ (files_NoDup all new services) (kept_start f) Es) as [_ R1].
  destruct (R1 b1 eq_refl) as (m1 & _ & _ & _ & B1 & _). destruct (B1 y Hy) as (_ & (a & ->) & (c & ->) & _).
  destruct (proj2 (remove_old_in _ _ _ _ Er) x (or_introl eq_refl)) as (n & -> & _). split; apply dirs_differ.
Qed.

(** When the question is answered with yes: the tool dies, having put back the files in the new
    format that were there, but not the old ones; the files that it created stay. *)
Theorem C88_restored_partial i color fuel services f ops0 ops o :
  convert i color fuel services false f = (ops0, ConvertedAnyway) -> convert i color fuel services true f = (ops, o) ->
  o = Died EOs /\
  (forall a n, fget f (POLICYPATH ++ [a]) = Some n -> fget (fold_left apply_op ops f) (POLICYPATH ++ [a]) = Some n) /\
  (forall n, compat_execute (fold_left apply_op ops f) POLICYPATH_OLD n = Ok []).
Proof.
  intros E0 E. apply convert_cases in E0 as [[_ [e H]]|(all & new & ops1 & r1 & initial & Ha & Hn & Hi & Es & H)]; [discriminate|].
  destruct H as [[_ [e H]]|(b1 & names & ops2 & b2 & -> & H)]; [discriminate|]. cbn zeta in H. destruct H as (Hd & Er & H).
  destruct H as [[_ [e H]]|(current & Hc & [(_ & _ & H)|[(_ & Ne & _ & _)|(_ & X & _)]])]; try discriminate.
  pose proof (something_removed _ _ _ _ _ _ _ _ _ _ _ _ _ _ Ha Hn Hi Es Hd Er Hc Ne) as Nb.
  assert (R : exists ops3 r, restore (fold_left apply_op ops2 (fold_left apply_op ops1 f)) (b1 ++ b2) = (ops3, r) /\ ops = ops1 ++ ops2 ++ ops3 /\
    o = match r with Ok _ => Reverted | Err e => Died e end).
  { unfold convert in E. rewrite Hi, Ha, Hn, Es, Hd, Er, Hc, Ne in E. destruct (restore _ (b1 ++ b2)) as [ops3 r]. exists ops3, r.
    split; [reflexivity|]. destruct r; split; congruence. }
  destruct R as (ops3 & r & R & -> & ->). rewrite !fold_left_app.
  set (f1 := fold_left apply_op ops1 f) in *. set (f2 := fold_left apply_op ops2 f1) in *.
  destruct (save_all_safe f _ f _ ops1 _ (files_NoDup all new services) (kept_start f) Es) as [_ R1].
  destruct (R1 b1 eq_refl) as (m1 & _ & D1 & _ & B1 & _).
  destruct (save_all_writes _ _ _ _ Es) as [W1 V]. destruct (V b1 eq_refl) as [D2 Fr].
  destruct (save_all_content _ _ _ _ (files_NoDup all new services) Es) as [Cx Co].
  destruct (remove_old_in _ _ _ _ Er) as [Oi Ob].
  assert (P2 : forall a, fget f2 (POLICYPATH ++ [a]) = fget f1 (POLICYPATH ++ [a])).
  { intros a. eapply ops_in_other; [exact Oi|]. intros c. apply dirs_differ. }
  assert (Nm : forall x, In x b1 -> (exists a, fst x = POLICYPATH ++ [a +++ ".policy"]) /\ exists c, snd x = POLICYPATH ++ [c +++ ".bak"])
    by (intros x Hx; destruct (B1 x Hx) as (_ & A & B & _); auto).
  destruct (restore_content b1 f2 b2 ops3 r D1 D2) as (-> & I2 & I3 & I4); [| | |exact R|].
  - intros x y Hx Hy Z. destruct (Nm x Hx) as [[a Xa] _]. destruct (Nm y Hy) as [_ [c Yc]]. rewrite Xa, Yc in Z.
    apply app_inv_head in Z. injection Z as Z. exact (last_char_bak a c Z).
  - intros x Hx. destruct (Nm x Hx) as [[a Xa] [c Yc]]. rewrite Xa, Yc, !P2. unfold f1. destruct (Cx x Hx) as (_ & C1 & C2). rewrite Xa, Yc in *. split.
    + apply writes_mono; assumption.
    + rewrite C2. exact C1.
  - pose proof (remove_old_first _ _ _ _ Er) as F. destruct b2 as [|x b2]; [congruence|]. split; [exact F|].
    intros Z. apply in_map_iff in Z as (y & Hy & Iy). destruct (Nm y Iy) as [[a Ya] _]. destruct (Ob x (or_introl eq_refl)) as (n & Xn & _).
    rewrite Ya, Xn in Hy. exact (dirs_differ _ _ Hy).
  - assert (F3 : Forall (op_in POLICYPATH) ops3).
    { apply I4. intros x Hx. destruct (Nm x Hx) as [[a Xa] [c Yc]]. eauto. }
    split; [reflexivity|]. split.
    + intros a n Ga. destruct (in_dec (list_eq_dec string_dec) (POLICYPATH ++ [a]) (map fst b1)) as [Z|Z].
      * apply in_map_iff in Z as (x & Hx & Ix). rewrite <- Hx, (I2 x Ix). destruct (Nm x Ix) as [_ [c Yc]]. destruct (Cx x Ix) as (_ & _ & C2).
        rewrite Yc in *. rewrite P2. unfold f1. rewrite C2, Hx. exact Ga.
      * assert (Z2 : ~ In (POLICYPATH ++ [a]) (map snd b1)).
        { intros Y. apply in_map_iff in Y as (x & Hx & Ix). apply Fr in Ix. congruence. }
        rewrite I3 by assumption. rewrite P2. unfold f1. rewrite Co; [exact Ga|congruence|exact Z].
    + apply compat_off_execute. destruct (removed_files _ _ _ _ Hd Er) as [Dd Df]. fold f2 in Dd, Df.
      pose proof (old_dir f2 ops3 F3) as Od. apply compat_off.
      * unfold is_dir in *. specialize (Od []). rewrite app_nil_r in Od. rewrite Od. exact Dd.
      * intros n H. apply Df. unfold is_file in *. rewrite Od in H. exact H.
Qed.
