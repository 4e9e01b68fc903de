(** Reading back the files that the conversion writes. *)
From Coq Require Import String Ascii List Bool Arith Lia.
From Verif Require Import Base SysInfo Token Rule FileSys Loader SpecRule SpecLoader RuleProofs RulePrint TextProofs LoaderProofs LineLoader LoadAll Convert.
Import ListNotations.
Open Scope string_scope.
Open Scope list_scope.

Definition flat (s : string) : bool := sforall (fun c => negb (Ascii.eqb c NL) && negb (Ascii.eqb c CR)) s.
Lemma flat_app a b : flat (a +++ b) = flat a && flat b.
Proof. apply sforall_app. Qed.
Lemma flat_nospace s : nospace s = true -> flat s = true.
Proof.
  unfold nospace, flat. induction s as [|c s IH]; [reflexivity|]. cbn [sforall]. rewrite !andb_true_iff. intros [H K]. split; [|auto].
  revert H. destruct c as [[] [] [] [] [] [] [] []]; vm_compute; try congruence; auto.
Qed.
Lemma flat_opt key o : flat key = true -> (forall s, o = Some s -> nospace s = true) -> flat (opt_part key o) = true.
Proof.
  intros K H. destruct o as [s|]; [|reflexivity]. unfold opt_part. destruct (String.eqb s ""); [reflexivity|].
  rewrite !flat_app, K, (flat_nospace s (H s eq_refl)). reflexivity.
Qed.
Lemma printed_flat line f r : from_line line f = Ok r -> flat (rule_str r) = true.
Proof.
  intros H. apply from_line_spec in H as (fs & Hf & Hr).
  apply fields_words in Hf. inversion Hr as [sv ar src tgt act ps osv oar ts tt a Hsv Har Hts Htt Hac Hdf]; subst.
  repeat (apply Forall_cons_iff in Hf as [? Hf]).
  assert (Hps : forall p, In p ps -> nospace p = true) by (intros p Hp; rewrite Forall_forall in Hf; apply (Hf p Hp)).
  unfold rule_str. cbn [r_service r_arg r_source r_target r_action]. rewrite !flat_app.
  destruct Hts as (_ & -> & _). destruct Htt as (_ & -> & _).
  rewrite !(flat_nospace src), !(flat_nospace tgt) by tauto.
  assert (F1 : flat (match osv with Some s => s | None => "None" end) = true) by (inversion Hsv; subst; [reflexivity|apply flat_nospace; tauto]).
  assert (F2 : flat (match oar with Some s => if String.eqb s "" then "*" else s | None => "*" end) = true)
    by (inversion Har; subst; [reflexivity|]; destruct (String.eqb _ ""); [reflexivity|apply flat_nospace; tauto]).
  rewrite F1, F2. cbn [andb]. change (flat tab) with true. cbn [andb].
  assert (R : forall k t, redirect_param ps k t -> forall s, option_map tok_str t = Some s -> nospace s = true)
    by (intros k t Hk s Hs; destruct (redirect_text ps k t Hps Hk s Hs); assumption).
  assert (U : forall u, opt_param ps "user" u -> forall s, u = Some s -> nospace s = true)
    by (intros u Hu s ->; inversion Hu; subst; eapply nospace_param; apply Hps; eauto).
  inversion Hac; subst; cbn [action_str]; rewrite ?flat_app; rewrite ?flat_opt; eauto.
Qed.
Lemma flat_chars s : flat s = true -> has_char NL s = false /\ has_char CR s = false.
Proof.
  induction s as [|c s IH]; [split; reflexivity|]. unfold flat. cbn [sforall has_char]. rewrite !andb_true_iff, !negb_true_iff.
  intros [[H1 H2] H]. destruct (IH H) as [I1 I2]. rewrite (Ascii.eqb_sym NL), (Ascii.eqb_sym CR), H1, H2. auto.
Qed.
Lemma lines_join l : l <> [] -> Forall (fun s => flat s = true) l -> lines_univ (join nl l +++ nl) = l.
Proof.
  intros N F. induction F as [|x l Hx F IH]; [congruence|]. apply flat_chars in Hx as [H1 H2]. destruct l as [|y l].
  - cbn [join]. apply lines_univ_one; assumption.
  - change (join nl (x :: y :: l)) with (x +++ nl +++ join nl (y :: l)). rewrite !app_assoc_s.
    rewrite lines_univ_app, lines_univ_one by assumption. now rewrite IH.
Qed.

(** a rule that has moved to another file *)
Definition moved (file : string) (r : rule) : rule := mkRule (r_service r) (r_arg r) (r_source r) (r_target r) (r_action r) file.
(** a rule that survives being printed *)
Definition writable (r : rule) : Prop := printable r /\ r_service r <> Some "" /\ exists line, from_line line (r_file r) = Ok r.

Lemma printed_line r L rec fuel file : writable r -> file_line L rec fuel file (rule_str r) = Ok [moved file r].
Proof.
  intros (P & Ns & line & E). pose proof (printed_rule_reads_back _ _ _ E P) as B. apply (with_file _ _ file) in B as [_ B].
  unfold file_line.
  assert (Bg : exists c s, rule_str r = String c s /\ is_space c = false /\ Ascii.eqb "#" c = false /\ Ascii.eqb "!" c = false).
  { clear B. remember (r_file r) as f0 eqn:Hf0. clear Hf0. apply from_line_spec in E as (fs & Hf & Hr). inversion Hr as [sv ar src tgt act ps osv oar ts tt a Hsv Har Hts Htt Hac Hdf Ef Er]. clear Hr. subst r.
    cbn [r_service] in Ns. destruct P as [P _]. cbn [r_service] in P.
    inversion Hsv as [E1|s0 N1 N2 N3 E1 E2]; [congruence|]. subst osv. apply valid_chars_spec in N2.
    unfold rule_str. cbn [r_service]. destruct sv as [|c sv]; [congruence|]. cbn [String.append].
    exists c. eexists. split; [reflexivity|]. unfold valid_chars in N2. cbn [sforall] in N2. apply andb_true_iff in N2 as [N2 _].
    revert N2. destruct c as [[] [] [] [] [] [] [] []]; vm_compute; try congruence; auto. }
  destruct Bg as (c & s & Es & B1 & B2 & B3). rewrite from_line_strip.
  assert (St : exists s', strip (rule_str r) = String c s').
  { rewrite Es. unfold strip. cbn [lstrip]. rewrite B1. cbn [rstrip]. rewrite B1. destruct (rstrip s); eexists; reflexivity. }
  destruct St as [s' St]. rewrite St. unfold skip_line. cbn [String.eqb starts]. rewrite B2, B3. cbn [orb andb]. rewrite B. reflexivity.
Qed.

Lemma load_file_app fuel L file a b : load_file (S fuel) L file (a ++ b) =
  do x <- load_file (S fuel) L file a; do y <- load_file (S fuel) L file b; Ok (x ++ y).
Proof. cbn [load_file]. apply concatM_app. Qed.
Lemma load_skipped fuel L file ls : forallb (fun l => skip_line (strip l)) ls = true -> load_file (S fuel) L file ls = Ok [].
Proof.
  cbn [load_file]. induction ls as [|l ls IH]; [reflexivity|]. cbn [forallb concatM]. intros H. apply andb_true_iff in H as [H K].
  unfold file_line at 1. rewrite H. cbn [bind]. rewrite (IH K). reflexivity.
Qed.
Lemma load_printed fuel L file rs : Forall writable rs -> load_file (S fuel) L file (map rule_str rs) = Ok (map (moved file) rs).
Proof.
  cbn [load_file]. intros F. induction F as [|r rs W F IH]; [reflexivity|]. cbn [map concatM].
  rewrite printed_line by exact W. cbn [bind]. rewrite IH. reflexivity.
Qed.
Lemma disclaimer_lines fn X : exists ds, forallb (fun l => skip_line (strip l)) ds = true /\
  lines_univ ((if String.eqb fn CONFIG_FILE then DISCLAIMER else TOOL_DISCLAIMER) +++ X) = ds ++ lines_univ X.
Proof.
  assert (G : forall d d', d = d' +++ nl -> forallb (fun l => skip_line (strip l)) (lines_univ d) = true ->
    exists ds, forallb (fun l => skip_line (strip l)) ds = true /\ lines_univ (d +++ X) = ds ++ lines_univ X).
  { intros d d' -> F. exists (lines_univ (d' +++ nl)). split; [exact F|]. rewrite app_assoc_s. apply lines_univ_app. }
  destruct (String.eqb fn CONFIG_FILE).
  - refine (G DISCLAIMER (stake (String.length DISCLAIMER - 1) DISCLAIMER) _ _); vm_compute; reflexivity.
  - refine (G TOOL_DISCLAIMER (stake (String.length TOOL_DISCLAIMER - 1) TOOL_DISCLAIMER) _ _); vm_compute; reflexivity.
Qed.
Lemma writable_flat rs : Forall writable (map fst rs) -> Forall (fun s => flat s = true) (map nrule_str rs).
Proof.
  rewrite !Forall_map. apply Forall_impl. intros r (_ & _ & line & E). eapply printed_flat. exact E.
Qed.
Theorem new_text_reads_back fuel L file fn rs : rs <> [] -> Forall writable (map fst rs) ->
  load_file (S fuel) L file (lines_univ (new_text fn rs)) = Ok (map (fun r => moved file (fst r)) rs).
Proof.
  intros N W. unfold new_text. destruct (disclaimer_lines fn (join nl (map nrule_str rs) +++ nl)) as (ds & Hd & ->).
  rewrite load_file_app, load_skipped by exact Hd. cbn [bind].
  rewrite lines_join; [|destruct rs; [congruence|discriminate]|apply writable_flat; exact W].
  replace (map nrule_str rs) with (map rule_str (map fst rs)) by (rewrite map_map; reflexivity).
  rewrite load_printed by exact W. cbn [bind app]. now rewrite map_map.
Qed.

Lemma rstrip_char_end b : b <> "" -> has_char NL b = false -> rstrip_char NL (b +++ nl) = b.
Proof.
  intros N H. induction b as [|c b IH]; [congruence|]. cbn [has_char] in H. apply orb_false_iff in H as [H1 H2].
  cbn [String.append rstrip_char]. destruct b as [|d b].
  - change (rstrip_char NL ("" +++ nl)) with "". cbn iota. rewrite Ascii.eqb_sym, H1. reflexivity.
  - rewrite IH by (try discriminate; exact H2). reflexivity.
Qed.
Lemma rstrip_char_app a b : rstrip_char NL b <> "" -> rstrip_char NL (a +++ b) = a +++ rstrip_char NL b.
Proof.
  intros N. induction a as [|c a IH]; [reflexivity|]. cbn [String.append rstrip_char]. rewrite IH.
  destruct (a +++ rstrip_char NL b) eqn:E; [|reflexivity]. destruct a; [destruct (N E)|discriminate].
Qed.
Lemma no_cr s : has_char CR (univ_nl s) = false.
Proof.
  induction s as [|c s IH]; [reflexivity|]. cbn [univ_nl]. destruct (Ascii.eqb c CR) eqn:E.
  - destruct s as [|d s]; [reflexivity|]. destruct (Ascii.eqb d NL); [exact IH|]. cbn [has_char]. rewrite IH. reflexivity.
  - cbn [has_char]. rewrite IH, Ascii.eqb_sym, E. reflexivity.
Qed.
Lemma cr_sdrop n : forall s, has_char CR s = false -> has_char CR (sdrop n s) = false.
Proof. induction n as [|n IH]; intros s H; [exact H|]. destruct s as [|c s]; [reflexivity|]. apply IH. cbn [has_char] in H. apply orb_false_iff in H. tauto. Qed.
Lemma skip_nls fuel L file : forall c, has_char CR c = false ->
  load_file (S fuel) L file (lines_lf (lstrip_nl c)) = load_file (S fuel) L file (lines_lf c) /\ has_char CR (lstrip_nl c) = false.
Proof.
  induction c as [|x c IH]; intros H; [split; reflexivity|]. cbn [has_char] in H. apply orb_false_iff in H as [H1 H2].
  unfold lstrip_nl. destruct (Ascii.eqb x NL) eqn:E; [|cbn [has_char]; rewrite H1, H2; split; reflexivity].
  apply Ascii.eqb_eq in E as ->. fold (lstrip_nl c). destruct (IH H2) as [I1 I2]. split; [|exact I2]. rewrite I1.
  unfold lines_lf at 2. cbn [lines_lf_aux]. change (Ascii.eqb NL NL) with true. cbn iota. change (lines_lf_aux c "") with (lines_lf c).
  change ("" :: lines_lf c) with ([""] ++ lines_lf c). rewrite load_file_app.
  rewrite (load_skipped fuel L file [""]) by reflexivity. cbn [bind app]. destruct (load_file (S fuel) L file (lines_lf c)); reflexivity.
Qed.
Lemma tool_skip : forallb (fun l => skip_line (strip l)) (lines_lf TOOL_DISCLAIMER) = true.
Proof. vm_compute. reflexivity. Qed.
Lemma tool_lines c : lines_lf (TOOL_DISCLAIMER +++ c) = lines_lf TOOL_DISCLAIMER ++ lines_lf c.
Proof.
  assert (G : forall d d', d = d' +++ nl -> lines_lf (d +++ c) = lines_lf d ++ lines_lf c)
    by (intros d d' ->; rewrite app_assoc_s; apply lines_lf_app').
  refine (G TOOL_DISCLAIMER (stake (String.length TOOL_DISCLAIMER - 1) TOOL_DISCLAIMER) _). vm_compute. reflexivity.
Qed.
Theorem merged_reads_back fuel L file fn rs current : rs <> [] -> Forall writable (map fst rs) ->
  load_file (S fuel) L file (lines_univ (merged (new_text fn rs) (univ_nl current))) =
    do rest <- load_file (S fuel) L file (lines_univ current); Ok (map (fun r => moved file (fst r)) rs ++ rest).
Proof.
  intros N W. pose proof (new_text_reads_back fuel L file fn rs N W) as T. unfold merged.
  assert (St : rstrip_char NL (new_text fn rs) +++ nl = new_text fn rs).
  { assert (G : exists a b, new_text fn rs = a +++ b +++ nl /\ b <> "" /\ has_char NL b = false).
    { destruct (exists_last N) as (rs0 & r & Er). exists (match rs0 with [] => (if String.eqb fn CONFIG_FILE then DISCLAIMER else TOOL_DISCLAIMER)
        | _ => (if String.eqb fn CONFIG_FILE then DISCLAIMER else TOOL_DISCLAIMER) +++ join nl (map nrule_str rs0) +++ nl end), (nrule_str r).
      assert (F : Forall (fun s => flat s = true) (map nrule_str rs)) by (apply writable_flat; exact W).
      rewrite Er, map_app in F. apply Forall_app in F as [_ F]. apply Forall_cons_iff in F as [F _]. apply flat_chars in F as [F _].
      split; [|split; [|exact F]].
      - unfold new_text. rewrite Er, map_app. cbn [map].
        assert (J : forall l x, l <> [] -> join nl (l ++ [x]) = join nl l +++ nl +++ x).
        { intros l x Hl. induction l as [|y l IH]; [congruence|]. destruct l as [|z l]; [reflexivity|].
          change ((y :: z :: l) ++ [x]) with (y :: ((z :: l) ++ [x])). change (join nl (y :: z :: l)) with (y +++ nl +++ join nl (z :: l)).
          rewrite !app_assoc_s, <- IH by discriminate. reflexivity. }
        destruct rs0 as [|y l]; [reflexivity|]. rewrite J by discriminate. now rewrite !app_assoc_s.
      - rewrite Er, map_app in W. apply Forall_app in W as [_ W]. apply Forall_cons_iff in W as [(_ & Ns & line & E) _].
        intros K. unfold nrule_str, rule_str in K. destruct (r_service (fst r)) as [[|? ?]|]; discriminate. }
    destruct G as (a & b & -> & Nb & Hb). pose proof (rstrip_char_end b Nb Hb) as E.
    rewrite rstrip_char_app by congruence. rewrite E. now rewrite app_assoc_s. }
  set (c' := if starts TOOL_DISCLAIMER (univ_nl current) then sdrop (String.length TOOL_DISCLAIMER) (univ_nl current) else univ_nl current).
  assert (Tn : exists t, new_text fn rs = t +++ nl) by (eexists; symmetry; exact St). destruct Tn as [t Ht].
  rewrite <- app_assoc_s, St, Ht, app_assoc_s, lines_univ_app, <- Ht, load_file_app, T. cbn [bind].
  assert (Cr : has_char CR c' = false) by (unfold c'; destruct (starts _ _); [apply cr_sdrop|]; apply no_cr).
  destruct (skip_nls fuel L file c' Cr) as [S1 S2]. rewrite lines_univ_lf by exact S2. rewrite S1.
  enough (X : load_file (S fuel) L file (lines_lf c') = load_file (S fuel) L file (lines_univ current)) by (rewrite X; reflexivity).
  unfold c', lines_univ. destruct (starts TOOL_DISCLAIMER (univ_nl current)) eqn:E; [|reflexivity].
  apply starts_spec in E as [c2 E]. rewrite E. rewrite sdrop_app.
  rewrite tool_lines, load_file_app, (load_skipped fuel L file (lines_lf TOOL_DISCLAIMER)) by exact tool_skip. cbn [bind app].
  destruct (load_file (S fuel) L file (lines_lf c2)); reflexivity.
Qed.
