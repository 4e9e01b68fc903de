(** One file of the policy grows by one line. *)
From Coq Require Import String Ascii List Bool Arith Lia Permutation Sorting.
From Verif Require Import Base SysInfo Token Rule Policy FileSys Loader
  SpecPolicy SpecRule SpecLoader SpecRegister
  TokenProofs RuleProofs TextProofs LoaderProofs SelectProofs LoaderExt AdminProofs AdminLoad AdminAccept Props_Loader.
Import ListNotations.
Open Scope string_scope.
Open Scope list_scope.

(** ** Texts keep their rules when the loader finds the same objects *)
Lemma text_rules_same (opens opens' : string -> string -> list string -> Prop)
  (lists lists' : string -> list (string * list string) -> Prop) (legacy legacy' : list rule -> Prop) (P : string -> Prop) :
  (forall l q f ls, fields l ["!include"; q] -> P l -> opens q f ls -> opens' q f ls) ->
  (forall l q files, fields l ["!include-dir"; q] -> P l -> lists q files -> lists' q files) ->
  (forall l s a q f ls sv ar rs, fields l ["!include-service"; s; a; q] -> P l -> opens q f ls ->
     service_rules opens sv ar f ls rs -> opens' q f ls /\ service_rules opens' sv ar f ls rs) ->
  (forall rs, legacy rs -> legacy' rs) ->
  (forall file ls rs, text_rules opens lists legacy file ls rs -> (forall x, reached opens lists ls x -> P x) ->
     text_rules opens' lists' legacy' file ls rs) /\
  (forall files rs, files_rules opens lists legacy files rs ->
     (forall file ls x, In (file, ls) files -> reached opens lists ls x -> P x) ->
     files_rules opens' lists' legacy' files rs).
Proof.
  intros Ho Hl Hs Hc.
  assert (R : forall l ls x, reached opens lists ls x -> reached opens lists (l :: ls) x).
  { intros l ls x Hx. inv Hx; [apply re_line; right; auto|eapply re_include; eauto; right; auto|
      eapply re_include_dir; eauto; right; auto]. }
  apply (text_files_ind opens lists legacy
    (fun file ls rs => (forall x, reached opens lists ls x -> P x) -> text_rules opens' lists' legacy' file ls rs)
    (fun files rs => (forall file ls x, In (file, ls) files -> reached opens lists ls x -> P x) ->
       files_rules opens' lists' legacy' files rs)).
  - intros. apply tr_end.
  - intros file l ls rs Hi _ IH HP. apply tr_inert; auto.
  - intros file l ls ws r rs Hi Hd Hf Hr _ IH HP. eapply tr_rule; eauto.
  - intros file l ls p file' ls' rs1 rs2 Hf Hop _ IH1 _ IH2 HP.
    eapply tr_include; eauto.
    + eapply Ho; eauto. apply HP, re_line. left; auto.
    + apply IH1. intros x Hx. apply HP. eapply re_include; eauto. left; auto.
  - intros file l ls p files rs1 rs2 Hf Hli _ IH1 _ IH2 HP.
    eapply tr_include_dir; eauto.
    + eapply Hl; eauto. apply HP, re_line. left; auto.
    + apply IH1. intros fl lsx x Hi Hx. apply HP. eapply re_include_dir; eauto. left; auto.
  - intros file l ls s a p sv ar file' ls' rs1 rs2 Hf Hsa Hop Hsr _ IH2 HP.
    destruct (Hs l s a p file' ls' sv ar rs1) as [H1 H2]; auto. { apply HP, re_line. left; auto. }
    eapply tr_include_service; eauto.
  - intros file l ls rs1 rs2 Hf Hle _ IH2 HP. eapply tr_compat; eauto.
  - intros _. constructor.
  - intros file ls files rs1 rs2 _ IH1 _ IH2 HP. constructor.
    + apply IH1. intros x Hx. eapply HP; [left; reflexivity|exact Hx].
    + apply IH2. intros fl lsx x Hi. eapply HP. right; eauto.
Qed.

Lemma file_rules_elsewhere f f' p lg base file ls rs : (forall q, q <> p -> fget f' q = fget f q) ->
  fget f p <> Some NDir ->
  ~ reads f base ls p -> legacy_apart f lg p ->
  file_rules f lg base file ls rs -> file_rules f' lg base file ls rs.
Proof.
  intros C Nd Nr La T.
  assert (Lines : forall q l, q <> p -> file_lines f q l -> file_lines f' q l).
  { intros q l Nq (c & Hc & K). exists c. rewrite C by auto. auto. }
  set (P := fun x =>
     (forall q, fields x ["!include"; q] -> resolve base q <> p) /\
     (forall q n, fields x ["!include-dir"; q] -> resolve base q ++ [n] <> p) /\
     (forall s a q, fields x ["!include-service"; s; a; q] -> resolve base q <> p /\
        forall ls' y q', file_lines f (resolve base q) ls' -> service_reached (opens_at f base) ls' y ->
          includes y q' -> resolve base q' <> p)).
  destruct (text_rules_same (opens_at f base) (opens_at f' base) (lists_at f base) (lists_at f' base)
    (legacy_policy f lg) (legacy_policy f' lg) P) as [M _].
  - intros l q fl lsx Hf HP [-> Hl]. split; auto. apply Lines; auto. apply (proj1 HP). exact Hf.
  - intros l q files Hf HP (names & (D & S & Hin & Pl) & F).
    destruct HP as (_ & HP' & _). specialize (HP' q).
    exists names. split.
    + assert (PF : forall n, policy_file f' (resolve base q) n <-> policy_file f (resolve base q) n).
      { intros n. unfold policy_file, regular. rewrite !entry_spec, C; auto. reflexivity. }
      split; [|split; [auto|split; auto]].
      * rewrite C; auto. intros E. rewrite E in D. contradiction.
      * intros n. rewrite PF. apply Hin.
    + clear - F HP' Lines Hf. induction F as [|n fl names files [E1 E2] F IH]; constructor; auto.
  - intros l s a q fl lsx sv ar rs1 Hf HP [-> Hl] Hsr.
    destruct HP as (_ & _ & HP'). destruct (HP' s a q Hf) as [N1 N2].
    split; [split; auto|]. eapply service_elsewhere; eauto.
  - intros r Hl. eapply legacy_elsewhere; eauto.
  - apply M; [exact T|].
    intros x Hx. split; [|split].
    + intros q Hf E. apply Nr. exists x. split; auto. left. eauto.
    + intros q n Hf E. apply Nr. exists x. split; auto. right. left. eauto.
    + intros s a q Hf. split.
      * intros E. apply Nr. exists x. split; auto. right. right. exists s, a, q. auto.
      * intros ls' z q' H1 H2 H3 E. apply Nr. exists x. split; auto. right. right. exists s, a, q. split; auto. right. eauto 8.
Qed.

(** ** The files that make up the policy *)
Lemma chosen_fun f dirs a b : wf_fs f -> chosen f dirs a -> chosen f dirs b -> a = b.
Proof.
  intros W A B. apply select_chosen in A as (l & E & ->); auto. apply select_chosen in B as (l' & E' & ->); auto.
  rewrite E in E'. injection E' as <-. reflexivity.
Qed.

Definition pdirs : list path := [run_dir; etc_dir].
Lemma reg_policy_name : policy_name reg_name.
Proof. exists "60-registered-arguments". repeat split; auto; discriminate. Qed.
Lemma reg_plain : plain_filename reg_name.
Proof. apply filename_spec. reflexivity. Qed.

Lemma first_two f d n : first_in f pdirs d n <->
  policy_file f d n /\ ((d = run_dir) \/ (d = etc_dir /\ ~ policy_file f run_dir n)).
Proof.
  unfold first_in, pdirs. split.
  - intros (before & after & E & H & N). split; auto. destruct before as [|b before]; cbn in E.
    + injection E as <- _. auto.
    + injection E as <- E. destruct before as [|b before]; cbn in E.
      * injection E as <- _. right. split; auto. apply N. left; auto.
      * injection E as _ E. destruct before; discriminate.
  - intros [H [-> |[-> N]]].
    + exists [], [etc_dir]. split; [reflexivity|]. split; [exact H|]. intros d' [].
    + exists [run_dir], []. split; [reflexivity|]. split; [exact H|]. intros d' [<-|[]]. exact N.
Qed.

Lemma chosen_grown f f' c' sel : wf_fs f -> wf_fs f' -> (forall q, q <> reg_file -> fget f' q = fget f q) ->
  fget f' reg_file = Some (NFile c') -> (fget f reg_file = None \/ regular f reg_file) ->
  ~ policy_file f run_dir reg_name -> chosen f pdirs sel ->
  exists a b, chosen f' pdirs (a ++ (etc_dir, reg_name) :: b) /\
    (regular f reg_file -> sel = a ++ (etc_dir, reg_name) :: b) /\ (fget f reg_file = None -> sel = a ++ b).
Proof.
  intros W W' C At Was Nr Ch.
  assert (PF : forall d n, d ++ [n] <> reg_file -> (policy_file f' d n <-> policy_file f d n)).
  { intros d n N. unfold policy_file, regular. rewrite !entry_spec, C by auto. reflexivity. }
  assert (PF' : policy_file f' etc_dir reg_name).
  { split; [|split]; [|apply reg_policy_name|].
    - apply entry_spec. change (etc_dir ++ [reg_name]) with reg_file. rewrite At. discriminate.
    - exists c'. exact At. }
  assert (Neq : forall d n, (d, n) <> (etc_dir, reg_name) -> d ++ [n] <> reg_file).
  { intros d n N E. apply app_inj_tail in E as [-> ->]. congruence. }
  pose proof Ch as (Dirs & Plain & Sorted & Sel).
  assert (Dirs' : forall d, In d pdirs -> fget f' d = Some NDir).
  { intros d Hd. rewrite C; auto. intros ->. destruct Hd as [E|[E|[]]]; discriminate. }
  assert (Plain' : forall d n, In d pdirs -> policy_file f' d n -> plain_filename n).
  { intros d n Hd H. destruct (path_eqb_spec (d ++ [n]) reg_file) as [E|N].
    - apply app_inj_tail in E as [-> ->]. apply reg_plain.
    - eapply Plain; eauto. apply PF; auto. }
  destruct (select_total f' W' pdirs [] Dirs' Plain') as [l Hl].
  assert (Ch' : chosen f' pdirs (sort_by name_leb l)) by (apply select_chosen; eauto).
  pose proof Ch' as (_ & _ & Sorted' & Sel').
  assert (In0 : In (etc_dir, reg_name) (sort_by name_leb l)).
  { apply Sel'. apply first_two. split; auto. right. split; auto. intros H. apply Nr. apply PF; auto. discriminate. }
  apply in_split in In0 as (a & b & E). exists a, b. rewrite E in *. split; auto. split.
  - intros Rg. apply (chosen_fun f pdirs); auto.
    assert (PFi : forall d n, policy_file f' d n <-> policy_file f d n).
    { intros d n. destruct (path_eqb_spec (d ++ [n]) reg_file) as [Ed|N]; [|apply PF; auto].
      apply app_inj_tail in Ed as [-> ->]. split; auto. intros _. destruct Rg as [c Rg].
      split; [|split]; [|apply reg_policy_name|].
      - apply entry_spec. change (etc_dir ++ [reg_name]) with reg_file. rewrite Rg. discriminate.
      - exists c. exact Rg. }
    apply (C21_ignored f f'); [intros d Hd; rewrite Dirs, Dirs' by auto; reflexivity|intros d n _; symmetry; apply PFi|exact Ch'].
  - intros Ab. apply (chosen_fun f pdirs); auto.
    assert (Irr : ~ In (etc_dir, reg_name) (a ++ b)).
    { clear - Sorted'. intros Hi. induction a as [|x a IH]; cbn in *.
      - inv Sorted'. rewrite Forall_forall in H2. apply H2 in Hi. cbn in Hi. exact (lt_irrefl _ Hi).
      - inv Sorted'. destruct Hi as [-> |Hi]; [|auto]. rewrite Forall_forall in H2.
        specialize (H2 (etc_dir, reg_name) ltac:(apply in_or_app; right; left; auto)). cbn in H2. exact (lt_irrefl _ H2). }
    split; [auto|split; [auto|split]].
    + clear - Sorted'. induction a as [|x a IH]; cbn in *; inv Sorted'; auto. constructor; auto.
      rewrite Forall_forall in *. intros y Hy. apply H2. apply in_app_or in Hy as [Hy|Hy]; apply in_or_app; cbn; auto.
    + intros d n. assert (X : In (d, n) (a ++ b) <-> In (d, n) (a ++ (etc_dir, reg_name) :: b) /\ (d, n) <> (etc_dir, reg_name)).
      { rewrite !in_app_iff. cbn. split.
        - intros H. split; [tauto|]. intros K. rewrite K in H. apply Irr, in_or_app. exact H.
        - intros [[H|[H|H]] N]; auto. congruence. }
      rewrite X, Sel'. change (first_in f' pdirs d n /\ (d, n) <> (etc_dir, reg_name) <-> first_in f pdirs d n).
      rewrite !first_two. rewrite (PF run_dir n) by (intros K; apply app_inj_tail in K as [K _]; discriminate).
      split.
      * intros [[H1 H2] N]. split; auto. apply PF; auto.
      * intros [H1 H2]. assert (N : (d, n) <> (etc_dir, reg_name)).
        { intros K. injection K as -> ->. destruct H1 as [H1 _]. apply entry_spec in H1. apply H1. exact Ab. }
        split; auto. split; auto. apply PF; auto.
Qed.

(** ** The appended line *)
Lemma utf8_app_aux c t : utf8_valid_aux 0 128 191 t = true -> forall need lo hi,
  utf8_valid_aux need lo hi c = true -> utf8_valid_aux need lo hi (c +++ t) = true.
Proof.
  intros T. induction c as [|x c IH]; intros need lo hi H; cbn [utf8_valid_aux] in H.
  - destruct need; [|discriminate]. cbn [append]. destruct t; [reflexivity|]. exact T.
  - change (String x c +++ t) with (String x (c +++ t)). cbn [utf8_valid_aux]. destruct need.
    + repeat match goal with |- context [if ?b then _ else _] => destruct b; auto end.
    + apply andb_true_iff in H as [H1 H2]. rewrite H1. cbn [andb]. auto.
Qed.
Lemma utf8_app c t : utf8_valid c = true -> utf8_valid t = true -> utf8_valid (c +++ t) = true.
Proof. intros H T. apply utf8_app_aux; auto. Qed.
Lemma utf8_ascii s : (forall c, has_char c s = true -> nat_of_ascii c <= 127) -> utf8_valid s = true.
Proof.
  unfold utf8_valid. induction s as [|c s IH]; intros H; [reflexivity|]. cbn [utf8_valid_aux].
  assert (Hc : nat_of_ascii c <= 127). { apply H. cbn [has_char]. rewrite Ascii.eqb_refl. reflexivity. }
  apply Nat.leb_le in Hc. rewrite Hc. apply IH. intros d Hd. apply H. cbn [has_char]. rewrite Hd. apply orb_true_r.
Qed.
Lemma service_ascii c : service_char c -> nat_of_ascii c <= 127 /\ is_space c = false /\ c <> NL /\ c <> CR.
Proof.
  intros [H|H].
  - repeat split; try lia.
    + destruct (is_space c) eqn:E; auto. exfalso. destruct c as [[] [] [] [] [] [] [] []]; cbn in H; try discriminate E; lia.
    + intros ->. cbn in H. lia.
    + intros ->. cbn in H. lia.
  - cbn in H. decompose [or] H; subst; try contradiction; repeat split; try discriminate; cbn; lia.
Qed.
Lemma word_nospace w : service_chars w -> nospace w = true.
Proof. intros H. apply sforall_has. intros c Hc. apply H, service_ascii in Hc as (_ & -> & _). reflexivity. Qed.

Lemma field_word w s ws : w <> "" -> nospace w = true -> fields s ws -> fields (w +++ String " " s) (w :: ws).
Proof.
  intros Nw Sw H. apply (fl_cons "" w (String " " s) ws); auto.
  - right. exists " "%char, s. auto.
  - inv H.
    + apply (fl_nil (String " " s)). cbn. assumption.
    + match goal with |- fields (String ?x (?b +++ ?w0 +++ ?s0)) _ =>
        change (fields (String x b +++ w0 +++ s0) (w0 :: ws0)) end.
      apply fl_cons; auto.
Qed.
Lemma field_last w : w <> "" -> nospace w = true -> fields w [w].
Proof.
  intros Nw Sw. rewrite <- (app_nil_s w) at 1. apply (fl_cons "" w "" []); auto. apply (fl_nil ""). reflexivity.
Qed.

(** the line without its end *)
Definition reg_line (service argument frontend backend : string) : string :=
  service +++ " +" +++ argument +++ " " +++ frontend +++ " " +++ backend +++ " allow".
Lemma reg_line_fields s a fr ba : plain_word s -> plain_word fr -> plain_word ba -> service_chars a ->
  fields (reg_line s a fr ba) [s; "+" +++ a; fr; ba; "allow"].
Proof.
  intros [Ns Cs] [Nf Cf] [Nb Cb] Ca. unfold reg_line.
  change (" +" +++ a +++ " " +++ fr +++ " " +++ ba +++ " allow") with
    (String " " (("+" +++ a) +++ String " " (fr +++ String " " (ba +++ String " " "allow")))).
  repeat apply field_word; auto using word_nospace; try discriminate.
  - cbn [nospace sforall]. apply (word_nospace a). exact Ca.
  - apply field_last; [discriminate|reflexivity].
Qed.
Lemma reg_line_chars s a fr ba c : plain_word s -> plain_word fr -> plain_word ba -> service_chars a ->
  has_char c (reg_line s a fr ba) = true -> nat_of_ascii c <= 127 /\ c <> NL /\ c <> CR.
Proof.
  intros [Ns Cs] [Nf Cf] [Nb Cb] Ca H. unfold reg_line in H. rewrite !has_char_app, !orb_true_iff in H.
  assert (L : forall t, (forall x, has_char x t = true -> nat_of_ascii x <= 127 /\ x <> NL /\ x <> CR) ->
    has_char c t = true -> nat_of_ascii c <= 127 /\ c <> NL /\ c <> CR) by auto.
  assert (W : forall t, service_chars t -> has_char c t = true -> nat_of_ascii c <= 127 /\ c <> NL /\ c <> CR).
  { intros t Ht K. apply Ht, service_ascii in K. tauto. }
  assert (F : forall t, sforall (fun x => Nat.leb (nat_of_ascii x) 127 && negb (Ascii.eqb x NL) && negb (Ascii.eqb x CR)) t = true ->
     has_char c t = true -> nat_of_ascii c <= 127 /\ c <> NL /\ c <> CR).
  { intros t Ht K. eapply sforall_has in Ht; eauto. cbn in Ht. rewrite !andb_true_iff, !negb_true_iff in Ht.
    destruct Ht as [[H1 H2] H3]. apply Nat.leb_le in H1. apply Ascii.eqb_neq in H2, H3. auto. }
  decompose [or] H; eauto; eapply F; try eassumption; reflexivity.
Qed.
Lemma reg_rule_fields file s a fr ba : plain_word s -> has_char "+" s = false -> plain_word fr -> plain_word ba -> service_chars a ->
  rule_fields file [s; "+" +++ a; fr; ba; "allow"]
    (mkRule (Some s) (Some ("+" +++ a)) (TName fr) (TName ba) (Allow None None false true) file).
Proof.
  assert (T : forall c w, plain_word w -> token_field c w (TName w)).
  { intros c w [Nw Cw].
    assert (N1 : starts "@" w = false).
    { destruct w as [|x w]; [congruence|]. cbn [starts]. destruct (Ascii.eqb_spec "@" x) as [<-|]; auto. exfalso.
      specialize (Cw "@"%char ltac:(cbn; reflexivity)). destruct Cw as [K|K]; cbn in K; [lia|decompose [or] K; discriminate || contradiction]. }
    assert (N2 : w <> "*").
    { intros ->. specialize (Cw "*"%char eq_refl). destruct Cw as [K|K]; cbn in K; [lia|decompose [or] K; discriminate || contradiction]. }
    split; [apply at_plain; auto|]. split; [reflexivity|]. split; auto. split; [intros n E; injection E as <-; auto|intros v E; discriminate]. }
  intros Ps Np Pf Pb Ca. constructor; auto.
  - constructor; try apply Ps; auto. intros ->. destruct Ps as [_ Cs]. specialize (Cs "*"%char eq_refl).
    destruct Cs as [K|K]; cbn in K; [lia|decompose [or] K; discriminate || contradiction].
  - constructor. intros c Hc. change ("+" +++ a) with (String "+" a) in Hc. cbn [has_char] in Hc.
    apply orb_true_iff in Hc as [Hc|Hc]; [|auto]. apply Ascii.eqb_eq in Hc. subst. right. left. reflexivity.
  - assert (Np0 : forall k v, ~ param [] k v) by (intros k v []).
    constructor; try (constructor; auto; fail). constructor.
    + intros p [].
    + intros l1 l2 l3 k v v' _ E. destruct l1; discriminate.
  - intros E. exfalso. subst. destruct Pb as [_ Cb]. specialize (Cb "@"%char eq_refl).
    destruct Cb as [K|K]; cbn in K; [lia|decompose [or] K; discriminate || contradiction].
Qed.
Lemma reg_line_rules opens lists legacy file s a fr ba : plain_word s -> has_char "+" s = false ->
  plain_word fr -> plain_word ba -> service_chars a ->
  text_rules opens lists legacy file [reg_line s a fr ba]
    [mkRule (Some s) (Some ("+" +++ a)) (TName fr) (TName ba) (Allow None None false true) file].
Proof.
  intros Ps Np Pf Pb Ca. pose proof (reg_line_fields s a fr ba Ps Pf Pb Ca) as Fl.
  assert (H0 : forall x, starts (str1 x) s = true -> service_char x).
  { intros x Hx. apply starts1_head in Hx as (r & ->). apply (proj2 Ps). cbn [has_char]. rewrite Ascii.eqb_refl. reflexivity. }
  eapply tr_rule; [| |exact Fl|apply reg_rule_fields; auto|apply tr_end].
  - apply (fields_not_inert _ _ _ Fl). destruct (starts "#" s) eqn:E; auto. exfalso.
    specialize (H0 "#"%char E). destruct H0 as [K|K]; cbn in K; [lia|decompose [or] K; discriminate || contradiction].
  - intros (b & t & Hb & E). destruct Ps as [Ns Cs]. destruct s as [|x s]; [congruence|].
    unfold reg_line in E. change (String x s +++ " +" +++ a +++ " " +++ fr +++ " " +++ ba +++ " allow") with
      (String x (s +++ " +" +++ a +++ " " +++ fr +++ " " +++ ba +++ " allow")) in E.
    assert (Sx : service_char x) by (apply Cs; cbn [has_char]; rewrite Ascii.eqb_refl; reflexivity).
    destruct b as [|y b].
    + change ("" +++ "!" +++ t) with (String "!" t) in E. injection E as -> _.
      destruct Sx as [K|K]; cbn in K; [lia|decompose [or] K; discriminate || contradiction].
    + change (String y b +++ "!" +++ t) with (String y (b +++ "!" +++ t)) in E. injection E as -> _.
      unfold blanks in Hb. cbn [sforall] in Hb. apply andb_true_iff in Hb as [Hb _].
      apply service_ascii in Sx as (_ & K & _). congruence.
Qed.
