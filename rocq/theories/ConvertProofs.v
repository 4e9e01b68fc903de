(** Which rules the conversion keeps. *)
From Coq Require Import String Ascii List Bool Arith.
From Verif Require Import Base SysInfo Token Rule FileSys Loader LineLoader LoadAll Convert SpecConvert.
Import ListNotations.
Open Scope string_scope.
Open Scope list_scope.

Lemma same_place_spec a b : same_place a b = true <-> r_file (fst b) = r_file (fst a) /\ snd b = snd a.
Proof.
  unfold same_place. rewrite andb_true_iff, String.eqb_eq. destruct (snd a) as [x|], (snd b) as [y|]; rewrite ?Nat.eqb_eq; intuition congruence.
Qed.
Lemma legacy_spec all new r : In r (legacy_rules all new) <-> of_old_format all new r.
Proof.
  unfold legacy_rules, of_old_format. rewrite !filter_In, negb_true_iff.
  assert (N : numbered r = true <-> exists n, snd r = Some n /\ n <> 0).
  { unfold numbered. destruct (snd r) as [n|]; [|split; [discriminate|intros (? & ? & _); discriminate]].
    rewrite negb_true_iff, Nat.eqb_neq. split; [eauto|]. intros (m & [= <-] & H). exact H. }
  rewrite N. assert (X : existsb (same_place r) new = false <-> forall r', In r' new -> ~ (r_file (fst r') = r_file (fst r) /\ snd r' = snd r)).
  { split.
    - intros E r' H K. apply same_place_spec in K. assert (existsb (same_place r) new = true) by (apply existsb_exists; eauto). congruence.
    - intros H. destruct (existsb (same_place r) new) eqn:E; [|reflexivity]. apply existsb_exists in E as (r' & Hr & K).
      apply same_place_spec in K. destruct (H r' Hr K). }
  rewrite X. tauto.
Qed.
Lemma filter_subseq {A} (P : A -> bool) l : subseq (filter P l) l.
Proof. induction l as [|x l IH]; [constructor|]. cbn [filter]. destruct (P x); constructor; exact IH. Qed.
Lemma subseq_trans {A} (a b c : list A) : subseq a b -> subseq b c -> subseq a c.
Proof.
  intros H1 H2. revert a H1. induction H2; intros a' H1; [exact H1|constructor; auto|].
  inversion H1; subst; [apply ss_skip; auto|apply ss_keep; auto].
Qed.
Lemma subseq_In {A} (a b : list A) x : subseq a b -> In x a -> In x b.
Proof. intros H. induction H; cbn; intuition. Qed.
Lemma cut_subseq l : subseq (cut l) l.
Proof.
  induction l as [|x l IH]; [constructor|]. cbn [cut]. destruct (deny_all x); [|constructor; exact IH].
  clear IH. constructor. induction l; constructor; assumption.
Qed.
Lemma split_subseq l : forall seen, subseq (split_input seen l) l.
Proof.
  induction l as [|x l IH]; intros seen; [constructor|]. cbn [split_input]. destruct (existsb _ seen); constructor; apply IH.
Qed.
Lemma of_service_spec sv l r : In r (of_service sv l) <-> In r l /\ r_service (fst r) = sv.
Proof.
  unfold of_service. rewrite filter_In. destruct (r_service (fst r)) as [a|], sv as [b|]; rewrite ?String.eqb_eq; intuition congruence.
Qed.
Lemma cut_spec l r : In r l -> In r (cut l) \/ exists r' l1 l2, l = l1 ++ r' :: l2 /\ deny_all r' = true /\ (r' = r \/ In r l2).
Proof.
  induction l as [|x l IH]; intros H; [destruct H|]. cbn [cut]. destruct (deny_all x) eqn:D.
  - right. exists x, [], l. split; [reflexivity|]. split; [exact D|]. destruct H; auto.
  - destruct H as [->|H]; [left; left; reflexivity|]. destruct (IH H) as [K|(r' & l1 & l2 & -> & D' & K)]; [left; right; exact K|].
    right. exists r', (x :: l1), l2. auto.
Qed.
(** the place in a sublist is a place in the list *)
Lemma subseq_split {A} (a b : list A) : subseq a b -> forall x l1 l2, a = l1 ++ x :: l2 ->
  exists m1 m2, b = m1 ++ x :: m2 /\ subseq l2 m2.
Proof.
  intros H. induction H as [|y a b H IH|y a b H IH]; intros x l1 l2 E.
  - destruct l1; discriminate.
  - destruct (IH x l1 l2 E) as (m1 & m2 & -> & S). exists (y :: m1), m2. auto.
  - destruct l1 as [|z l1].
    + injection E as -> ->. exists [], b. auto.
    + injection E as -> ->. destruct (IH x l1 l2 eq_refl) as (m1 & m2 & -> & S). exists (z :: m1), m2. auto.
Qed.
Lemma action_str_deny a : action_str a = "deny" -> exists n, a = Deny n.
Proof. destruct a; cbn; intros E; [eauto|discriminate|discriminate]. Qed.
Lemma tok_any c s t : parse_tok c s = Ok t -> tok_str t = "@anyvm" -> t = TAny.
Proof.
  intros P E. destruct t; try reflexivity; cbn in E; try discriminate.
  unfold parse_tok in P. destruct (String.eqb s ""); [discriminate|]. destruct (negb (starts "@" s || String.eqb s "*")) eqn:N.
  - injection P as ->. subst s0. discriminate.
  - destruct (find_exact c s exacts) as [t|] eqn:F.
    + exfalso. injection P as ->. revert F. generalize exacts. intros l. induction l as [|[e k] l IH]; cbn; [discriminate|].
      destruct (negb (subclass k c)); [exact IH|]. destruct (String.eqb s e); [|exact IH]. destruct k; discriminate.
    + exfalso. revert P. generalize prefixes. intros l. induction l as [|[e k] l IH]; cbn; [discriminate|].
      destruct (negb (subclass k c)); [exact IH|]. destruct (starts e s); [|exact IH].
      destruct (String.eqb _ ""); [discriminate|]. destruct (starts "@" (sdrop (String.length e) s)); [exact IH|]. destruct k; discriminate.
Qed.
(** columns of rules that were loaded *)
Definition tok_cols (r : rule) : Prop :=
  (tok_str (r_source r) = "@anyvm" -> r_source r = TAny) /\ (tok_str (r_target r) = "@anyvm" -> r_target r = TAny).
Lemma made_tok_cols : made tok_cols.
Proof.
  apply make_rule_made. intros sv ar s t act ps file r E. unfold make_rule in E.
  destruct (validate_service_and_argument sv ar) as [[sv' ar']|]; [|discriminate]. cbn [bind fst snd] in E.
  destruct (parse_tok CSource s) as [s1|] eqn:P1; [|discriminate]. destruct (parse_tok CTarget t) as [t1|] eqn:P2; [|discriminate]. cbn [bind] in E.
  destruct (known_params act); [|discriminate]. destruct (collect_params ps []) as [k|]; [|discriminate]. cbn [bind] in E.
  destruct (make_action act k) as [x|]; [|discriminate]. cbn [bind] in E.
  unfold tok_cols. enough (G : r_source r = s1 /\ r_target r = t1)
    by (destruct G as [-> ->]; split; intros K; eapply tok_any; eauto).
  destruct t1; destruct x as [|[?|]|]; try discriminate; injection E as <-; auto.
Qed.
Lemma deny_all_spec r : wf_cols (fst r) -> tok_cols (fst r) -> deny_all r = true -> denies_all (fst r).
Proof.
  intros [_ W] [T1 T2] D. unfold deny_all in D. apply andb_true_iff in D as [D D4]. apply andb_true_iff in D as [D D3].
  apply andb_true_iff in D as [D1 D2]. apply String.eqb_eq in D1, D2, D3. split; [apply action_str_deny; exact D1|].
  split; [auto|]. split; [auto|]. destruct (r_arg (fst r)) as [a|] eqn:A; [|reflexivity].
  apply String.eqb_eq in D4 as ->. specialize (W _ eq_refl). discriminate.
Qed.

(** what goes to the file for input devices *)
Lemma file_of_service sv : target_file sv = INPUT_FILE ->
  In sv [Some "qubes.InputKeyboard"; Some "qubes.InputMouse"; Some "qubes.InputTablet"].
Proof.
  destruct sv as [s|]; [|discriminate]. unfold target_file, SERVICE_TO_FILE. cbn [dget].
  repeat match goal with |- context [String.eqb s ?k] => destruct (String.eqb_spec s k) as [->|]; [try discriminate; cbn; auto|] end.
  discriminate.
Qed.
Lemma target_file_In sv : In (target_file sv) files_to_save.
Proof.
  destruct sv as [s|]; [|left; reflexivity]. unfold target_file, SERVICE_TO_FILE. cbn [dget].
  repeat match goal with |- context [String.eqb s ?k] => destruct (String.eqb_spec s k) as [->|]; [cbn; auto 20|] end.
  left. reflexivity.
Qed.
Lemma split_input_spec l : forall seen r, In r l ->
  In r (split_input seen l) \/
  (exists r', In r' (split_input seen l) /\ r_service (fst r') = r_service (fst r) /\ tok_str (r_source (fst r')) = tok_str (r_source (fst r))) \/
  In (r_service (fst r), tok_str (r_source (fst r))) seen.
Proof.
  induction l as [|x l IH]; intros seen r H; [destruct H|]. cbn [split_input].
  destruct (existsb _ seen) eqn:E.
  - destruct H as [->|H]; [|exact (IH seen r H)]. right. right. apply existsb_exists in E as ([a b] & Hin & K).
    cbn [fst snd] in K. apply andb_true_iff in K as [K1 K2]. apply String.eqb_eq in K2 as ->.
    assert (a = r_service (fst r)) as -> by (destruct a, (r_service (fst r)); try discriminate; [apply String.eqb_eq in K1; congruence|reflexivity]).
    exact Hin.
  - destruct H as [->|H]; [left; left; reflexivity|]. destruct (IH ((r_service (fst x), tok_str (r_source (fst x))) :: seen) r H) as [K|[(r' & K & K1 & K2)|[K|K]]].
    + left. right. exact K.
    + right. left. exists r'. split; [right; exact K|auto].
    + right. left. exists x. split; [left; reflexivity|]. injection K as -> ->. auto.
    + right. right. exact K.
Qed.
