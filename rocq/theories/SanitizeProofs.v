(** Proofs about the sanitisers *)
From Coq Require Import String Ascii List Bool Arith Lia.
From Verif Require Import Base Sanitize SpecDaemon TokenProofs.
Import ListNotations.
Open Scope string_scope.
Open Scope nat_scope.
Open Scope list_scope.

Definition alphabet_char (c : ascii) : bool :=
  between "a" "z" c || between "A" "Z" c || between "0" "9" c || Ascii.eqb c "_" || Ascii.eqb c "-" || Ascii.eqb c ".".
Lemma alphabet_char_spec c : alphabet_char c = has_char c name_alphabet.
Proof. destruct c as [[] [] [] [] [] [] [] []]; vm_compute; reflexivity. Qed.

Lemma py_char_spec extra c :
  py_sanitize_char extra c =
  if has_char c (name_alphabet +++ "@" +++ extra) then c else "_"%char.
Proof.
  unfold py_sanitize_char. rewrite !has_char_app, <- alphabet_char_spec.
  replace (has_char c "@_-.") with (has_char c "@" || Ascii.eqb c "_" || Ascii.eqb c "-" || Ascii.eqb c ".").
  2:{ destruct c as [[] [] [] [] [] [] [] []]; vm_compute; reflexivity. }
  unfold alphabet_char.
  destruct (between "a" "z" c), (between "A" "Z" c), (between "0" "9" c), (Ascii.eqb c "_"), (Ascii.eqb c "-"),
    (Ascii.eqb c "."), (has_char c "@"), (has_char c extra); reflexivity.
Qed.

Lemma py_map_cleaned extra s : cleaned ("@" +++ extra) s (smap (py_sanitize_char extra) s).
Proof.
  induction s as [|c s IH]; cbn [smap]; [constructor|].
  rewrite py_char_spec. destruct (has_char c (name_alphabet +++ "@" +++ extra)) eqn:E.
  - apply cl_keep; auto.
  - apply cl_under; auto.
Qed.

Lemma cleaned_fun extra s r r' : cleaned extra s r -> cleaned extra s r' -> r = r'.
Proof.
  intros H; revert r'; induction H; intros r' H'; inversion H'; subst; f_equal; auto; congruence.
Qed.

Lemma cleaned_length extra s r : cleaned extra s r -> String.length r = String.length s.
Proof. induction 1; simpl; congruence. Qed.

Lemma underscore_alphabet extra : has_char "_" (name_alphabet +++ extra) = true.
Proof. rewrite has_char_app. reflexivity. Qed.

Lemma cleaned_spelled extra s r : cleaned extra s r -> spelled extra r.
Proof.
  induction 1; intros x Hx; cbn [has_char] in Hx.
  - discriminate.
  - apply orb_true_iff in Hx as [Hx|Hx]; auto. apply Ascii.eqb_eq in Hx. subst. auto.
  - apply orb_true_iff in Hx as [Hx|Hx]; auto. apply Ascii.eqb_eq in Hx. subst. apply underscore_alphabet.
Qed.

Lemma spelled_cons extra c s : spelled extra (String c s) <->
  has_char c (name_alphabet +++ extra) = true /\ spelled extra s.
Proof.
  unfold spelled. cbn [has_char]. split.
  - intros H. split; [apply H; rewrite (proj2 (Ascii.eqb_eq c c) eq_refl); reflexivity|].
    intros x Hx. apply H. rewrite Hx. apply orb_true_r.
  - intros [H1 H2] x Hx. apply orb_true_iff in Hx as [Hx|Hx]; auto.
    apply Ascii.eqb_eq in Hx. subst. auto.
Qed.

Lemma spelled_cleaned extra s : spelled extra s -> cleaned extra s s.
Proof.
  induction s as [|c s IH]; [constructor|]. intros H. apply (proj1 (spelled_cons _ _ _)) in H as [H1 H2].
  apply cl_keep; auto.
Qed.

Lemma cleaned_self extra s : cleaned extra s s <-> spelled extra s.
Proof. split; [apply cleaned_spelled|apply spelled_cleaned]. Qed.

Lemma cleaned_nth extra s r n : cleaned extra s r ->
  forall c, String.get n s = Some c ->
  String.get n r = Some (if has_char c (name_alphabet +++ extra) then c else "_"%char).
Proof.
  intros H; revert n; induction H; intros n x Hx; destruct n; simpl in *; try discriminate; auto.
  - inv Hx. rewrite H. reflexivity.
  - inv Hx. rewrite H. reflexivity.
Qed.

(** ** C *)
Lemma nul_not_alphabet : has_char NUL name_alphabet = false.
Proof. reflexivity. Qed.

Lemma c_sanitize_cleaned extra s : cleaned extra (cstr s) (cstr (c_sanitize_name s extra)).
Proof.
  induction s as [|c s IH]; cbn [cstr c_sanitize_name]; [constructor|].
  destruct (Ascii.eqb c NUL) eqn:En.
  - apply Ascii.eqb_eq in En. subst. cbn [cstr]. constructor.
  - set (x := if between "a" "z" c then c else _).
    assert (Hx : x = if has_char c (name_alphabet +++ extra) then c else "_"%char).
    { unfold x. rewrite has_char_app, <- alphabet_char_spec. unfold alphabet_char.
      destruct (between "a" "z" c), (between "A" "Z" c), (between "0" "9" c), (Ascii.eqb c "_"),
        (Ascii.eqb c "-"), (Ascii.eqb c "."), (has_char c extra); reflexivity. }
    rewrite Hx. clearbody x. clear Hx x. cbn [cstr].
    destruct (has_char c (name_alphabet +++ extra)) eqn:E.
    + rewrite En. apply cl_keep; auto.
    + replace (Ascii.eqb "_" NUL) with false by reflexivity. apply cl_under; auto.
Qed.

Lemma cstr_id s : has_char NUL s = false -> cstr s = s.
Proof.
  induction s as [|c s IH]; cbn [cstr has_char]; auto. intros H.
  apply orb_false_iff in H as [H1 H2]. rewrite Ascii.eqb_sym, H1, IH; auto.
Qed.
Lemma cstr_no_nul s : has_char NUL (cstr s) = false.
Proof.
  induction s as [|c s IH]; cbn [cstr has_char]; auto.
  destruct (Ascii.eqb c NUL) eqn:E; auto. cbn [has_char]. rewrite Ascii.eqb_sym, E. exact IH.
Qed.

(** the bytes after the terminator are left alone *)
Lemma c_sanitize_rest s extra : exists a b, s = cstr s +++ b /\ c_sanitize_name s extra = a +++ b /\
  a = cstr (c_sanitize_name s extra) /\ (b = "" \/ starts (str1 NUL) b = true).
Proof.
  induction s as [|c s (a & b & H1 & H2 & H3 & H4)]; cbn [cstr c_sanitize_name].
  - exists "", "". auto.
  - destruct (Ascii.eqb c NUL) eqn:En.
    + apply Ascii.eqb_eq in En. subst. exists "", (String NUL s). cbn [cstr]. repeat split; auto.
    + set (x := if between "a" "z" c then c else _).
      assert (Hx : Ascii.eqb x NUL = false).
      { unfold x. destruct (between "a" "z" c); auto. destruct (between "A" "Z" c); auto.
        destruct (between "0" "9" c); auto. destruct (Ascii.eqb c "_" || Ascii.eqb c "-" || Ascii.eqb c "."); auto.
        destruct (has_char c extra); auto. }
      cbn [cstr]. rewrite Hx. exists (String x a), b. rewrite <- H3. cbn [String.append].
      split; [congruence|]. split; [congruence|]. split; auto.
Qed.

Lemma spelled_no_nul extra s : has_char NUL extra = false -> spelled extra s -> has_char NUL s = false.
Proof.
  intros He Hs. destruct (has_char NUL s) eqn:E; auto. apply Hs in E. rewrite has_char_app, He in E.
  discriminate E.
Qed.
Lemma spelled_one_line extra s : has_char NL extra = false -> spelled extra s -> one_line s.
Proof.
  intros He Hs. unfold one_line. destruct (has_char NL s) eqn:E; auto. apply Hs in E.
  rewrite has_char_app, He in E. discriminate E.
Qed.
Lemma alphabet_ascii c : has_char c name_alphabet = true -> nat_of_ascii c < 128.
Proof.
  rewrite <- alphabet_char_spec.
  destruct c as [[] [] [] [] [] [] [] []]; vm_compute; intros; try discriminate; lia.
Qed.
Lemma spelled_ascii extra s : ascii_text extra -> spelled extra s -> ascii_text s.
Proof.
  intros He Hs c Hc. apply Hs in Hc. rewrite has_char_app in Hc.
  apply orb_true_iff in Hc as [Hc|Hc]; auto. apply alphabet_ascii; auto.
Qed.
Lemma spelled_app extra a b : spelled extra (a +++ b) <-> spelled extra a /\ spelled extra b.
Proof.
  unfold spelled. split.
  - intros H. split; intros c Hc; apply H; rewrite has_char_app, Hc; auto using orb_true_r.
  - intros [H1 H2] c Hc. rewrite has_char_app in Hc. apply orb_true_iff in Hc as [Hc|Hc]; auto.
Qed.
