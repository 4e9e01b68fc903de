From Coq Require Import String Ascii List Bool Arith Lia.
From Verif Require Import Base SysInfo Token Rule SpecPolicy.
Import ListNotations.
Open Scope string_scope.
Open Scope list_scope.

Ltac inv H := inversion H; subst; clear H.

Lemma starts_split p s : starts p s = true -> exists v, s = p +++ v.
Proof. apply starts_spec. Qed.

Lemma eqb_true a b : String.eqb a b = true -> a = b.
Proof. apply String.eqb_eq. Qed.
Lemma eqb_false a b : String.eqb a b = false -> a <> b.
Proof. apply String.eqb_neq. Qed.

(** Soundness: an accepted token prints back, and its text is allowed *)
Lemma find_prefix_sound c s l t :
  (forall p k, In (p, k) l -> In (p, k) prefixes) ->
  find_prefix c s l = Ok t ->
  tok_str t = s /\ exists p k v, In (p, k) l /\ subclass k c = true /\ s = p +++ v /\
     v <> "" /\ starts "@" v = false /\ t = instantiate k v.
Proof.
  induction l as [|[p k] l IH]; simpl; [discriminate|]. intros Hsub H.
  assert (Hl : forall p0 k0, In (p0, k0) l -> In (p0, k0) prefixes) by (intros; apply Hsub; right; auto).
  destruct (subclass k c) eqn:Es; simpl in H.
  2:{ destruct (IH Hl H) as [H1 (p'&k'&v&?&?&?&?&?&?)]. split; auto. exists p', k', v. auto 10. }
  destruct (starts p s) eqn:Ep.
  2:{ destruct (IH Hl H) as [H1 (p'&k'&v&?&?&?&?&?&?)]. split; auto. exists p', k', v. auto 10. }
  apply starts_split in Ep as [v ->]. rewrite sdrop_app in H.
  destruct (String.eqb v "") eqn:E1; [discriminate|].
  destruct (starts "@" v) eqn:E2.
  { destruct (IH Hl H) as [H1 (p'&k'&v'&?&?&?&?&?&?)]. split; auto. exists p', k', v'. auto 10. }
  inversion H; subst. apply eqb_false in E1. split.
  - specialize (Hsub p k (or_introl eq_refl)). simpl in Hsub.
    intuition; match goal with H : (_, _) = (_, _) |- _ => inversion H; subst; reflexivity end.
  - exists p, k, v. auto 10.
Qed.

Lemma find_exact_sound c s t :
  find_exact c s exacts = Some t -> tok_str t = s /\ In s (keywords c).
Proof.
  unfold exacts. destruct c; simpl;
  repeat match goal with
  | |- (if String.eqb ?a ?b then _ else _) = _ -> _ =>
      destruct (String.eqb a b) eqn:?;
      [match goal with H : String.eqb _ _ = true |- _ => apply eqb_true in H; subst end;
       let H := fresh in intros H; inversion H; subst; simpl; auto 10 |]
  end; discriminate.
Qed.

Lemma parse_tok_sound c s t :
  parse_tok c s = Ok t -> tok_str t = s /\ allowed_text c s.
Proof.
  unfold parse_tok. destruct (String.eqb s "") eqn:E0; [discriminate|].
  destruct (starts "@" s || String.eqb s "*") eqn:E1; cbn [negb].
  2:{ intros H. inv H. apply orb_false_iff in E1 as [E1 E2].
      split; auto. apply at_plain; auto using eqb_false. }
  destruct (find_exact c s exacts) eqn:Ef.
  - intros H. inv H. apply find_exact_sound in Ef as [? ?]. split; auto. apply at_keyword; auto.
  - intros H. apply find_prefix_sound in H; [|auto].
    destruct H as [H1 (p&k&v&Hin&Hs&->&Hv&Ha&->)]. split; auto.
    eapply at_valued with (p := p) (v := v); auto.
    simpl in Hin. destruct c; simpl;
    intuition; match goal with H : (_, _) = (_, _) |- _ => inversion H; subst; simpl in *; auto 10; discriminate end.
Qed.

(** Errors are always PolicySyntaxError *)
Lemma find_prefix_err c s l e : find_prefix c s l = Err e -> e = ESyntax.
Proof.
  induction l as [|[p k] l IH]; simpl; intros H; [congruence|].
  destruct (subclass k c); simpl in H; auto.
  destruct (starts p s); auto.
  destruct (String.eqb _ _); [congruence|].
  destruct (starts "@" _); auto. discriminate.
Qed.
Lemma parse_tok_err c s e : parse_tok c s = Err e -> e = ESyntax.
Proof.
  unfold parse_tok. destruct (String.eqb s ""); [congruence|].
  destruct (negb _); [discriminate|]. destruct (find_exact _ _ _); [discriminate|].
  apply find_prefix_err.
Qed.

(** Completeness *)
Lemma starts_at_not_star v : starts "@" v = false -> forall p, starts "@" (p +++ v) = true -> p <> "".
Proof. intros H p Hp ->. simpl in Hp. congruence. Qed.

Lemma keywords_parse c s : In s (keywords c) -> exists t, parse_tok c s = Ok t.
Proof.
  destruct c; simpl; intuition; subst; vm_compute; eauto.
Qed.

Ltac dec_starts :=
  repeat match goal with
  | |- context [starts ?p (?q +++ ?v)] => progress simpl
  end.

Lemma valued_parse c p v :
  In p (value_keywords c) -> v <> "" -> starts "@" v = false ->
  exists t, parse_tok c (p +++ v) = Ok t.
Proof.
  intros Hin Hv Ha.
  assert (Hv' : String.eqb v "" = false) by (apply String.eqb_neq; auto).
  destruct v as [|a v]; [congruence|].
  assert (Ha' : Ascii.eqb "@" a = false) by (simpl in Ha; rewrite andb_true_r in Ha; auto).
  destruct c; simpl in Hin; intuition; subst p;
    unfold parse_tok; cbn; rewrite ?Ha'; cbn; rewrite ?andb_false_r; cbn; eauto.
Qed.

Lemma parse_tok_complete c s : allowed_text c s -> exists t, parse_tok c s = Ok t.
Proof.
  intros [H1 H2 H3 | H | p v Hin -> Hv Ha].
  - exists (TName s). unfold parse_tok. apply String.eqb_neq in H1, H3. rewrite H1, H2, H3. reflexivity.
  - apply keywords_parse; auto.
  - apply valued_parse; auto.
Qed.

(** TName is only produced for plain texts *)
Lemma parse_tok_name c s n :
  parse_tok c s = Ok (TName n) -> n = s /\ s <> "" /\ starts "@" s = false /\ s <> "*".
Proof.
  unfold parse_tok. destruct (String.eqb s "") eqn:E0; [discriminate|].
  destruct (starts "@" s || String.eqb s "*") eqn:E1; cbn [negb].
  2:{ intros H. inv H. apply orb_false_iff in E1 as [E1 E2]. auto using eqb_false. }
  destruct (find_exact c s exacts) eqn:Ef.
  - intros H. inv H. exfalso. revert Ef. unfold exacts. destruct c; simpl;
    repeat match goal with |- context[if ?b then _ else _] => destruct b end; intros; discriminate.
  - intros H. apply find_prefix_sound in H; auto. destruct H as [_ (p&k&v&?&?&?&?&?&H)].
    destruct k; discriminate.
Qed.

Lemma parse_tok_plain c s : plain_name s = true -> parse_tok c s = Ok (TName s).
Proof.
  unfold plain_name, parse_tok. rewrite !andb_true_iff, !negb_true_iff.
  intros [[[H1 H2] H3] H4]. rewrite H1, H2, H3. reflexivity.
Qed.

(** Tokens that came from the parser (or the four fixed ones) are well formed *)
Lemma parse_tok_wf c s t : parse_tok c s = Ok t -> wf_tok c t.
Proof.
  intros H. pose proof (parse_tok_sound _ _ _ H) as [H1 H2]. split; [congruence|].
  destruct t; auto. apply parse_tok_name in H as (?&?&?&?). subst. auto.
Qed.

Lemma ascii_at_false a : Ascii.eqb "@" a = false -> forall s x, String a s = String "@" x -> False.
Proof. intros H s x E. inversion E; subst. discriminate. Qed.

Lemma str_head a s b t : String a s = String b t -> a = b /\ s = t.
Proof. intros H; inversion H; auto. Qed.

