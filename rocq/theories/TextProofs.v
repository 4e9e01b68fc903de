(** Facts about stripping, substitution and lines *)
From Coq Require Import String Ascii List Bool Arith Lia.
From Verif Require Import Base SysInfo Token Rule FileSys Loader SpecPolicy SpecRule SpecLoader.
From Verif Require Import TokenProofs RuleProofs.
Import ListNotations.
Open Scope string_scope.
Open Scope nat_scope.
Open Scope list_scope.

Lemma lstrip_spec s : exists b, blanks b /\ s = b +++ lstrip s /\ (lstrip s = "" \/ begins (lstrip s)).
Proof.
  induction s as [|c s (b & Hb & He & Hc)]; simpl.
  - exists "". repeat split; auto.
  - destruct (is_space c) eqn:Ec.
    + exists (String c b). unfold blanks in *. simpl. rewrite Ec. repeat split; auto. congruence.
    + exists "". repeat split; auto. right. exists c, s. auto.
Qed.
Lemma rstrip_spec s : exists b, blanks b /\ s = rstrip s +++ b.
Proof.
  induction s as [|c s (b & Hb & He)]; simpl.
  - exists "". split; [reflexivity|auto].
  - destruct (rstrip s) as [|d r] eqn:E.
    + simpl in He. subst s. destruct (is_space c) eqn:Ec.
      * exists (String c b). unfold blanks in *. simpl. rewrite Ec. auto.
      * exists b. auto.
    + exists b. split; auto. simpl. simpl in He. congruence.
Qed.
Lemma rstrip_begins s : begins s -> begins (rstrip s).
Proof.
  intros (c & t & -> & Hc). simpl. destruct (rstrip t).
  - rewrite Hc. exists c, "". auto.
  - exists c, (String a s). auto.
Qed.
Lemma strip_spec l : exists b b', blanks b /\ blanks b' /\ l = b +++ strip l +++ b' /\
  (strip l = "" \/ begins (strip l)).
Proof.
  unfold strip. destruct (lstrip_spec l) as (b & Hb & He & Hc).
  destruct (rstrip_spec (lstrip l)) as (b' & Hb' & He').
  exists b, b'. repeat split; auto.
  - rewrite <- He'. auto.
  - destruct Hc as [Hc|Hc]; [rewrite Hc; simpl; auto|right; apply rstrip_begins; auto].
Qed.

Lemma lstrip_blanks b s : blanks b -> lstrip (b +++ s) = lstrip s.
Proof.
  unfold blanks. induction b as [|c b IH]; simpl; auto. intros H. apply andb_true_iff in H as [-> H]. auto.
Qed.
Lemma lstrip_begins s : begins s -> lstrip s = s.
Proof. intros (c & t & -> & Hc). simpl. rewrite Hc. auto. Qed.
Lemma rstrip_blank b : blanks b -> rstrip b = "".
Proof.
  unfold blanks. induction b as [|c b IH]; simpl; auto. intros H. apply andb_true_iff in H as [Hc H].
  rewrite IH; auto. rewrite Hc. auto.
Qed.
Lemma rstrip_app_blanks s b : blanks b -> rstrip (s +++ b) = rstrip s.
Proof. intros Hb. induction s as [|c s IH]; simpl; [apply rstrip_blank; auto|]. rewrite IH. auto. Qed.
Lemma lstrip_blank b : blanks b -> lstrip b = "".
Proof. unfold blanks. induction b as [|c b IH]; simpl; auto. intros H. apply andb_true_iff in H as [-> H]. auto. Qed.
Lemma lstrip_app_blanks s b : blanks b -> lstrip (s +++ b) = "" /\ lstrip s = "" \/ lstrip (s +++ b) = lstrip s +++ b.
Proof.
  intros Hb. induction s as [|c s IH]; simpl.
  - left. split; auto. apply lstrip_blank; auto.
  - destruct (is_space c); auto.
Qed.
(** surrounding blanks do not matter *)
Lemma strip_blanks b s b' : blanks b -> blanks b' -> strip (b +++ s +++ b') = strip s.
Proof.
  intros Hb Hb'. unfold strip. rewrite lstrip_blanks by auto.
  destruct (lstrip_app_blanks s b' Hb') as [[-> ->]| ->]; auto.
  apply rstrip_app_blanks. auto.
Qed.

Lemma split_ws_app_blanks s b cur : blanks b -> split_ws_aux (s +++ b) cur = split_ws_aux s cur.
Proof.
  intros Hb. revert cur. induction s as [|c s IH]; intros cur; simpl.
  - destruct cur as [|c0 cur].
    + rewrite <- (app_nil_s b). rewrite split_ws_blank; auto.
    + destruct b as [|d b]; simpl; auto. unfold blanks in Hb. simpl in Hb. apply andb_true_iff in Hb as [-> Hb].
      f_equal. rewrite <- (app_nil_s b). rewrite split_ws_blank; auto.
  - destruct (is_space c); [destruct cur; auto; f_equal; auto|auto].
Qed.
Lemma split_ws_strip l : split_ws (strip l) = split_ws l.
Proof.
  destruct (strip_spec l) as (b & b' & Hb & Hb' & He & _). rewrite He at 2.
  unfold split_ws. rewrite split_ws_blank by auto. symmetry. apply split_ws_app_blanks. auto.
Qed.

Lemma blanks_app a b : blanks (a +++ b) <-> blanks a /\ blanks b.
Proof. unfold blanks. rewrite sforall_app, andb_true_iff. tauto. Qed.
Lemma strip_blank b : blanks b -> strip b = "".
Proof. intros. unfold strip. rewrite lstrip_blank; auto. Qed.

Lemma begins_not_blank l : begins l -> ~ blanks l.
Proof. intros (c & s & -> & Hc) H. unfold blanks in H. simpl in H. rewrite Hc in H. discriminate. Qed.

Lemma skip_inert l : skip_line (strip l) = true <-> inert l.
Proof.
  unfold skip_line. rewrite orb_true_iff. split.
  - destruct (strip_spec l) as (b & b' & Hb & Hb' & He & Hc). intros [H|H].
    + apply String.eqb_eq in H. rewrite H in He. simpl in He. subst. apply in_blank. apply blanks_app. auto.
    + apply starts_spec in H as [r Hr]. rewrite Hr in He. rewrite He.
      rewrite app_assoc_s. apply in_comment. auto.
  - intros H. destruct H as [b Hb|b s Hb].
    + left. rewrite strip_blank by auto. reflexivity.
    + right. rewrite <- (app_nil_s ("#" +++ s)). rewrite strip_blanks by (auto; reflexivity).
      unfold strip. rewrite lstrip_begins by (exists "#"%char, s; auto).
      destruct (rstrip_spec ("#" +++ s)) as (b' & Hb' & He').
      simpl in He' |- *. destruct (rstrip s); simpl; auto.
Qed.

Lemma strip_nonblank l : begins l -> exists c s b, l = String c s +++ b /\ strip l = String c s /\ blanks b /\ is_space c = false.
Proof.
  intros H. unfold strip. rewrite lstrip_begins by auto. pose proof (rstrip_begins _ H) as (c & s & Hs & Hc).
  destruct (rstrip_spec l) as (b & Hb & He). exists c, s, b. rewrite Hs in *. auto.
Qed.

Lemma starts1_head c s : starts (str1 c) s = true <-> exists r, s = String c r.
Proof. rewrite starts_spec. simpl. split; intros [r H]; exists r; auto. Qed.

Lemma starts_bang_directive l : starts "!" (strip l) = true <-> directive l.
Proof.
  split.
  - destruct (strip_spec l) as (b & b' & Hb & Hb' & He & _). intros H.
    apply starts_spec in H as [r Hr]. rewrite Hr in He. exists b, (r +++ b'). split; auto.
  - intros (b & s & Hb & ->). rewrite <- (app_nil_s ("!" +++ s)). rewrite strip_blanks by (auto; reflexivity).
    unfold strip. rewrite lstrip_begins by (exists "!"%char, s; auto).
    simpl. destruct (rstrip s); simpl; auto.
Qed.

Lemma fields_directive l w ws : fields l (w :: ws) -> starts "!" w = true -> directive l.
Proof.
  intros H Hw. remember (w :: ws) as W eqn:E. destruct H as [|b w' s ws' Hb Hne Hns Hs Hf]; [discriminate|].
  injection E as -> ->.
  apply starts_spec in Hw as [r ->]. exists b, (r +++ s). split; auto.
Qed.
Lemma fields_not_inert l w ws : fields l (w :: ws) -> starts "#" w = false -> ~ inert l.
Proof.
  intros H Hw Hi. apply split_ws_fields in H. destruct Hi as [b Hb|b s Hb].
  - unfold split_ws in H. rewrite <- (app_nil_s b), split_ws_blank in H by auto. discriminate.
  - unfold split_ws in H. rewrite split_ws_blank in H by auto. apply split_ws_fields in H.
    remember (w :: ws) as W eqn:E. remember ("#" +++ s) as t eqn:Heq.
    destruct H as [|b0 w' s0 ws' Hb0 Hne Hns Hs0 Hf]; [discriminate|]. injection E as -> ->.
    destruct b0 as [|c0 b0]; simpl in Heq.
    + destruct w as [|c1 w]; [contradiction|]. simpl in Heq. inversion Heq; subst. simpl in Hw. discriminate.
    + inversion Heq; subst. simpl in Hb0. discriminate.
Qed.
Lemma directive_not_inert l : directive l -> ~ inert l.
Proof.
  intros H Hi. apply starts_bang_directive in H. apply skip_inert in Hi.
  unfold skip_line in Hi. apply starts_spec in H as [r Hr]. rewrite Hr in Hi. simpl in Hi. discriminate.
Qed.

(** ** The three replacements are one pass *)
Lemma replace_aux_more f g old new s : String.length s < f -> String.length s < g -> old <> "" ->
  replace_aux f old new s = replace_aux g old new s.
Proof.
  intros Hf Hg Ho. revert g s Hf Hg. induction f as [|f IH]; intros g s Hf Hg; [lia|].
  destruct g as [|g]; [lia|]. destruct s as [|c s]; auto. cbn [replace_aux].
  destruct (starts old (String c s)) eqn:E.
  - f_equal. apply starts_spec in E as [r Hr]. rewrite Hr, sdrop_app.
    assert (String.length r < String.length (String c s)).
    { rewrite Hr, length_app_s. destruct old; [contradiction|simpl; lia]. }
    simpl in *. apply IH; lia.
  - f_equal. simpl in *. apply IH; lia.
Qed.
Lemma replace_nil old new : replace old new "" = "".
Proof. reflexivity. Qed.
Lemma replace_step f old new c s : replace_aux (S f) old new (String c s) =
  if starts old (String c s) then new +++ replace_aux f old new (sdrop (String.length old) (String c s))
  else String c (replace_aux f old new s).
Proof. reflexivity. Qed.
Lemma replace_hit old new s : old <> "" -> replace old new (old +++ s) = new +++ replace old new s.
Proof.
  intros Ho. unfold replace. destruct old as [|c old]; [contradiction|].
  change (String c old +++ s) with (String c (old +++ s)). rewrite replace_step.
  change (String c (old +++ s)) with (String c old +++ s). rewrite starts_app. f_equal.
  rewrite sdrop_app. apply replace_aux_more; try discriminate; try lia. rewrite length_app_s. simpl. lia.
Qed.
Lemma replace_miss old new c s : starts old (String c s) = false ->
  replace old new (String c s) = String c (replace old new s).
Proof.
  intros H. unfold replace. cbn [replace_aux String.length]. rewrite H. f_equal.
Qed.
Lemma replace1_hit c new s : replace (str1 c) new (String c s) = new +++ replace (str1 c) new s.
Proof. change (String c s) with (str1 c +++ s). apply replace_hit. discriminate. Qed.
Lemma replace1_miss c new d s : c <> d -> replace (str1 c) new (String d s) = String d (replace (str1 c) new s).
Proof.
  intros H. apply replace_miss. simpl. destruct (Ascii.eqb_spec c d); [contradiction|reflexivity].
Qed.
Lemma replace1_app c new a s : has_char c a = false ->
  replace (str1 c) new (a +++ s) = a +++ replace (str1 c) new s.
Proof.
  induction a as [|d a IH]; simpl; auto. intros H. apply orb_false_iff in H as [H1 H2].
  rewrite replace1_miss. - f_equal. auto.
  - intros ->. rewrite Ascii.eqb_refl in H1. discriminate.
Qed.

Lemma legacy_compat s t : legacy_spelling s t -> compat_subst s = t.
Proof.
  induction 1 as [|s t H IH|s t Hn H IH|s t H IH|c s t Hc1 Hc2 H IH]; auto.
  - unfold compat_subst in *. rewrite replace_hit by discriminate.
    change "$" with (str1 "$"). change "," with (str1 ",").
    rewrite replace1_app by reflexivity. rewrite replace1_app by reflexivity. f_equal. exact IH.
  - unfold compat_subst in *. rewrite replace_miss.
    + change "$" with (str1 "$") in *. change "," with (str1 ",") in *.
      rewrite replace1_hit. change ("@" +++ replace (str1 "$") "@" (replace "$include:" "!include " s))
        with (String "@" (replace (str1 "$") "@" (replace "$include:" "!include " s))).
      rewrite replace1_miss by discriminate. f_equal. exact IH.
    + destruct (starts "$include:" (String "$" s)) eqn:E; auto. apply starts_spec in E as [r Hr].
      exfalso. apply (Hn r). exact Hr.
  - unfold compat_subst in *. rewrite replace_miss by reflexivity.
    change "$" with (str1 "$") in *. change "," with (str1 ",") in *.
    rewrite replace1_miss by discriminate. rewrite replace1_hit.
    change (" " +++ ?x) with (String " " x). f_equal. exact IH.
  - unfold compat_subst in *. rewrite replace_miss.
    + change "$" with (str1 "$") in *. change "," with (str1 ",") in *.
      rewrite replace1_miss by congruence. rewrite replace1_miss by congruence. f_equal. exact IH.
    + simpl. destruct (Ascii.eqb_spec "$" c); [congruence|reflexivity].
Qed.
Lemma legacy_total n : forall s, String.length s <= n -> exists t, legacy_spelling s t.
Proof.
  induction n as [|n IH]; intros s Hl.
  - destruct s; [|simpl in Hl; lia]. exists "". constructor.
  - destruct s as [|c s]; [exists ""; constructor|]. simpl in Hl.
    destruct (Ascii.eqb_spec c "$").
    + subst. destruct (starts "$include:" (String "$" s)) eqn:E.
      * apply starts_spec in E as [r Hr]. rewrite Hr.
        assert (String.length r <= n).
        { assert (String.length (String "$" s) = 9 + String.length r) by (rewrite Hr; reflexivity). simpl in H; lia. }
        destruct (IH r H) as [t Ht]. exists ("!include " +++ t). apply ls_include. auto.
      * destruct (IH s ltac:(lia)) as [t Ht]. exists (String "@" t). apply ls_dollar; auto.
        intros r Hr. rewrite Hr in E. rewrite starts_app in E. discriminate.
    + destruct (IH s ltac:(lia)) as [t Ht]. destruct (Ascii.eqb_spec c ",").
      * subst. exists (String " " t). apply ls_comma; auto.
      * exists (String c t). apply ls_char; auto.
Qed.
Theorem compat_subst_spec s t : compat_subst s = t <-> legacy_spelling s t.
Proof.
  split; [|apply legacy_compat]. intros <-. destruct (legacy_total (String.length s) s (le_n _)) as [t Ht].
  rewrite (legacy_compat _ _ Ht). auto.
Qed.
Lemma legacy_no_comma s t : legacy_spelling s t -> has_char "," t = false.
Proof.
  induction 1; simpl; auto. rewrite IHlegacy_spelling. rewrite orb_false_r.
  destruct (Ascii.eqb_spec "," c); [congruence|auto].
Qed.
Lemma legacy_app_blanks s t b : legacy_spelling s t -> blanks b -> legacy_spelling (s +++ b) (t +++ b).
Proof.
  intros H Hb. induction H as [|s t H IH|s t Hn H IH|s t H IH|c s t Hc1 Hc2 H IH].
  - simpl. induction b as [|c b IHb]; [constructor|]. unfold blanks in Hb. simpl in Hb. apply andb_true_iff in Hb as [Hc Hb].
    apply ls_char; auto; intros ->; discriminate.
  - rewrite !app_assoc_s. apply ls_include. auto.
  - simpl. apply ls_dollar; auto. intros r Hr. apply (Hn (sdrop 8 s)).
    (* the literal cannot end inside the blanks *)
    clear - Hr Hb. change ("$include:" +++ r) with (String "$" ("include:" +++ r)) in Hr.
    inversion Hr as [Hr']. clear Hr. change ("$include:" +++ sdrop 8 s) with (String "$" ("include:" +++ sdrop 8 s)).
    f_equal. revert Hr'. clear -Hb.
    assert (G : forall p s1 r1, s1 +++ b = p +++ r1 -> sforall (fun c => negb (is_space c)) p = true -> s1 = p +++ sdrop (String.length p) s1).
    { induction p as [|c p IH]; intros s1 r0 He Hp; simpl; auto.
      simpl in Hp. apply andb_true_iff in Hp as [Hc Hp]. destruct s1 as [|d s1]; simpl in He.
      - subst b. unfold blanks in Hb. simpl in Hb. apply andb_true_iff in Hb as [Hb _]. rewrite Hb in Hc. discriminate.
      - inversion He; subst. f_equal. eauto. }
    intros Hr'. exact (G "include:" s r Hr' eq_refl).
  - simpl. apply ls_comma; auto.
  - simpl. apply ls_char; auto.
Qed.
Lemma split_all_single c w : has_char c w = false -> split_all c w = [w].
Proof.
  induction w as [|d w IH]; simpl; auto. intros H. apply orb_false_iff in H as [H1 H2]. rewrite H1, IH; auto.
Qed.
Lemma fields_has_char c s ws : fields s ws -> has_char c s = false -> Forall (fun w => has_char c w = false) ws.
Proof.
  induction 1; intros H'; constructor.
  - rewrite !has_char_app in H'. apply orb_false_iff in H' as [_ H']. apply orb_false_iff in H' as [H' _]. auto.
  - apply IHfields. rewrite !has_char_app in H'. apply orb_false_iff in H' as [_ H']. apply orb_false_iff in H' as [_ H']. auto.
Qed.
Lemma flat_split_single c ws : Forall (fun w => has_char c w = false) ws -> flat_map (split_all c) ws = ws.
Proof. induction 1 as [|w ws Hw H IH]; simpl; auto. rewrite split_all_single by auto. simpl. congruence. Qed.

(** ** Lines *)
Lemma lines_lf_app a b cur : lines_lf_aux (a +++ String NL b) cur = lines_lf_aux (a +++ nl) cur ++ lines_lf_aux b "".
Proof.
  revert cur. induction a as [|c a IH]; intros cur; simpl; auto.
  destruct (Ascii.eqb c NL); simpl; [f_equal|]; apply IH.
Qed.
Lemma univ_nl_app a b : univ_nl (a +++ String NL b) = univ_nl (a +++ nl) +++ univ_nl b.
Proof.
  induction a as [|c a IH].
  - reflexivity.
  - cbn [append univ_nl]. destruct (Ascii.eqb c CR).
    + destruct a as [|d a]; simpl.
      * reflexivity.
      * simpl in IH. destruct (Ascii.eqb d NL); rewrite IH; reflexivity.
    + rewrite IH. reflexivity.
Qed.
Lemma univ_nl_ends a : exists x, univ_nl (a +++ nl) = x +++ nl.
Proof.
  induction a as [|c a [x Hx]].
  - exists "". reflexivity.
  - cbn [append univ_nl]. destruct (Ascii.eqb c CR).
    + destruct a as [|d a]; simpl.
      * exists "". reflexivity.
      * simpl in Hx. destruct (Ascii.eqb d NL).
        -- exists x. exact Hx.
        -- exists (String NL x). simpl. f_equal. exact Hx.
    + exists (String c x). simpl. f_equal. exact Hx.
Qed.
(** the lines of a text that ends a line, followed by another text *)
Theorem lines_univ_app a b : lines_univ (a +++ nl +++ b) = lines_univ (a +++ nl) ++ lines_univ b.
Proof.
  unfold lines_univ. change (nl +++ b) with (String NL b). rewrite univ_nl_app.
  destruct (univ_nl_ends a) as [x Hx]. rewrite Hx. unfold lines_lf. rewrite app_assoc_s.
  change (nl +++ univ_nl b) with (String NL (univ_nl b)). apply lines_lf_app.
Qed.
Theorem lines_lf_app' a b : lines_lf (a +++ nl +++ b) = lines_lf (a +++ nl) ++ lines_lf b.
Proof. unfold lines_lf. apply lines_lf_app. Qed.
(** a text without line ends is one line *)
Lemma lines_univ_one l : has_char NL l = false -> has_char CR l = false -> lines_univ (l +++ nl) = [l].
Proof.
  intros Hn Hc. unfold lines_univ.
  assert (E : univ_nl (l +++ nl) = l +++ nl).
  { clear Hn. induction l as [|c l IH]; [reflexivity|]. cbn [has_char] in Hc. apply orb_false_iff in Hc as [H1 H2].
    cbn [append univ_nl]. rewrite Ascii.eqb_sym, H1. f_equal. auto. }
  rewrite E. clear E. unfold lines_lf.
  assert (G : forall cur, lines_lf_aux (l +++ nl) cur = [cur +++ l]); [|apply (G "")].
  clear Hc. induction l as [|c l IH]; intros cur.
  - simpl. rewrite app_nil_s. reflexivity.
  - cbn [has_char] in Hn. apply orb_false_iff in Hn as [H1 H2].
    cbn [append lines_lf_aux]. rewrite Ascii.eqb_sym, H1. rewrite IH by auto. rewrite app_assoc_s. reflexivity.
Qed.
(** without carriage returns both ways of reading lines agree *)
Lemma lines_univ_lf c : has_char CR c = false -> lines_univ c = lines_lf c.
Proof.
  intros Hc. unfold lines_univ. f_equal. induction c as [|d c IH]; auto.
  cbn [has_char] in Hc. apply orb_false_iff in Hc as [H1 H2]. cbn [univ_nl]. rewrite Ascii.eqb_sym, H1. f_equal. auto.
Qed.
