(** Proofs about service configuration files *)
From Coq Require Import String Ascii List Bool Arith ZArith Lia.
From Verif Require Import Base Sanitize DaemonAgent Exec SpecExec SpecLookup ExecCProofs LookupProofs Toml SpecToml.
Import ListNotations.
Open Scope string_scope.
Open Scope list_scope.
Open Scope Z_scope.

Lemma app_assoc_s (a b c : string) : (a +++ b) +++ c = a +++ (b +++ c).
Proof. induction a as [|x a IH]; [reflexivity|]. cbn [String.append]. now rewrite IH. Qed.
Lemma app_nil_s (a : string) : a +++ "" = a.
Proof. induction a as [|x a IH]; [reflexivity|]. cbn [String.append]. now rewrite IH. Qed.

(** *** Blanks *)
Lemma isspace_iff c : qubes_isspace c = true <-> c = " "%char \/ c = TAB.
Proof.
  unfold qubes_isspace. rewrite orb_true_iff, !Ascii.eqb_eq. tauto.
Qed.
Lemma blanks_cons c s : qubes_isspace c = true -> blanks s -> blanks (String c s).
Proof. intros H B. apply isspace_iff in H as [-> | ->]; now constructor. Qed.
Lemma blanks_inv c s : blanks (String c s) -> qubes_isspace c = true /\ blanks s.
Proof. inversion 1; subst; split; auto; apply isspace_iff; auto. Qed.
Lemma blanks_app a b : blanks a -> blanks b -> blanks (a +++ b).
Proof. induction 1; intros B; cbn [String.append]; auto; now constructor; auto. Qed.

Definition starts_nonblank (s : string) : Prop :=
  match s with EmptyString => True | String c _ => qubes_isspace c = false end.
Lemma skip_space_app b s : blanks b -> starts_nonblank s -> skip_space (b +++ s) = s.
Proof.
  induction 1 as [|b B IH|b B IH]; intros N; cbn [String.append skip_space].
  - destruct s; [reflexivity|]. cbn [skip_space]. cbn in N. now rewrite N.
  - rewrite (proj2 (isspace_iff " "%char)); auto.
  - rewrite (proj2 (isspace_iff TAB)); auto.
Qed.
Lemma skip_space_split s : exists b, blanks b /\ s = b +++ skip_space s /\ starts_nonblank (skip_space s).
Proof.
  induction s as [|c s (b & B & E & N)]; [exists ""; repeat split; constructor|].
  cbn [skip_space]. destruct (qubes_isspace c) eqn:C.
  - exists (String c b). split; [now apply blanks_cons|]. split; [cbn [String.append]; congruence|assumption].
  - exists "". split; [constructor|]. split; [reflexivity|exact C].
Qed.

(** *** Runs of characters *)
Definition stops (p : ascii -> bool) (s : string) : Prop :=
  match s with EmptyString => True | String c _ => p c = false end.
Lemma span_app p a b : sforall p a = true -> stops p b -> span p (a +++ b) = (a, b).
Proof.
  intros A B. induction a as [|c a IH]; cbn [String.append].
  - destruct b; [reflexivity|]. cbn [span]. cbn in B. now rewrite B.
  - cbn [sforall] in A. apply andb_true_iff in A as [A1 A2]. cbn [span]. rewrite A1, IH; auto.
Qed.
Lemma span_split p s a b : span p s = (a, b) -> s = a +++ b /\ sforall p a = true /\ stops p b.
Proof.
  revert a b. induction s as [|c s IH]; intros a b; cbn [span].
  - intros [= <- <-]. repeat split.
  - destruct (p c) eqn:C.
    + destruct (span p s) as [a' b'] eqn:E. intros [= <- <-].
      destruct (IH _ _ eq_refl) as (-> & A & B). cbn [String.append sforall]. rewrite C. auto.
    + intros [= <- <-]. repeat split. exact C.
Qed.

(** *** Keys *)
Lemma between_iff lo hi c : between lo hi c = true <-> (nat_of_ascii lo <= nat_of_ascii c <= nat_of_ascii hi)%nat.
Proof. unfold between. rewrite andb_true_iff, !Nat.leb_le. reflexivity. Qed.
Lemma letter_iff c : between "a" "z" c || between "A" "Z" c = true <-> letter c.
Proof.
  rewrite orb_true_iff, !between_iff. unfold letter.
  change (nat_of_ascii "a") with 97%nat. change (nat_of_ascii "z") with 122%nat.
  change (nat_of_ascii "A") with 65%nat. change (nat_of_ascii "Z") with 90%nat. tauto.
Qed.
Lemma key_byte_iff c : qubes_is_key_byte c = true <-> key_char c.
Proof.
  unfold qubes_is_key_byte. split.
  - rewrite !orb_true_iff, !Ascii.eqb_eq. intros [[[[[H|H]|H]|H]|H]|H].
    + apply (kc_digit c (dval c)). apply digit_of_iff. split; [exact H|reflexivity].
    + apply kc_letter, letter_iff. now rewrite H, orb_true_r.
    + apply kc_letter, letter_iff. now rewrite H.
    + subst. apply kc_dot.
    + subst. apply kc_dash.
    + subst. apply kc_under.
  - intros [c' L|c' d D| | |]; try reflexivity.
    + apply letter_iff in L. apply orb_true_iff in L as [-> | ->]; now rewrite ?orb_true_r.
    + apply digit_of_iff in D as [D _]. unfold digit in D. now rewrite D.
Qed.
Lemma key_chars_iff s : sforall qubes_is_key_byte s = true <-> key_chars s.
Proof.
  induction s as [|c s IH]; cbn [sforall].
  - split; [constructor|reflexivity].
  - rewrite andb_true_iff, key_byte_iff, IH. split; [intros []; now constructor|inversion 1; auto].
Qed.

(** *** Values *)
Definition to_setting (v : toml_value) : setting :=
  match v with TBool true => Yes | TBool false => No | TInt n => Number n | TStr s => Text s end.

Lemma digits_dnum s acc : digits_value s acc = dnum s acc.
Proof. revert acc. induction s as [|c s IH]; intros acc; [reflexivity|]. cbn [digits_value dnum]. apply IH. Qed.

(** the end of a value: blanks and a comment *)
Inductive value_end : string -> Prop :=
| ve b t : blanks b -> t = "" \/ comment t -> value_end (b +++ t).
Lemma nonblank_tail t : t = "" \/ comment t -> starts_nonblank t.
Proof. intros [-> | [r ->]]; [exact I|reflexivity]. Qed.
Lemma value_end_iff e : value_end e <-> (String.eqb (skip_space e) "" || starts "#" (skip_space e)) = true.
Proof.
  split.
  - intros [b t B T]. rewrite (skip_space_app _ _ B (nonblank_tail _ T)).
    destruct T as [-> | T]; [reflexivity|]. apply orb_true_iff. right. apply starts_true. exact T.
  - rewrite orb_true_iff, String.eqb_eq, starts_true. intros H.
    destruct (skip_space_split e) as (b & B & E & _). rewrite E. now constructor.
Qed.
Lemma value_end_stops e : value_end e -> stops digit e.
Proof.
  intros [b t B T]. destruct B; cbn [String.append]; try reflexivity.
  destruct T as [-> | [r ->]]; [exact I|reflexivity].
Qed.

Lemma starts_app p r : starts p (p +++ r) = true.
Proof. apply starts_true. now exists r. Qed.

Lemma value_start_complete vt s e :
  value_text vt s -> value_end e -> exists v, toml_value_start (vt +++ e) = Some (v, e) /\ to_setting v = s.
Proof.
  intros V E. destruct V as [| | |vt n D N|s L].
  - exists (TBool true). split; reflexivity.
  - exists (TBool false). split; reflexivity.
  - exists (TInt 0). split; reflexivity.
  - apply decimal_iff in D as (c & r & -> & C & Z0 & R & ->).
    assert (B : between "1" "9" c = true) by (apply digit19; auto).
    exists (TInt (dnum (String c r) 0)). split; [|reflexivity].
    cbn [String.append]. unfold toml_value_start.
    destruct (Ascii.eqb_spec c "0") as [->|_]; [exfalso; now apply Z0|].
    rewrite B. change (String c (r +++ e)) with (String c r +++ e).
    rewrite span_app; [|cbn [sforall]; now rewrite C|now apply value_end_stops].
    rewrite digits_dnum. unfold ULLONG_MAX.
    destruct (Z.gtb_spec (dnum (String c r) 0) 18446744073709551615); [|reflexivity].
    change (2 ^ 64) with 18446744073709551616 in N. lia.
  - exists (TStr s). split; [|reflexivity].
    change (("'" +++ s +++ "'") +++ e) with (String "'" ((s +++ "'") +++ e)). rewrite app_assoc_s.
    assert (Q : starts "''" (s +++ "'" +++ e) = false).
    { apply starts_false. intros [r Hr]. destruct s as [|c s].
      - cbn [String.append] in Hr. injection Hr as Hr.
        destruct E as [b t B T]. destruct B; cbn [String.append] in Hr; try discriminate.
        destruct T as [-> | [x ->]]; discriminate.
      - cbn [String.append] in Hr. injection Hr as -> _. discriminate. }
    assert (P : split1 "'" (s +++ "'" +++ e) = Some (s, e)) by (apply split1_at; exact L).
    remember (s +++ "'" +++ e) as x. cbn [toml_value_start]. cbn - [starts split1].
    now rewrite Q, P.
Qed.
Lemma value_start_sound x v e :
  toml_value_start x = Some (v, e) -> exists vt, x = vt +++ e /\ value_text vt (to_setting v).
Proof.
  destruct x as [|c r]; [discriminate|]. unfold toml_value_start.
  destruct (Ascii.eqb_spec c "0") as [->|_].
  { intros [= <- <-]. exists "0". split; [reflexivity|constructor]. }
  destruct (between "1" "9" c) eqn:B.
  { destruct (span digit (String c r)) as [ds e'] eqn:S.
    destruct (digits_value ds 0 >? ULLONG_MAX) eqn:G; [discriminate|]. intros [= <- <-].
    destruct (span_split _ _ _ _ S) as (E & D & _). exists ds. split; [assumption|].
    apply digit19 in B as [B B']. destruct ds as [|c' ds].
    - cbn [span] in S. rewrite B in S. destruct (span digit r); discriminate.
    - cbn [String.append] in E. injection E as <- ->. rewrite digits_dnum in *. cbn [to_setting]. apply vt_number.
      + apply decimal_iff. exists c, ds. cbn [sforall] in D. apply andb_true_iff in D as [_ D]. auto.
      + change (2 ^ 64) with 18446744073709551616. unfold ULLONG_MAX in G.
        destruct (Z.gtb_spec (dnum (String c ds) 0) 18446744073709551615); [discriminate|lia]. }
  destruct (Ascii.eqb_spec c "t") as [->|_].
  { destruct (starts "true" (String "t" r)) eqn:S; [|discriminate]. intros [= <- <-].
    apply starts_true in S as [r' S]. cbn [String.append] in S. injection S as ->.
    exists "true". split; [reflexivity|constructor]. }
  destruct (Ascii.eqb_spec c "f") as [->|_].
  { destruct (starts "false" (String "f" r)) eqn:S; [|discriminate]. intros [= <- <-].
    apply starts_true in S as [r' S]. cbn [String.append] in S. injection S as ->.
    exists "false". split; [reflexivity|constructor]. }
  destruct (Ascii.eqb_spec c "'") as [->|_]; [|discriminate].
  destruct (starts "''" r); [discriminate|].
  destruct (split1 "'" r) as [[s e']|] eqn:S; [|discriminate]. intros [= <- <-].
  exists ("'" +++ s +++ "'"). assert (L : lacks "'" s /\ r = s +++ String "'" e').
  { clear -S. revert s S. induction r as [|c r IH]; intros s; cbn [split1]; [discriminate|].
    destruct (Ascii.eqb "'" c) eqn:C.
    - intros [= <- <-]. apply Ascii.eqb_eq in C as <-. split; reflexivity.
    - destruct (split1 "'" r) as [[a b]|] eqn:E; [|discriminate]. intros [= <- <-].
      destruct (IH a eq_refl) as [L ->]. split; [|reflexivity]. unfold lacks. cbn [has_char]. now rewrite C. }
  destruct L as [L ->]. split; [|now constructor].
  change ("'" +++ s +++ "'") with (String "'" (s +++ "'")). cbn [String.append]. now rewrite app_assoc_s.
Qed.
Lemma parse_value_iff x v :
  parse_toml_value x = Some v <-> exists vt e, x = vt +++ e /\ value_text vt (to_setting v) /\ value_end e.
Proof.
  unfold parse_toml_value. split.
  - destruct (toml_value_start x) as [[v' e]|] eqn:S; [|discriminate].
    destruct (String.eqb (skip_space e) "" || starts "#" (skip_space e)) eqn:E; [|discriminate].
    intros [= <-]. destruct (value_start_sound _ _ _ S) as (vt & -> & V). exists vt, e.
    repeat split; auto. now apply value_end_iff.
  - intros (vt & e & -> & V & E). destruct (value_start_complete _ _ _ V E) as (v' & -> & H).
    apply value_end_iff in E. rewrite E. f_equal.
    destruct v' as [[]| |], v as [[]| |]; cbn [to_setting] in H; congruence.
Qed.

(** *** Lines *)
Definition line_says (l : toml_line) (r : option (option (string * setting))) : Prop :=
  match l, r with
  | LineSkip, Some None => True
  | LineKey k v, Some (Some (k', s)) => k = k' /\ to_setting v = s
  | LineBad, None => True
  | _, _ => False
  end.
Lemma value_text_nonblank vt v e : value_text vt v -> starts_nonblank (vt +++ e).
Proof.
  intros [| | |s n D _|s L]; try reflexivity.
  apply decimal_iff in D as (c & r & -> & C & _). cbn [String.append starts_nonblank].
  destruct (qubes_isspace c) eqn:H; [|reflexivity]. apply isspace_iff in H as [-> | ->]; discriminate.
Qed.
Lemma after_key_stops b1 x : blanks b1 -> stops qubes_is_key_byte (b1 +++ "=" +++ x).
Proof. destruct 1; reflexivity. Qed.

Lemma parse_line_key k b1 b2 vt s e :
  key_name k -> blanks b1 -> blanks b2 -> value_text vt s -> value_end e ->
  exists v, parse_line (k +++ b1 +++ "=" +++ b2 +++ vt +++ e) = LineKey k v /\ to_setting v = s.
Proof.
  intros [c r L K] B1 B2 V E.
  assert (P : exists v, parse_toml_value (vt +++ e) = Some v /\ to_setting v = s).
  { destruct (value_start_complete _ _ _ V E) as (v & S & T). exists v. split; [|assumption].
    apply parse_value_iff. exists vt, e. rewrite T. auto. }
  destruct P as (v & P & T). exists v. split; [|assumption].
  cbn [String.append]. unfold parse_line.
  destruct (Ascii.eqb_spec c "#") as [->|_].
  { exfalso. unfold letter in L. change (nat_of_ascii "#") with 35%nat in L. lia. }
  rewrite (proj2 (letter_iff c) L).
  rewrite span_app; [|now apply key_chars_iff|now apply after_key_stops].
  rewrite (skip_space_app b1 (String "=" (b2 +++ vt +++ e)) B1); [|reflexivity].
  rewrite (skip_space_app b2 (vt +++ e) B2 (value_text_nonblank _ _ _ V)). now rewrite P.
Qed.

Lemma parse_line_complete l r : config_line l r -> exists x, parse_line l = x /\ line_says x (Some r).
Proof.
  intros [|s C|k b1 b2 vt v b3 t K B1 B2 V B3 T].
  - exists LineSkip. now split.
  - destruct C as [x ->]. exists LineSkip. split; [reflexivity|exact I].
  - assert (E : value_end (b3 +++ t)) by now constructor.
    destruct (parse_line_key k b1 b2 vt v _ K B1 B2 V E) as (w & P & H).
    exists (LineKey k w). now split.
Qed.
Lemma parse_line_sound l x : parse_line l = x -> x <> LineBad -> exists r, config_line l r /\ line_says x (Some r).
Proof.
  intros <- NB. destruct l as [|c l]; [exists None; split; [constructor|exact I]|].
  revert NB. unfold parse_line. destruct (Ascii.eqb_spec c "#") as [->|_].
  { intros _. exists None. split; [apply cl_comment; now exists l|exact I]. }
  destruct (between "a" "z" c || between "A" "Z" c) eqn:L; [|congruence].
  destruct (span qubes_is_key_byte l) as [k after] eqn:S.
  destruct (span_split _ _ _ _ S) as (-> & K & _).
  destruct (skip_space_split after) as (b1 & B1 & E1 & _).
  destruct (skip_space after) as [|d v] eqn:A; [congruence|].
  assert (D : {d = "="%char} + {d <> "="%char}) by apply Ascii.ascii_dec.
  destruct D as [->|D].
  2:{ intros NB. exfalso. apply NB. destruct d as [[] [] [] [] [] [] [] []]; try reflexivity. now elim D. }
  destruct (skip_space_split v) as (b2 & B2 & E2 & _).
  destruct (parse_toml_value (skip_space v)) as [w|] eqn:P; [|congruence]. intros _.
  apply parse_value_iff in P as (vt & e & E3 & V & VE).
  inversion VE as [b3 t B3 T EE]; subst e.
  exists (Some (String c k, to_setting w)). split; [|now split].
  rewrite E1, E2, E3.
  change (String c (k +++ b1 +++ String "=" (b2 +++ vt +++ b3 +++ t)))
    with (String c k +++ b1 +++ "=" +++ b2 +++ vt +++ b3 +++ t).
  constructor; auto. constructor; [now apply letter_iff|now apply key_chars_iff].
Qed.

(** *** Trailing blanks *)
Lemma chop_tail_split s : exists b, blanks b /\ s = chop_tail s +++ b.
Proof.
  induction s as [|c s (b & B & E)]; [exists ""; split; [constructor|reflexivity]|].
  cbn [chop_tail]. destruct (chop_tail s) as [|d r] eqn:C.
  - cbn [String.append] in E. subst b. destruct (qubes_isspace c) eqn:I.
    + exists (String c s). split; [now apply blanks_cons|reflexivity].
    + exists s. split; [assumption|reflexivity].
  - exists b. split; [assumption|]. cbn [String.append] in *. congruence.
Qed.
Lemma chop_tail_blanks b : blanks b -> chop_tail b = "".
Proof. induction 1; cbn [chop_tail]; [reflexivity| |]; now rewrite IHblanks. Qed.
Lemma chop_tail_app s b : blanks b -> chop_tail (s +++ b) = chop_tail s.
Proof.
  intros B. induction s as [|c s IH]; cbn [String.append chop_tail]; [now apply chop_tail_blanks|].
  now rewrite IH.
Qed.
Lemma chop_tail_keep s c r : chop_tail (String c r) = String c r -> chop_tail (s +++ String c r) = s +++ String c r.
Proof.
  intros H. induction s as [|d s IH]; [exact H|]. cbn [String.append chop_tail]. rewrite IH.
  destruct (s +++ String c r) eqn:E; [destruct s; discriminate|reflexivity].
Qed.

Lemma config_line_blanks l b r : l <> "" -> blanks b -> config_line l r -> config_line (l +++ b) r.
Proof.
  intros NE B H. revert NE. destruct H as [|s [x ->]|k b1 b2 vt v b3 t K B1 B2 V B3 T]; intros NE; [congruence| |].
  - apply cl_comment. exists (x +++ b). apply app_assoc_s.
  - rewrite !app_assoc_s. destruct T as [-> | [x ->]].
    + rewrite <- (app_nil_s ("" +++ b)). cbn [String.append].
      replace (b3 +++ b +++ "") with ((b3 +++ b) +++ "") by apply app_assoc_s.
      constructor; auto. now apply blanks_app.
    + rewrite app_assoc_s. constructor; auto. right. now exists (x +++ b).
Qed.

(** text that ends with a character that is not a blank *)
Definition ends_solid (s : string) : Prop := exists a c, s = a +++ str1 c /\ qubes_isspace c = false.
Lemma solid_chop s : ends_solid s -> chop_tail s = s.
Proof.
  intros (a & c & -> & C). unfold str1. apply chop_tail_keep. cbn [chop_tail]. now rewrite C.
Qed.
Lemma solid_app a s : ends_solid s -> ends_solid (a +++ s).
Proof. intros (x & c & -> & C). exists (a +++ x), c. split; [symmetry; apply app_assoc_s|assumption]. Qed.
Lemma value_text_solid vt v : value_text vt v -> ends_solid vt.
Proof.
  intros [| | |s n D N|s L].
  - exists "tru", "e"%char. now split.
  - exists "fals", "e"%char. now split.
  - exists "", "0"%char. now split.
  - assert (X : forall c d, digit_of c d -> qubes_isspace c = false).
    { intros c d H. apply digit_of_iff in H as [H _]. destruct (qubes_isspace c) eqn:I; [|reflexivity].
      apply isspace_iff in I as [-> | ->]; discriminate. }
    destruct D as [c d H Z0|s n c d D H].
    + exists "", c. split; [reflexivity|eauto].
    + exists s, c. split; [reflexivity|eauto].
  - exists ("'" +++ s), "'"%char. split; reflexivity.
Qed.
Lemma chop_blanks_app a s : a <> "" -> chop_tail s <> "" -> chop_blanks (a +++ s) = a +++ chop_tail s.
Proof.
  intros A. destruct a as [|c a]; [congruence|]. clear A. intros N. cbn [String.append chop_blanks]. f_equal.
  induction a as [|d a IH]; [reflexivity|]. cbn [String.append chop_tail]. rewrite IH.
  destruct (a +++ chop_tail s) eqn:E; [|reflexivity]. destruct a; [now elim N|discriminate].
Qed.

Lemma config_line_chop l r : config_line l r -> config_line (chop_blanks l) r.
Proof.
  intros [|s [x ->]|k b1 b2 vt v b3 t K B1 B2 V B3 T]; [constructor| |].
  - cbn [String.append chop_blanks]. apply cl_comment. now exists (chop_tail x).
  - assert (KN : k <> "") by (destruct K; discriminate).
    destruct T as [-> | [x ->]].
    + rewrite app_nil_s.
      assert (H : chop_tail (b1 +++ "=" +++ b2 +++ vt +++ b3) = b1 +++ "=" +++ b2 +++ vt +++ "").
      { rewrite <- !app_assoc_s. rewrite chop_tail_app; [|assumption]. rewrite app_nil_s.
        apply solid_chop, solid_app, value_text_solid with v. assumption. }
      rewrite chop_blanks_app; [|assumption|].
      * rewrite H. apply (cl_setting k b1 b2 vt v "" ""); auto. constructor.
      * rewrite H. destruct b1; discriminate.
    + assert (H : chop_tail (b1 +++ "=" +++ b2 +++ vt +++ b3 +++ "#" +++ x)
                = b1 +++ "=" +++ b2 +++ vt +++ b3 +++ "#" +++ chop_tail x).
      { assert (G : forall a, chop_tail (a +++ "#" +++ x) = a +++ "#" +++ chop_tail x).
        { induction a as [|c a IH].
          - cbn [String.append chop_tail]. destruct (chop_tail x); reflexivity.
          - cbn [String.append chop_tail] in *. rewrite IH. destruct a; reflexivity. }
        rewrite <- !(app_assoc_s b1), <- !(app_assoc_s _ b2), <- !(app_assoc_s _ vt), <- !(app_assoc_s _ b3).
        apply G. }
      rewrite chop_blanks_app; [|assumption|].
      * rewrite H. apply (cl_setting k b1 b2 vt v b3 ("#" +++ chop_tail x)); auto. right. now exists (chop_tail x).
      * rewrite H. destruct b1; discriminate.
Qed.
Lemma chop_blanks_split l : exists b, blanks b /\ l = chop_blanks l +++ b /\ (l <> "" -> chop_blanks l <> "").
Proof.
  destruct l as [|c l]; [exists ""; repeat split; try constructor; congruence|].
  destruct (chop_tail_split l) as (b & B & E). exists b. cbn [chop_blanks].
  split; [assumption|]. split; [cbn [String.append]; congruence|discriminate].
Qed.
Lemma config_line_unchop l r : config_line (chop_blanks l) r -> config_line l r.
Proof.
  destruct (chop_blanks_split l) as (b & B & E & N). intros H.
  destruct l as [|c l]; [exact H|]. rewrite E. apply config_line_blanks; auto. apply N. discriminate.
Qed.

(** a line's meaning, after trailing blanks are dropped *)
Lemma line_iff l :
  (exists r, config_line l r /\ line_says (parse_line (chop_blanks l)) (Some r)) \/
  (parse_line (chop_blanks l) = LineBad /\ forall r, ~ config_line l r).
Proof.
  destruct (parse_line (chop_blanks l)) eqn:P.
  - left. destruct (parse_line_sound _ _ P) as (r & C & S); [discriminate|].
    exists r. split; [now apply config_line_unchop|assumption].
  - right. split; [reflexivity|]. intros r C. apply config_line_chop, parse_line_complete in C as (x & <- & S).
    rewrite P in S. exact S.
  - left. destruct (parse_line_sound _ _ P) as (r & C & S); [discriminate|].
    exists r. split; [now apply config_line_unchop|assumption].
Qed.
Lemma config_line_fun l r r' : config_line l r -> config_line l r' -> r = r'.
Proof.
  intros H H'. apply parse_line_complete in H as (x & <- & S). apply parse_line_complete in H' as (x & <- & S').
  destruct (parse_line l); cbn [line_says] in *.
  - destruct r as [[]|], r' as [[]|]; try contradiction; reflexivity.
  - contradiction.
  - destruct r as [[k s]|], r' as [[k' s']|]; try contradiction. destruct S as [S1 S2], S' as [S1' S2']. congruence.
Qed.

(** *** Files *)
Lemma drop_cr_app s c : drop_cr (s +++ str1 c) = if Ascii.eqb c CR then s else s +++ str1 c.
Proof.
  induction s as [|d s IH].
  - unfold str1. cbn [String.append drop_cr]. now destruct (Ascii.eqb c CR).
  - cbn [String.append]. destruct (s +++ str1 c) as [|x y] eqn:E; [destruct s; discriminate|].
    cbn [drop_cr] in *. rewrite IH. destruct (Ascii.eqb c CR); reflexivity.
Qed.
Lemma string_snoc (s : string) : s = "" \/ exists r c, s = r +++ str1 c.
Proof.
  induction s as [|c s [-> | (r & d & ->)]]; [now left| |].
  - right. now exists "", c.
  - right. now exists (String c r), d.
Qed.
Lemma snoc_inj_s a b c d : a +++ str1 c = b +++ str1 d -> a = b /\ c = d.
Proof.
  revert b. induction a as [|x a IH]; intros [|y b]; cbn [String.append]; unfold str1 in *.
  - now intros [= ->].
  - intros H. injection H as _ H. destruct b; discriminate.
  - intros H. injection H as _ H. destruct a; discriminate.
  - intros H. injection H as -> H. destruct (IH _ H) as [-> ->]. auto.
Qed.
Lemma drop_cr_id s : (forall r, s <> r +++ str1 CR) -> drop_cr s = s.
Proof.
  intros H. destruct (string_snoc s) as [-> | (r & c & ->)]; [reflexivity|]. rewrite drop_cr_app.
  destruct (Ascii.eqb_spec c CR) as [->|_]; [now elim (H r)|reflexivity].
Qed.

(** the lines that are parsed *)
Definition clean (l : string * bool) : string := if snd l then drop_cr (fst l) else fst l.
Lemma get_lines_lacks s cur : lacks NL s ->
  get_lines s cur = match cur +++ s with EmptyString => [] | l => [(l, false)] end.
Proof.
  revert cur. induction s as [|c s IH]; intros cur L; cbn [get_lines].
  - rewrite app_nil_s. now destruct cur.
  - unfold lacks in L. cbn [has_char] in L. apply orb_false_iff in L as [L1 L2].
    rewrite Ascii.eqb_sym in L1. rewrite L1, IH; auto. rewrite app_assoc_s. reflexivity.
Qed.
Lemma get_lines_line a rest cur : lacks NL a ->
  get_lines (a +++ String NL rest) cur = (cur +++ a, true) :: get_lines rest "".
Proof.
  revert cur. induction a as [|c a IH]; intros cur L; cbn [String.append get_lines].
  - rewrite Ascii.eqb_refl, app_nil_s. reflexivity.
  - unfold lacks in L. cbn [has_char] in L. apply orb_false_iff in L as [L1 L2].
    rewrite Ascii.eqb_sym in L1. rewrite L1, IH; auto. rewrite app_assoc_s. reflexivity.
Qed.
Lemma split_at c s : lacks c s \/ exists a b, s = a +++ String c b /\ lacks c a.
Proof.
  induction s as [|d s IH]; [now left|].
  destruct (Ascii.eqb_spec c d) as [->|N].
  - right. now exists "", s.
  - destruct IH as [L | (a & b & -> & L)].
    + left. unfold lacks in *. cbn [has_char]. now rewrite (proj2 (Ascii.eqb_neq c d) N).
    + right. exists (String d a), b. split; [reflexivity|]. unfold lacks in *. cbn [has_char].
      now rewrite (proj2 (Ascii.eqb_neq c d) N).
Qed.
Lemma lacks_app c a b : lacks c (a +++ b) <-> lacks c a /\ lacks c b.
Proof.
  unfold lacks. induction a as [|x a IH]; cbn [String.append has_char]; [tauto|].
  rewrite !orb_false_iff, IH. tauto.
Qed.
Lemma file_lines_exist : forall n s, (String.length s < n)%nat ->
  file_lines s (map clean (get_lines s "")).
Proof.
  induction n as [|n IH]; intros s Hn; [lia|].
  destruct (split_at NL s) as [L | (a & b & -> & L)].
  - rewrite get_lines_lacks by assumption. cbn [String.append].
    destruct s as [|c s]; [constructor|]. cbn [map clean fst snd]. constructor; [discriminate|assumption].
  - rewrite get_lines_line by assumption. cbn [map String.append]. unfold clean at 1. cbn [fst snd].
    assert (R : file_lines b (map clean (get_lines b ""))).
    { apply IH. clear -Hn. induction a as [|x a IHa]; cbn [String.append String.length] in *; lia. }
    change (a +++ String NL b) with (a +++ str1 NL +++ b).
    destruct (string_snoc a) as [-> | (r & c & ->)].
    + apply (fl_lf ""); auto. intros r Hr. destruct r; discriminate.
    + rewrite drop_cr_app. destruct (Ascii.eqb_spec c CR) as [->|N].
      * rewrite app_assoc_s. apply fl_crlf; auto. now apply lacks_app in L as [L _].
      * apply fl_lf; auto. intros r' Hr. apply snoc_inj_s in Hr as [_ Hr]. congruence.
Qed.
Lemma file_lines_unique s ls : file_lines s ls -> ls = map clean (get_lines s "").
Proof.
  induction 1 as [|s NE L|s rest ls L NC F IH|s rest ls L F IH].
  - reflexivity.
  - rewrite get_lines_lacks by assumption. cbn [String.append]. destruct s; [congruence|reflexivity].
  - change (str1 NL +++ rest) with (String NL rest). rewrite get_lines_line by assumption.
    cbn [map String.append]. unfold clean at 1. cbn [fst snd]. now rewrite drop_cr_id, <- IH.
  - rewrite <- app_assoc_s. change (str1 NL +++ rest) with (String NL rest).
    rewrite get_lines_line; [|apply lacks_app; split; [assumption|reflexivity]].
    cbn [map String.append]. unfold clean at 1. cbn [fst snd]. rewrite drop_cr_app, Ascii.eqb_refl. now rewrite <- IH.
Qed.
Lemma file_lines_iff s ls : file_lines s ls <-> ls = map clean (get_lines s "").
Proof.
  split; [apply file_lines_unique|]. intros ->. apply (file_lines_exist (S (String.length s))). lia.
Qed.
Lemma get_lines_nul s cur : lacks NUL cur ->
  (lacks NUL s <-> forall l, In l (get_lines s cur) -> lacks NUL (fst l)).
Proof.
  revert cur. induction s as [|c s IH]; intros cur C; cbn [get_lines].
  - split; [|reflexivity]. intros _ l. destruct cur; [intros []|]. intros [<-|[]]. exact C.
  - destruct (Ascii.eqb_spec c NL) as [->|N].
    + change (lacks NUL (String NL s)) with (lacks NUL s). rewrite (IH "" eq_refl). split.
      * intros H l [<-|I]; auto.
      * intros H l I. apply H. now right.
    + destruct (Ascii.eqb_spec NUL c) as [<-|NN].
      * split; [intros H; exfalso; unfold lacks in H; cbn [has_char] in H; now rewrite Ascii.eqb_refl in H|].
        intros H. exfalso.
        assert (X : exists l, In l (get_lines s (cur +++ str1 NUL)) /\ begins (cur +++ str1 NUL) (fst l)).
        { assert (G : forall s x, x <> "" -> exists l, In l (get_lines s x) /\ begins x (fst l)).
          { clear. induction s as [|d s IHs]; intros x NE; cbn [get_lines].
            - destruct x as [|y x]; [congruence|]. eexists. split; [now left|]. exists "". cbn [fst]. now rewrite app_nil_s.
            - destruct (Ascii.eqb d NL).
              + eexists. split; [now left|]. exists "". cbn [fst]. now rewrite app_nil_s.
              + destruct (IHs (x +++ str1 d)) as (l & I & r & E); [destruct x; discriminate|].
                exists l. split; [assumption|]. rewrite E, app_assoc_s. now exists (str1 d +++ r). }
          apply G. destruct cur; discriminate. }
        destruct X as (l & I & r & E). specialize (H l I). rewrite E in H.
        apply lacks_app in H as [H _]. apply lacks_app in H as [_ H]. discriminate.
      * assert (C' : lacks NUL (cur +++ str1 c)).
        { apply lacks_app. split; [assumption|]. unfold lacks. cbn [str1 has_char].
          now rewrite (proj2 (Ascii.eqb_neq NUL c) NN). }
        rewrite <- (IH _ C'). unfold lacks. cbn [has_char]. now rewrite (proj2 (Ascii.eqb_neq NUL c) NN).
Qed.

(** *** Settings *)
Lemma in_snoc {A} (x : A) (l : list A) y : In x (l ++ [y]) <-> In x l \/ x = y.
Proof. rewrite in_app_iff. cbn [In]. split; intros [|]; auto; destruct H; auto; contradiction. Qed.

Lemma well_formed_prefix a b : well_formed (a ++ b) -> well_formed a.
Proof.
  intros [H1 H2]. split.
  - intros k v I K. apply H1; auto. apply in_app_iff. now left.
  - intros x y k v v' -> K I. apply (H2 x (y ++ b) k v v'); auto.
    + now rewrite <- app_assoc.
    + rewrite app_assoc. apply in_app_iff. now left.
Qed.
Lemma well_formed_snoc es k v :
  well_formed (es ++ [(k, v)]) <->
  well_formed es /\ (In k known -> allowed k v /\ forall v', ~ In (k, v') es).
Proof.
  split.
  - intros H. split; [now apply well_formed_prefix in H|]. destruct H as [H1 H2]. intros K. split.
    + apply H1; auto. apply in_snoc. now right.
    + intros v' I. apply (H2 es [] k v v'); auto. now rewrite app_nil_r.
  - intros [[H1 H2] H3]. split.
    + intros k' v' I K. apply in_snoc in I as [I|E]; [eauto|]. injection E as -> ->. now apply H3.
    + intros a b k' v' v'' E K I.
      destruct b as [|e b] using rev_ind.
      * apply app_inj_tail in E as [-> E]. injection E as -> ->. rewrite app_nil_r in I.
        now apply (proj2 (H3 K) v'').
      * clear IHb. rewrite app_comm_cons, app_assoc in E. apply app_inj_tail in E as [-> <-].
        rewrite app_assoc in I. apply in_snoc in I as [I|E].
        -- now apply (H2 a b k' v' v'').
        -- injection E as <- <-. apply (proj2 (H3 K) v'). apply in_app_iff. right. now left.
Qed.

(** the state after the settings [es] *)
Definition after (es : list (string * setting)) (st : config * list string) : Prop :=
  well_formed es /\ in_effect es (to_settings (fst st)) /\
  forall k, In k (snd st) <-> In k known /\ exists v, In (k, v) es.

Lemma in_other (k k' : string) (v v' : setting) es : k <> k' -> (In (k, v) (es ++ [(k', v')]) <-> In (k, v) es).
Proof. intros N. rewrite in_snoc. split; [intros [|E]; [auto|congruence]|auto]. Qed.
Lemma in_same (k : string) (v v' : setting) es : (forall v, ~ In (k, v) es) -> (In (k, v) (es ++ [(k, v')]) <-> v = v').
Proof.
  intros N. rewrite in_snoc. split; [intros [I|E]; [now elim (N v)|congruence]|intros ->; now right].
Qed.

Lemma dup_iff es st k : after es st -> In k known ->
  (existsb (String.eqb k) (snd st) = true <-> exists v, In (k, v) es).
Proof.
  intros (_ & _ & S) K. rewrite existsb_exists. split.
  - intros (x & I & E). apply String.eqb_eq in E as <-. now apply S.
  - intros H. exists k. split; [apply S; auto|apply String.eqb_refl].
Qed.
Lemma seen_snoc es st k s (seen' : list string) (cf' : config) :
  after es st -> In k known -> seen' = k :: snd st ->
  forall x, In x (snd (cf', seen')) <-> In x known /\ exists v, In (x, v) (es ++ [(k, s)]).
Proof.
  intros (_ & _ & S) K -> x. cbn [snd In]. rewrite S. split.
  - intros [<-|[Kx (v & I)]].
    + split; [assumption|]. exists s. apply in_snoc. now right.
    + split; [assumption|]. exists v. apply in_snoc. now left.
  - intros [Kx (v & I)]. apply in_snoc in I as [I|E]; [right; eauto|left; congruence].
Qed.

Ltac keys := first [discriminate | congruence | assumption].
Ltac bad_type K := let H := fresh in let A := fresh in
  intros H; apply well_formed_snoc in H as [_ H]; destruct (H K) as [A _]; cbn [to_setting] in A; inversion A; try lia.
Ltac fields F N :=
  destruct F as [F1 F2 F3 F4 F5]; constructor;
  cbn [to_settings s_wait s_user s_descriptor s_service_eof s_client_eof fst
       cf_wait_for_session cf_user cf_send_service_descriptor cf_exit_on_stdout_eof cf_exit_on_stdin_eof] in *;
  intros;
  repeat match goal with
  | |- context [In (?k, ?v) (_ ++ [(?k, ?v')])] => rewrite (in_same k v v' _ N)
  | |- context [In (?k, ?v) (_ ++ [(?k', ?v')])] => rewrite (in_other k k' v v' _) by discriminate
  end; auto.
Lemma key_step es st k v :
  after es st -> (forall n, v = TInt n -> 0 <= n) ->
  match toml_key k v st with
  | Some st' => after (es ++ [(k, to_setting v)]) st'
  | None => ~ well_formed (es ++ [(k, to_setting v)])
  end.
Proof.
  intros A NN. pose proof (dup_iff es st k A) as D. pose proof (seen_snoc es st k (to_setting v)) as S.
  destruct st as [cf seen]. destruct A as (W & F & Sn). cbn [snd] in *.
  assert (B : forall st', In k known -> (forall v, ~ In (k, v) es) -> allowed k (to_setting v) ->
                in_effect (es ++ [(k, to_setting v)]) (to_settings (fst st')) -> snd st' = k :: seen ->
                after (es ++ [(k, to_setting v)]) st').
  { intros st' K N Al Ef E. split; [apply well_formed_snoc; auto|]. split; [assumption|].
    destruct st' as [cf' seen']. cbn [snd] in E. apply S; auto. split; [|split]; assumption. }
  assert (G : In k known -> existsb (String.eqb k) seen = true -> ~ well_formed (es ++ [(k, to_setting v)])).
  { intros K E H. apply well_formed_snoc in H as [_ H]. destruct (H K) as [_ N].
    apply (D K) in E as [x I]. now elim (N x). }
  assert (N : In k known -> existsb (String.eqb k) seen = false -> forall v, ~ In (k, v) es).
  { intros K E x I. assert (T : existsb (String.eqb k) seen = true) by (apply (D K); eauto). congruence. }
  clear D S. unfold toml_key.
  destruct (String.eqb_spec k "wait-for-session") as [->|N1].
  { assert (K : In "wait-for-session" known) by (now left).
    destruct (existsb _ seen); [auto|]. specialize (N K eq_refl).
    destruct v as [b|n|u].
    - apply B; auto; [destruct b; constructor|]. cbn [fst]. fields F N.
      destruct b; cbn [to_setting]; (split; [intros X; try discriminate X; auto|intros [X|X]; try discriminate X; auto]).
    - destruct (Z.ltb_spec n 2) as [L|L].
      + assert (Hn : n = 0 \/ n = 1) by (specialize (NN n eq_refl); lia). destruct Hn as [->| ->].
        * apply B; auto; [constructor|]. fields F N. split; [discriminate|]. intros [X|X]; discriminate.
        * apply B; auto; [constructor|]. fields F N. split; auto.
      + bad_type K.
    - bad_type K. }
  destruct (String.eqb_spec k "exit-on-client-eof") as [->|N2].
  { assert (K : In "exit-on-client-eof" known) by (right; now left).
    destruct (existsb _ seen); [auto|]. specialize (N K eq_refl).
    destruct v as [b|m|u]; [|bad_type K|bad_type K].
    apply B; auto; [destruct b; constructor|]. cbn [fst]. fields F N.
    destruct b; cbn [to_setting negb]; split; congruence. }
  destruct (String.eqb_spec k "exit-on-service-eof") as [->|N3].
  { assert (K : In "exit-on-service-eof" known) by (do 2 right; now left).
    destruct (existsb _ seen); [auto|]. specialize (N K eq_refl).
    destruct v as [b|m|u]; [|bad_type K|bad_type K].
    apply B; auto; [destruct b; constructor|]. cbn [fst]. fields F N.
    destruct b; cbn [to_setting negb]; split; congruence. }
  destruct (String.eqb_spec k "skip-service-descriptor") as [->|N4].
  { assert (K : In "skip-service-descriptor" known) by (do 3 right; now left).
    destruct (existsb _ seen); [auto|]. specialize (N K eq_refl).
    destruct v as [b|m|u]; [|bad_type K|bad_type K].
    apply B; auto; [destruct b; constructor|]. cbn [fst]. fields F N.
    destruct b; cbn [to_setting negb]; split; congruence. }
  destruct (String.eqb_spec k "force-user") as [->|N5].
  { assert (K : In "force-user" known) by (do 4 right; now left).
    destruct (existsb _ seen); [auto|]. specialize (N K eq_refl).
    destruct v as [b|m|u]; [destruct b; bad_type K|bad_type K|].
    apply B; auto; [constructor|]. cbn [fst]. fields F N.
    cbn [to_setting]. split; congruence. }
  assert (NK : ~ In k known) by (intros [X|[X|[X|[X|[X|[]]]]]]; congruence).
  clear B G N. split; [apply well_formed_snoc; split; [assumption|contradiction]|]. split.
  - destruct F as [F1 F2 F3 F4 F5]. constructor; intros; rewrite !in_other by congruence; auto.
  - intros x. cbn [snd]. rewrite Sn. split; intros [Kx (w & I)]; split; auto; exists w.
    + apply in_snoc. now left.
    + apply in_snoc in I as [I|I]; [assumption|]. injection I as -> _. contradiction.
Qed.

(** *** The whole file *)
Lemma decimal_nonneg s n : decimal s n -> 0 <= n.
Proof.
  intros H. apply decimal_iff in H as (c & r & -> & C & _ & R & ->).
  assert (X := dnum_range (String c r)). cbn [sforall] in X. rewrite C, R in X. now destruct (X eq_refl).
Qed.
Lemma config_line_nonneg l k n : config_line l (Some (k, Number n)) -> 0 <= n.
Proof.
  inversion 1 as [| |? ? ? ? ? ? ? ? ? ? V]; subst. inversion V; subst; [lia|]. eauto using decimal_nonneg.
Qed.
Lemma says_fun ls es es' : says ls es -> says ls es' -> es = es'.
Proof.
  intros H. revert es'. induction H as [|l ls es C S IH|l ls e es C S IH]; intros es' H'; inversion H'; subst; auto;
  try match goal with A : config_line ?l ?x, B : config_line ?l ?y |- _ => assert (x = y) by (eapply config_line_fun; eassumption) end;
  try congruence.
  replace e0 with e by congruence. f_equal. now apply IH.
Qed.
Lemma loop_spec ls : forall es0 st, after es0 st ->
  match toml_loop ls st with
  | Some cf => (forall l, In l ls -> lacks NUL (fst l)) /\
      exists es, says (map clean ls) es /\ well_formed (es0 ++ es) /\ in_effect (es0 ++ es) (to_settings cf)
  | None => ~ ((forall l, In l ls -> lacks NUL (fst l)) /\
      exists es, says (map clean ls) es /\ well_formed (es0 ++ es))
  end.
Proof.
  induction ls as [|[l nw] ls IH]; intros es0 st A; cbn [toml_loop].
  - split; [intros ? []|]. exists []. rewrite app_nil_r. destruct A as (W & E & _). split; [constructor|auto].
  - destruct (has_char NUL l) eqn:U.
    { intros [H _]. specialize (H _ (or_introl eq_refl)). cbn [fst] in H. unfold lacks in H. congruence. }
    assert (NU : forall P : Prop, (forall x, In x ((l, nw) :: ls) -> lacks NUL (fst x)) /\ P <->
                 (forall x, In x ls -> lacks NUL (fst x)) /\ P).
    { intros P. split; intros [H X]; split; auto; intros x I; [apply H; now right|].
      destruct I as [<-|I]; auto. }
    change (if nw then drop_cr l else l) with (clean (l, nw)).
    destruct (line_iff (clean (l, nw))) as [(r & C & S)|[P NC]].
    + destruct (parse_line (chop_blanks (clean (l, nw)))) as [| |k v] eqn:P; cbn [line_says] in S.
      * destruct r; [contradiction|]. specialize (IH es0 st A).
        destruct (toml_loop ls st) as [cf|]; rewrite NU; cbn [map].
        -- destruct IH as [H (es & Sy & R)]. split; [assumption|]. exists es. split; [now apply sy_skip|assumption].
        -- intros [H (es & Sy & R)]. apply IH. split; [assumption|]. exists es. split; [|assumption].
           inversion Sy as [|? ? ? ? ?|? ? e es' C' Sy']; subst; [assumption|].
           pose proof (config_line_fun _ _ _ C C'). discriminate.
      * contradiction.
      * destruct r as [[k' s]|]; [|contradiction]. destruct S as [<- <-].
        assert (NN : forall n, v = TInt n -> 0 <= n).
        { intros n ->. eapply config_line_nonneg. exact C. }
        pose proof (key_step es0 st k v A NN) as K. destruct (toml_key k v st) as [st'|].
        -- specialize (IH _ st' K). destruct (toml_loop ls st') as [cf|]; rewrite NU; cbn [map].
           ++ destruct IH as [H (es & Sy & R)]. split; [assumption|]. exists ((k, to_setting v) :: es).
              rewrite <- app_assoc in R. split; [now apply sy_set|assumption].
           ++ intros [H (es & Sy & R)]. apply IH. split; [assumption|].
              inversion Sy as [|? ? ? C' Sy'|? ? e es' C' Sy']; subst;
                pose proof (config_line_fun _ _ _ C C') as X; [discriminate|]. injection X as <-.
              exists es'. rewrite <- app_assoc. now split.
        -- rewrite NU. cbn [map]. intros [H (es & Sy & R)]. apply K.
           inversion Sy as [|? ? ? C' Sy'|? ? e es' C' Sy']; subst;
             pose proof (config_line_fun _ _ _ C C') as X; [discriminate|]. injection X as <-.
           apply (well_formed_prefix _ es'). now rewrite <- app_assoc.
    + rewrite P, NU. cbn [map]. intros [H (es & Sy & R)]. inversion Sy; subst; eapply NC; eassumption.
Qed.
Lemma after_nil c : to_settings c = mkSettings false None true false false -> after [] (c, []).
Proof.
  intros E. split; [split; [intros ? ? []|intros a b k v v' H; destruct a; discriminate]|]. split.
  - cbn [fst]. rewrite E. constructor; cbn; intros; (split; [|tauto]); congruence.
  - intros k. cbn [snd]. split; [intros []|]. intros [_ [v []]].
Qed.
Theorem parse_config_spec content :
  match qubes_toml_config_parse content no_config with
  | Some cf => exists es, config_file content es /\ in_effect es (to_settings cf)
  | None => forall es, ~ config_file content es
  end.
Proof.
  unfold qubes_toml_config_parse.
  pose proof (loop_spec (get_lines content "") [] _ (after_nil no_config eq_refl)) as H.
  change (mkConfig false (cf_user no_config) true (cf_exit_on_stdout_eof no_config) (cf_exit_on_stdin_eof no_config))
    with no_config.
  destruct (toml_loop (get_lines content "") (no_config, [])) as [cf|].
  - destruct H as [U (es & S & W & E)]. cbn [app] in *. exists es. split; [|assumption].
    split; [now apply (get_lines_nul content "" eq_refl)|].
    exists (map clean (get_lines content "")). split; [now apply file_lines_iff|auto].
  - intros es [U (ls & L & S & W)]. apply H. split; [now apply (get_lines_nul content "" eq_refl)|].
    apply file_lines_iff in L as ->. eauto.
Qed.
Lemma config_file_fun content es es' : config_file content es -> config_file content es' -> es = es'.
Proof.
  intros [_ (ls & L & S & _)] [_ (ls' & L' & S' & _)]. apply file_lines_iff in L as ->. apply file_lines_iff in L' as ->.
  eapply says_fun; eassumption.
Qed.
Lemma in_effect_fun es s s' : in_effect es s -> in_effect es s' -> s = s'.
Proof.
  intros [A1 A2 A3 A4 A5] [B1 B2 B3 B4 B5]. destruct s as [w u d se ce], s' as [w' u' d' se' ce'].
  cbn [s_wait s_user s_descriptor s_service_eof s_client_eof] in *.
  assert (T : forall a b P, (a = true <-> P) -> (b = true <-> P) -> a = b).
  { intros a b P X Y. destruct a, b; auto; [symmetry; apply Y, X, eq_refl|apply X, Y, eq_refl]. }
  assert (F : forall a b P, (a = false <-> P) -> (b = false <-> P) -> a = b).
  { intros a b P X Y. destruct a, b; auto; [apply X, Y, eq_refl|symmetry; apply Y, X, eq_refl]. }
  rewrite (T w w' _ A1 B1), (F d d' _ A3 B3), (T se se' _ A4 B4), (T ce ce' _ A5 B5).
  assert (U : u = u').
  { destruct u as [x|]; [symmetry; apply B2, A2, eq_refl|]. destruct u' as [x|]; [apply A2, B2, eq_refl|reflexivity]. }
  now rewrite U.
Qed.
Theorem parse_config_iff content cf :
  qubes_toml_config_parse content no_config = Some cf <->
  exists es, config_file content es /\ in_effect es (to_settings cf).
Proof.
  pose proof (parse_config_spec content) as H. split.
  - intros E. now rewrite E in H.
  - intros (es & C & I). destruct (qubes_toml_config_parse content no_config) as [cf'|]; [|now elim (H es)].
    destruct H as (es' & C' & I'). rewrite (config_file_fun _ _ _ C' C) in I'.
    pose proof (in_effect_fun _ _ _ I I') as E. destruct cf, cf'. unfold to_settings in E.
    cbn in E. injection E as -> -> -> -> ->. reflexivity.
Qed.

(** *** Which file is read *)
Lemma find_in_has fs d n : size (in_dir d n) < 1024 -> has_file fs (in_dir d n) ->
  exists k, find_in fs d n 1024 false = Some (Found (in_dir d n) k).
Proof.
  intros S H. rewrite size_in_dir in S. unfold find_in. change zlen with size.
  destruct (Z.geb_spec (size d + size n + 1) 1024); [lia|].
  fold (in_dir d n). destruct H as [k E|t k E]; rewrite E; eauto.
Qed.
Lemma find_in_lacks fs d n : size (in_dir d n) < 1024 -> no_file fs (in_dir d n) ->
  find_in fs d n 1024 false = None.
Proof.
  intros S H. rewrite size_in_dir in S. unfold find_in. change zlen with size.
  destruct (Z.geb_spec (size d + size n + 1) 1024); [lia|].
  fold (in_dir d n). destruct H as [E|t E]; now rewrite E.
Qed.
Lemma find_in_false fs d n r : find_in fs d n 1024 false = r ->
  match r with
  | None => no_file fs (in_dir d n)
  | Some (Found p k) => p = in_dir d n /\ has_file fs p
  | Some FindError => True
  | _ => False
  end.
Proof.
  intros <-. unfold find_in. destruct (_ >=? _); [exact I|]. fold (in_dir d n).
  destruct (fs (in_dir d n)) as [| |k|t []] eqn:E; try exact I.
  - now constructor.
  - split; [reflexivity|]. now apply hf_file with k.
  - now apply nf_dangling with t.
  - split; [reflexivity|]. now apply hf_link with t k.
Qed.
Lemma find_loop_false fs dirs n :
  match find_loop fs dirs n 1024 false with
  | NotFound => forall d, In d dirs -> no_file fs (in_dir d n)
  | Found p k => exists before d after, dirs = before ++ d :: after /\
      (forall d', In d' before -> no_file fs (in_dir d' n)) /\ p = in_dir d n /\ has_file fs p
  | FindError => True
  | FoundLink _ => False
  end.
Proof.
  induction dirs as [|d dirs IH]; cbn [find_loop]; [intros ? []|].
  pose proof (find_in_false fs d n _ eq_refl) as F. destruct (find_in fs d n 1024 false) as [[p k|t| |]|]; auto.
  - destruct F as [-> F]. exists [], d, dirs. split; [reflexivity|]. split; [intros ? []|auto].
  - contradiction.
  - destruct (find_loop fs dirs n 1024 false) as [p k|t| |]; auto.
    + destruct IH as (b & x & a & -> & N & R). exists (d :: b), x, a. split; [reflexivity|]. split; [|assumption].
      intros d' [<-|I]; auto.
    + intros d' [<-|I]; auto.
Qed.
Lemma find_config_false fs path dirs n : search_path path dirs ->
  match find_file fs path n 1024 false with
  | NotFound => no_config_named fs dirs n
  | Found p k => first_config fs dirs n p
  | FindError => True
  | FoundLink _ => False
  end.
Proof.
  intros P. unfold find_file. change zlen with size. unfold NAME_MAX. rewrite (search_dirs_path _ _ P).
  destruct (Z.gtb_spec (size n) 255).
  - left. lia.
  - pose proof (find_loop_false fs dirs n) as F. destruct (find_loop fs dirs n 1024 false); auto.
    + split; [lia|]. exact F.
    + now right.
Qed.
Lemma find_config_nowhere fs path dirs n : search_path path dirs -> fits dirs n -> no_config_named fs dirs n ->
  find_file fs path n 1024 false = NotFound.
Proof.
  intros P F H. unfold find_file. change zlen with size. unfold NAME_MAX. rewrite (search_dirs_path _ _ P).
  destruct (Z.gtb_spec (size n) 255); [reflexivity|]. destruct H as [H|H]; [lia|]. clear P.
  induction dirs as [|d dirs IH]; [reflexivity|]. cbn [find_loop]. rewrite find_in_lacks.
  - apply IH; intros x I; [apply F|apply H]; now right.
  - apply F. now left.
  - apply H. now left.
Qed.
Lemma find_config_first fs path dirs n p : search_path path dirs -> fits dirs n -> first_config fs dirs n p ->
  exists k, find_file fs path n 1024 false = Found p k.
Proof.
  intros P F (S & b & d & a & -> & N & -> & H). unfold find_file. change zlen with size. unfold NAME_MAX.
  rewrite (search_dirs_path _ _ P). destruct (Z.gtb_spec (size n) 255); [lia|]. clear P.
  induction b as [|x b IH]; cbn [app find_loop].
  - destruct (find_in_has fs d n) as [k ->]; eauto. apply F. now left.
  - rewrite find_in_lacks.
    + apply IH; intros y I; [apply F|apply N]; now right.
    + apply F. now left.
    + apply N. now left.
Qed.
Theorem load_config_iff fs contents path dirs full name username cf u :
  search_path path dirs -> fits dirs full -> fits dirs name ->
  (load_service_config_v2 fs contents path full name username = Some (cf, u) <->
   governed fs contents dirs full name username (to_settings cf) u).
Proof.
  intros P F1 F2. unfold load_service_config_v2, load_service_config_raw. unfold QUBES_SOCKADDR_UN_MAX_PATH_LEN.
  split.
  - pose proof (find_config_false fs path dirs full P) as A. pose proof (find_config_false fs path dirs name P) as B.
    assert (X : forall p, config_for fs dirs full name p ->
      match match contents p with None => None | Some text => qubes_toml_config_parse text no_config end with
      | None => None
      | Some cf0 => match cf_user cf0 with
          | None => Some (cf0, username)
          | Some u0 => if negb (cf_send_service_descriptor cf0) then None else if cf_exit_on_stdin_eof cf0 then None
              else if cf_exit_on_stdout_eof cf0 then None else Some (cf0, Some u0) end
      end = Some (cf, u) -> governed fs contents dirs full name username (to_settings cf) u).
    { intros p C. destruct (contents p) as [text|] eqn:T; [|discriminate].
      destruct (qubes_toml_config_parse text no_config) as [cf0|] eqn:Q; [|discriminate].
      apply parse_config_iff in Q as (es & Q & I). destruct (cf_user cf0) as [u0|] eqn:U.
      - destruct (cf_send_service_descriptor cf0) eqn:D; [|discriminate].
        destruct (cf_exit_on_stdin_eof cf0) eqn:E1; [discriminate|].
        destruct (cf_exit_on_stdout_eof cf0) eqn:E2; [discriminate|]. intros [= <- <-].
        eapply gv_user; eauto.
      - intros [= <- <-]. eapply gv_file; eauto. }
    destruct (find_file fs path full 1024 false) as [p k|t| |].
    + apply X. now apply cg_exact.
    + contradiction.
    + destruct (find_file fs path name 1024 false) as [p k|t| |].
      * apply X. now apply cg_general.
      * contradiction.
      * cbn [cf_user no_config]. intros [= <- <-]. now apply gv_default.
      * discriminate.
    + discriminate.
  - intros G. remember (to_settings cf) as s eqn:S. destruct G as [A B|p text es s C T Q I U|p text es s u C T Q I U D E1 E2].
    + rewrite (find_config_nowhere _ _ _ _ P F1 A), (find_config_nowhere _ _ _ _ P F2 B).
      cbn [cf_user no_config]. f_equal. f_equal. destruct cf. unfold to_settings in S. cbn in S.
      injection S as <- <- <- <- <-. reflexivity.
    + subst s. assert (Q' : qubes_toml_config_parse text no_config = Some cf) by (apply parse_config_iff; eauto).
      destruct C as [C|N C].
      * destruct (find_config_first _ _ _ _ _ P F1 C) as [k ->]. rewrite T, Q'. cbn in U. now rewrite U.
      * rewrite (find_config_nowhere _ _ _ _ P F1 N). destruct (find_config_first _ _ _ _ _ P F2 C) as [k ->].
        rewrite T, Q'. cbn in U. now rewrite U.
    + subst s. assert (Q' : qubes_toml_config_parse text no_config = Some cf) by (apply parse_config_iff; eauto).
      cbn in U, D, E1, E2. destruct C as [C|N C].
      * destruct (find_config_first _ _ _ _ _ P F1 C) as [k ->]. rewrite T, Q', U, D, E1, E2. reflexivity.
      * rewrite (find_config_nowhere _ _ _ _ P F1 N). destruct (find_config_first _ _ _ _ _ P F2 C) as [k ->].
        rewrite T, Q', U, D, E1, E2. reflexivity.
Qed.
