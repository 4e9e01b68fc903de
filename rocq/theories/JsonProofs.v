(** Lemmas for C97 about JSON texts *)
From Coq Require Import String Ascii List Bool Arith NArith Lia.
From Verif Require Import Base Json SpecJson.
Import ListNotations.
Open Scope string_scope.
Open Scope list_scope.

Lemma ascii_back c : ascii_of_N (N_of_ascii c) = c.
Proof. apply ascii_N_embedding. Qed.
Lemma N_back n : (n < 256)%N -> N_of_ascii (ascii_of_N n) = n.
Proof. apply N_ascii_embedding. Qed.
Lemma ascii_bound c : (N_of_ascii c < 256)%N.
Proof. apply N_ascii_bounded. Qed.

Lemma hexval_iff c n : hexval c = Some n <-> digit16 c n.
Proof.
  split.
  - unfold hexval. intro H.
    destruct ((48 <=? N_of_ascii c)%N && (N_of_ascii c <=? 57)%N) eqn:E1.
    { apply andb_true_iff in E1. destruct E1 as [A B]. apply N.leb_le in A, B.
      assert (n = (N_of_ascii c - 48)%N) by congruence.
      replace c with (ascii_of_N (48 + n)). - apply d16_num. lia.
      - transitivity (ascii_of_N (N_of_ascii c)); [f_equal; lia|apply ascii_back]. }
    destruct ((97 <=? N_of_ascii c)%N && (N_of_ascii c <=? 102)%N) eqn:E2.
    { apply andb_true_iff in E2. destruct E2 as [A B]. apply N.leb_le in A, B.
      assert (n = (N_of_ascii c - 87)%N) by congruence.
      replace c with (ascii_of_N (87 + n)). - apply d16_lower. lia.
      - transitivity (ascii_of_N (N_of_ascii c)); [f_equal; lia|apply ascii_back]. }
    destruct ((65 <=? N_of_ascii c)%N && (N_of_ascii c <=? 70)%N) eqn:E3; [|discriminate].
    { apply andb_true_iff in E3. destruct E3 as [A B]. apply N.leb_le in A, B.
      assert (n = (N_of_ascii c - 55)%N) by congruence.
      replace c with (ascii_of_N (55 + n)). - apply d16_upper. lia.
      - transitivity (ascii_of_N (N_of_ascii c)); [f_equal; lia|apply ascii_back]. }
  - intros [m H|m H|m H]; unfold hexval; rewrite N_back by lia.
    + rewrite (proj2 (N.leb_le 48 (48 + m))) by lia. rewrite (proj2 (N.leb_le (48 + m) 57)) by lia. cbn [andb].
      f_equal. lia.
    + rewrite (proj2 (N.leb_gt (87 + m) 57)) by lia. rewrite andb_false_r.
      rewrite (proj2 (N.leb_le 97 (87 + m))) by lia. rewrite (proj2 (N.leb_le (87 + m) 102)) by lia. cbn [andb].
      f_equal. lia.
    + rewrite (proj2 (N.leb_gt (55 + m) 57)) by lia. rewrite andb_false_r.
      rewrite (proj2 (N.leb_gt 97 (55 + m))) by lia. cbn [andb].
      rewrite (proj2 (N.leb_le 65 (55 + m))) by lia. rewrite (proj2 (N.leb_le (55 + m) 70)) by lia. cbn [andb].
      f_equal. lia.
Qed.
Lemma digit16_bound c n : digit16 c n -> (n < 16)%N.
Proof. intros [m H|m H|m H]; lia. Qed.
Lemma hexval4_sound a b c d n : hexval4 a b c d = Some n ->
  unit_text ("\u" +++ String a (String b (String c (str1 d)))) n.
Proof.
  unfold hexval4. intro H.
  destruct (hexval a) as [x|] eqn:A; [|discriminate]. destruct (hexval b) as [y|] eqn:B; [|discriminate].
  destruct (hexval c) as [z|] eqn:C; [|discriminate]. destruct (hexval d) as [w|] eqn:D; [|discriminate].
  apply hexval_iff in A, B, C, D.
  assert (E : n = (x * 4096 + y * 256 + z * 16 + w)%N).
  { assert (F : n = (((x * 16 + y) * 16 + z) * 16 + w)%N) by congruence. lia. }
  rewrite E. apply u_hex; assumption.
Qed.
Lemma hexval4_complete a b c d x y z w : digit16 a x -> digit16 b y -> digit16 c z -> digit16 d w ->
  hexval4 a b c d = Some (x * 4096 + y * 256 + z * 16 + w)%N.
Proof.
  intros A B C D. apply hexval_iff in A, B, C, D. unfold hexval4. rewrite A, B, C, D. f_equal. lia.
Qed.
Lemma short_iff e n : short_escape e = Some n <->
  In (e, n) [(""""%char, 34); ("\"%char, 92); ("/"%char, 47); ("b"%char, 8); ("f"%char, 12);
             ("n"%char, 10); ("r"%char, 13); ("t"%char, 9)]%N.
Proof.
  split.
  - destruct e as [[] [] [] [] [] [] [] []]; cbn; intro H; try discriminate H;
      injection H as <-; intuition.
  - cbn [In]. intros H. repeat (destruct H as [H|H]; [injection H as <- <-; reflexivity|]). destruct H.
Qed.

(** ** strings *)
Lemma low_unit b m l : units_text b (m :: l) -> low m = true ->
  exists a1 b1 c1 d1 b', b = "\u" +++ String a1 (String b1 (String c1 (String d1 b'))) /\
    hexval4 a1 b1 c1 d1 = Some m /\ units_text b' l.
Proof.
  intros U L. unfold low in L. apply andb_true_iff in L. destruct L as [L _]. apply N.leb_le in L.
  inversion U as [|t n s l' Ut Us]; subst. inversion Ut; subst.
  - lia.
  - exfalso. cbn [In] in H. repeat (destruct H as [H|H]; [injection H as _ <-; lia|]). destruct H.
  - exists a, b, c, d, s. split; [reflexivity|]. split; [apply hexval4_complete; assumption|assumption].
Qed.
Lemma utf16_single n l : (high n = false \/ match l with m :: _ => low m = false | [] => True end) ->
  utf16 (n :: l) = n :: utf16 l.
Proof.
  intros H. destruct l as [|m l]; [reflexivity|]. cbn [utf16]. fold utf16. unfold high, low in H.
  destruct ((55296 <=? n)%N && (n <? 56320)%N) eqn:Hn; cbn [andb]; [|reflexivity].
  destruct H as [H|H]; [discriminate|]. rewrite H. reflexivity.
Qed.
Lemma utf16_pair h m l : high h = true -> low m = true -> utf16 (h :: m :: l) = joined h m :: utf16 l.
Proof.
  unfold high, low. intros H M. cbn [utf16]. rewrite <- andb_assoc, H, M. reflexivity.
Qed.
Lemma cons_fst_some {A B} (x : A) o (l : list A) (r : B) : cons_fst x o = Some (l, r) ->
  exists l', l = x :: l' /\ o = Some (l', r).
Proof. destruct o as [[l' r']|]; cbn; [|discriminate]. intro H. injection H as <- <-. eauto. Qed.

Lemma scanstring_sound_aux n : forall s u r, (String.length s <= n)%nat -> scanstring s = Some (u, r) ->
  exists b l, s = b +++ """" +++ r /\ units_text b l /\ u = utf16 l.
Proof.
  induction n as [|n IH]; intros s u r Hn H; (destruct s as [|c s1]; [discriminate H|]); [cbn in Hn; lia|].
  cbn [String.length] in Hn. cbn [scanstring] in H.
  destruct (Ascii.eqb_spec c """") as [->|Q].
  { injection H as <- <-. exists "", []. split; [reflexivity|]. split; [constructor|reflexivity]. }
  destruct (Ascii.eqb_spec c "\") as [->|B].
  - destruct s1 as [|e s2]; [discriminate|]. cbn [String.length] in Hn.
    destruct (Ascii.eqb_spec e "u") as [->|U].
    + destruct s2 as [|a1 [|b1 [|c1 [|d1 s3]]]]; try discriminate. cbn [String.length] in Hn.
      destruct (hexval4 a1 b1 c1 d1) as [m|] eqn:Hx; [|discriminate].
      assert (Plain : forall u', (high m = false \/ forall l b, s3 = b +++ """" +++ r -> units_text b l -> match l with k :: _ => low k = false | [] => True end) ->
                scanstring s3 = Some (u', r) -> u = m :: u' ->
                exists b l, String "\" (String "u" (String a1 (String b1 (String c1 (String d1 s3))))) = b +++ """" +++ r /\ units_text b l /\ u = utf16 l).
      { intros u' Hl Hs ->. destruct (IH s3 u' r ltac:(lia) Hs) as (b & l & Eb & Hb & ->).
        exists (("\u" +++ String a1 (String b1 (String c1 (str1 d1)))) +++ b), (m :: l).
        split; [cbn; rewrite Eb; reflexivity|]. split; [constructor; [apply hexval4_sound; exact Hx|exact Hb]|].
        rewrite utf16_single; [reflexivity|]. destruct Hl as [Hl|Hl]; [left; exact Hl|right; exact (Hl l b Eb Hb)]. }
      assert (Low : (forall a2 b2 c2 d2 s4 k, s3 = "\u" +++ String a2 (String b2 (String c2 (String d2 s4))) -> hexval4 a2 b2 c2 d2 = Some k -> low k = false) ->
                forall l b, s3 = b +++ """" +++ r -> units_text b l -> match l with k :: _ => low k = false | [] => True end).
      { intros HH l b Eb Hb. destruct l as [|k l]; [exact I|]. destruct (low k) eqn:Lk; [|reflexivity].
        destruct (low_unit _ _ _ Hb Lk) as (a2 & b2 & c2 & d2 & b' & -> & Hk & _). rewrite <- Lk. apply (HH a2 b2 c2 d2 (b' +++ """" +++ r) k); [|exact Hk].
        rewrite Eb. reflexivity. }
      destruct (high m) eqn:Hm.
      * destruct s3 as [|x1 [|x2 [|a2 [|b2 [|c2 [|d2 s4]]]]]];
          try (apply cons_fst_some in H; destruct H as (u' & -> & H); apply (Plain u'); [right; apply Low; intros; discriminate|exact H|reflexivity]).
        destruct (Ascii.eqb_spec x1 "\") as [->|X1]; cbn [andb] in H;
          [destruct (Ascii.eqb_spec x2 "u") as [->|X2]|]; cbn [andb] in H;
          try (apply cons_fst_some in H; destruct H as (u' & -> & H); apply (Plain u'); [right; apply Low; intros ? ? ? ? ? ? E; cbn in E; congruence|exact H|reflexivity]).
        destruct (hexval4 a2 b2 c2 d2) as [k|] eqn:Hk; [|discriminate].
        destruct (low k) eqn:Lk.
        -- apply cons_fst_some in H. destruct H as (u' & -> & H). cbn [String.length] in Hn.
           destruct (IH s4 u' r ltac:(lia) H) as (b & l & -> & Hb & ->).
           exists (("\u" +++ String a1 (String b1 (String c1 (str1 d1)))) +++ ("\u" +++ String a2 (String b2 (String c2 (str1 d2)))) +++ b), (m :: k :: l).
           split; [reflexivity|]. split; [|symmetry; apply utf16_pair; assumption].
           constructor; [apply hexval4_sound; exact Hx|]. constructor; [apply hexval4_sound; exact Hk|exact Hb].
        -- apply cons_fst_some in H. destruct H as (u' & -> & H). apply (Plain u'); [|exact H|reflexivity].
           right. apply Low. intros a3 b3 c3 d3 s5 k' E. cbn in E. injection E as <- <- <- <- <-. intros E'. congruence.
      * apply cons_fst_some in H. destruct H as (u' & -> & H). apply (Plain u'); [left; reflexivity|exact H|reflexivity].
    + destruct (short_escape e) as [m|] eqn:Se; [|discriminate].
      apply cons_fst_some in H. destruct H as (u' & -> & H). cbn [String.length] in Hn.
      destruct (IH s2 u' r ltac:(lia) H) as (b & l & -> & Hb & ->). apply short_iff in Se.
      exists (("\" +++ str1 e) +++ b), (m :: l). split; [reflexivity|]. split; [constructor; [apply u_short; exact Se|exact Hb]|].
      rewrite utf16_single; [reflexivity|]. left. cbn [In] in Se.
      repeat (destruct Se as [Se|Se]; [injection Se as _ <-; reflexivity|]). destruct Se.
  - destruct (N_of_ascii c <? 32)%N eqn:C; [discriminate|]. apply N.ltb_ge in C.
    apply cons_fst_some in H. destruct H as (u' & -> & H).
    destruct (IH s1 u' r ltac:(lia) H) as (b & l & -> & Hb & ->).
    exists (str1 c +++ b), (N_of_ascii c :: l). split; [reflexivity|].
    pose proof (ascii_bound c) as Bd. split.
    + constructor; [|exact Hb]. rewrite <- (ascii_back c) at 1. apply u_plain; [lia| |].
      * intros E. apply Q. rewrite <- (ascii_back c), E. reflexivity.
      * intros E. apply B. rewrite <- (ascii_back c), E. reflexivity.
    + rewrite utf16_single; [reflexivity|]. left. unfold high. rewrite (proj2 (N.leb_gt 55296 _)); [reflexivity|lia].
Qed.
Lemma scanstring_sound s u r : scanstring s = Some (u, r) -> exists t, String """" s = t +++ r /\ quoted t u.
Proof.
  intros H. destruct (scanstring_sound_aux _ s u r (le_n _) H) as (b & l & -> & Hb & ->).
  exists ("""" +++ b +++ """"). split; [cbn; rewrite app_assoc_s; reflexivity|]. exists b, l. auto.
Qed.

Lemma scanstring_complete_aux n : forall b l r, (length l <= n)%nat -> units_text b l ->
  scanstring (b +++ String """" r) = Some (utf16 l, r).
Proof.
  induction n as [|n IH]; intros b l r Hn U.
  { destruct l; [|cbn in Hn; lia]. inversion U; subst. reflexivity. }
  inversion U as [|t k s l' Ut Us]; subst; [reflexivity|]. cbn [length] in Hn.
  rewrite app_assoc_s. inversion Ut as [k0 K1 K2 K3|e k0 K|a1 b1 c1 d1 x y z w A B C D]; subst.
  - cbn [str1 append scanstring].
    destruct (Ascii.eqb_spec (ascii_of_N k) """") as [E|_]; [exfalso; apply K2; rewrite <- (N_back k) by lia; rewrite E; reflexivity|].
    destruct (Ascii.eqb_spec (ascii_of_N k) "\") as [E|_]; [exfalso; apply K3; rewrite <- (N_back k) by lia; rewrite E; reflexivity|].
    rewrite N_back by lia. rewrite (proj2 (N.ltb_ge k 32)) by lia. rewrite (IH s l' r ltac:(lia) Us). cbn [cons_fst].
    rewrite utf16_single; [reflexivity|]. left. unfold high. rewrite (proj2 (N.leb_gt 55296 k)); [reflexivity|lia].
  - cbn [str1 append scanstring]. change (Ascii.eqb "\" """") with false. change (Ascii.eqb "\" "\") with true. cbv iota.
    assert (e <> "u"%char) by (intros ->; cbn [In] in K; intuition discriminate).
    destruct (Ascii.eqb_spec e "u") as [E|_]; [contradiction|]. rewrite (proj2 (short_iff e k) K).
    rewrite (IH s l' r ltac:(lia) Us). cbn [cons_fst]. rewrite utf16_single; [reflexivity|]. left. cbn [In] in K.
    repeat (destruct K as [K|K]; [injection K as _ <-; reflexivity|]). destruct K.
  - pose proof (hexval4_complete _ _ _ _ _ _ _ _ A B C D) as Hx. remember (x * 4096 + y * 256 + z * 16 + w)%N as k.
    cbn [str1 append scanstring]. change (Ascii.eqb "\" """") with false. change (Ascii.eqb "\" "\") with true. change (Ascii.eqb "u" "u") with true.
    cbv iota. rewrite Hx.
    assert (Plain : (high k = false \/ match l' with m :: _ => low m = false | [] => True end) ->
      cons_fst k (scanstring (s +++ String """" r)) = Some (utf16 (k :: l'), r)).
    { intros Hl. rewrite (IH s l' r ltac:(lia) Us). cbn [cons_fst]. rewrite utf16_single by exact Hl. reflexivity. }
    destruct (high k) eqn:Hk; [|apply Plain; left; reflexivity].
    inversion Us as [|t2 m s2 l2 Ut2 Us2]; subst s.
    + subst l'. cbn [append] in *. destruct r as [|r1 [|r2 [|r3 [|r4 [|r5 r]]]]]; apply Plain; right; exact I.
    + subst l'. rewrite app_assoc_s in *. inversion Ut2 as [k0 K1 K2 K3|e k0 K|a2 b2 c2 d2 x2 y2 z2 w2 A2 B2 C2 D2]; subst.
      * assert (P : low m = false) by (unfold low; rewrite (proj2 (N.leb_gt 56320 m)) by lia; reflexivity).
        cbn [str1 append] in *. destruct (Ascii.eqb_spec (ascii_of_N m) "\") as [E|_]; [exfalso; apply K3; rewrite <- (N_back m) by lia; rewrite E; reflexivity|].
        destruct (s2 +++ String """" r) as [|r1 [|r2 [|r3 [|r4 [|r5 r6]]]]]; cbn [andb]; apply Plain; right; exact P.
      * assert (P : low m = false) by (cbn [In] in K; repeat (destruct K as [K|K]; [injection K as _ <-; reflexivity|]); destruct K).
        assert (e <> "u"%char) by (intros ->; cbn [In] in K; intuition discriminate).
        cbn [str1 append] in *. destruct (Ascii.eqb_spec e "u") as [E|_]; [contradiction|]. rewrite andb_false_r.
        destruct (s2 +++ String """" r) as [|r1 [|r2 [|r3 [|r4 r6]]]]; apply Plain; right; exact P.
      * pose proof (hexval4_complete _ _ _ _ _ _ _ _ A2 B2 C2 D2) as Hx2. remember (x2 * 4096 + y2 * 256 + z2 * 16 + w2)%N as m.
        cbn [str1 append] in *. change (Ascii.eqb "\" "\") with true. change (Ascii.eqb "u" "u") with true. cbn [andb]. rewrite Hx2.
        destruct (low m) eqn:Lm; [|apply Plain; right; first [reflexivity|exact Lm]].
        cbn [length] in Hn. rewrite (IH s2 l2 r ltac:(lia) Us2). cbn [cons_fst].
        rewrite utf16_pair by assumption. reflexivity.
Qed.
Lemma scanstring_complete t u r : quoted t u -> exists t', t = String """" t' /\ scanstring (t' +++ r) = Some (u, r).
Proof.
  intros (b & l & -> & Hb & ->). exists (b +++ """"). split; [reflexivity|]. rewrite app_assoc_s.
  exact (scanstring_complete_aux _ b l r (le_n _) Hb).
Qed.

(** ** white space *)
Lemma is_ws_iff c : is_ws c = true <-> c = " "%char \/ c = "009"%char \/ c = "010"%char \/ c = "013"%char.
Proof. unfold is_ws. rewrite !orb_true_iff, !Ascii.eqb_eq. tauto. Qed.
Lemma skip_white w s : white w -> skip_ws (w +++ s) = skip_ws s.
Proof.
  induction 1 as [|c w H _ IH]; [reflexivity|]. cbn [append skip_ws]. rewrite (proj2 (is_ws_iff c)) by exact H. exact IH.
Qed.
Definition stop (s : string) : Prop := match s with String c _ => is_ws c = false | EmptyString => True end.
Lemma skip_stop s : stop s -> skip_ws s = s.
Proof. destruct s as [|c s]; [reflexivity|]. cbn. intros ->. reflexivity. Qed.
Lemma skip_spec s : exists w, white w /\ s = w +++ skip_ws s /\ stop (skip_ws s).
Proof.
  induction s as [|c s (w & Hw & E & Hs)]; [exists ""; repeat split; constructor|]. cbn [skip_ws].
  destruct (is_ws c) eqn:C.
  - exists (String c w). split; [constructor; [apply is_ws_iff; exact C|exact Hw]|]. split; [cbn; rewrite <- E; reflexivity|exact Hs].
  - exists "". split; [constructor|]. split; [reflexivity|exact C].
Qed.
Lemma white_app a b : white a -> white b -> white (a +++ b).
Proof. induction 1; cbn [append]; [auto|]. intros; constructor; auto. Qed.

(** ** numbers *)
Lemma is_digit_iff c : is_digit c = true <-> exists n, (n < 10)%N /\ c = ascii_of_N (48 + n).
Proof.
  unfold is_digit. split.
  - intros H. apply andb_true_iff in H. destruct H as [A B]. apply N.leb_le in A, B. exists (N_of_ascii c - 48)%N.
    split; [lia|]. transitivity (ascii_of_N (N_of_ascii c)); [symmetry; apply ascii_back|f_equal; lia].
  - intros (n & A & ->). rewrite N_back by lia. apply andb_true_iff. split; apply N.leb_le; lia.
Qed.
Definition all_digits (t : string) : Prop := forall c, has_char c t = true -> exists n, (n < 10)%N /\ c = ascii_of_N (48 + n).
Lemma all_digits_cons c t : all_digits (String c t) <-> is_digit c = true /\ all_digits t.
Proof.
  unfold all_digits. cbn [has_char]. split.
  - intros H. split; [apply is_digit_iff, H; rewrite Ascii.eqb_refl; reflexivity|]. intros d Hd. apply H. rewrite Hd. apply orb_true_r.
  - intros [A B] d Hd. apply orb_true_iff in Hd. destruct Hd as [E|E]; [apply Ascii.eqb_eq in E; subst; apply is_digit_iff; exact A|auto].
Qed.
Lemma all_digits_nil : all_digits "". Proof. intros c H; discriminate H. Qed.
Definition nodigit (r : string) : Prop := match r with String c _ => is_digit c = false | EmptyString => True end.
Lemma span_sound s d r : span_digits s = (d, r) -> s = d +++ r /\ all_digits d /\ nodigit r.
Proof.
  revert d r. induction s as [|c s IH]; intros d r H; cbn [span_digits] in H.
  - injection H as <- <-. split; [reflexivity|]. split; [apply all_digits_nil|exact I].
  - destruct (is_digit c) eqn:C.
    + destruct (span_digits s) as [d' r'] eqn:E. destruct (IH _ _ eq_refl) as (-> & A & B). injection H as <- <-.
      split; [reflexivity|]. split; [apply all_digits_cons; auto|exact B].
    + injection H as <- <-. split; [reflexivity|]. split; [apply all_digits_nil|exact C].
Qed.
Lemma span_complete d r : all_digits d -> nodigit r -> span_digits (d +++ r) = (d, r).
Proof.
  induction d as [|c d IH]; intros A B.
  - destruct r as [|c r]; [reflexivity|]. cbn in *. rewrite B. reflexivity.
  - apply all_digits_cons in A. destruct A as [A1 A2]. cbn [append span_digits]. rewrite A1, (IH A2 B). reflexivity.
Qed.
(** what may follow a number *)
Definition after (r : string) : Prop :=
  match r with String c _ => is_ws c = true \/ c = ","%char \/ c = "]"%char \/ c = "}"%char | EmptyString => True end.
Lemma after_white w r : white w -> after r -> after (w +++ r).
Proof. intros [|c w' H _]; [auto|]. intros _. left. apply is_ws_iff. exact H. Qed.
Lemma after_nodigit r : after r -> nodigit r.
Proof.
  destruct r as [|c r]; [auto|]. cbn. intros H. rewrite is_ws_iff in H.
  repeat (destruct H as [H|H]); subst; reflexivity.
Qed.
Lemma after_frac r : after r -> scan_frac r = ("", r).
Proof.
  destruct r as [|c r]; [auto|]. cbn [after]. intros H. rewrite is_ws_iff in H.
  repeat (destruct H as [H|H]); subst; reflexivity.
Qed.
Lemma after_exp r : after r -> scan_exp r = ("", r).
Proof.
  destruct r as [|c r]; [auto|]. cbn [after]. intros H. rewrite is_ws_iff in H.
  repeat (destruct H as [H|H]); subst; reflexivity.
Qed.
Lemma scan_frac_sound s f r : scan_frac s = (f, r) -> s = f +++ r /\ frac_text f.
Proof.
  unfold scan_frac. destruct s as [|c s]; [intros H; injection H as <- <-; split; [reflexivity|left; reflexivity]|].
  destruct (Ascii.eqb_spec c ".") as [->|N]; [|intros H; injection H as <- <-; split; [reflexivity|left; reflexivity]].
  destruct (span_digits s) as [d r'] eqn:E. apply span_sound in E. destruct E as (-> & D & _).
  destruct d as [|c d]; intros H; injection H as <- <-; [split; [reflexivity|left; reflexivity]|].
  split; [reflexivity|]. right. exists (String c d). split; [split; [discriminate|exact D]|reflexivity].
Qed.
Lemma scan_frac_complete f r : frac_text f -> nodigit r -> (f = "" -> scan_frac r = ("", r)) -> scan_frac (f +++ r) = (f, r).
Proof.
  intros [->|(d & [D1 D2] & ->)] N H; [apply H; reflexivity|]. cbn [append scan_frac]. change (Ascii.eqb "." ".") with true. cbv iota.
  rewrite (span_complete d r D2 N). destruct d; [contradiction|reflexivity].
Qed.
Lemma scan_exp_sound s f r : scan_exp s = (f, r) -> s = f +++ r /\ exp_text f.
Proof.
  unfold scan_exp. destruct s as [|c s]; [intros H; injection H as <- <-; split; [reflexivity|left; reflexivity]|].
  destruct (Ascii.eqb c "e" || Ascii.eqb c "E") eqn:C; [|intros H; injection H as <- <-; split; [reflexivity|left; reflexivity]].
  assert (HC : str1 c = "e" \/ str1 c = "E").
  { apply orb_true_iff in C. rewrite !Ascii.eqb_eq in C. destruct C as [->| ->]; auto. }
  set (sg := match s with String g s2 => if Ascii.eqb g "+" || Ascii.eqb g "-" then (str1 g, s2) else ("", s) | EmptyString => ("", s) end).
  assert (HG : s = fst sg +++ snd sg /\ (fst sg = "" \/ fst sg = "+" \/ fst sg = "-")).
  { unfold sg. destruct s as [|g s]; [auto|]. destruct (Ascii.eqb g "+" || Ascii.eqb g "-") eqn:G; [|auto].
    apply orb_true_iff in G. rewrite !Ascii.eqb_eq in G. destruct G as [->| ->]; auto. }
  destruct sg as [g s2]. cbn [fst snd] in HG. destruct HG as [-> HG].
  destruct (span_digits s2) as [d r'] eqn:E. apply span_sound in E. destruct E as (-> & D & _).
  destruct d as [|x d]; intros H; injection H as <- <-; [split; [reflexivity|left; reflexivity]|].
  split; [cbn [append]; rewrite app_assoc_s; reflexivity|]. right. exists (str1 c), g, (String x d).
  split; [exact HC|]. split; [exact HG|]. split; [split; [discriminate|exact D]|reflexivity].
Qed.
Lemma digits_head d : digits d -> exists c d', d = String c d' /\ is_digit c = true /\ all_digits d'.
Proof. intros [A B]. destruct d as [|c d]; [contradiction|]. apply all_digits_cons in B. exists c, d. intuition. Qed.
Lemma digit_not c x : is_digit c = true -> is_digit x = false -> Ascii.eqb c x = false.
Proof. intros A B. destruct (Ascii.eqb_spec c x); [congruence|reflexivity]. Qed.
Lemma scan_exp_complete e r : exp_text e -> after r -> scan_exp (e +++ r) = (e, r).
Proof.
  intros [->|(x & g & d & X & G & D & ->)] A; [apply after_exp; exact A|].
  destruct (digits_head d D) as (c & d' & -> & C & D'). pose proof (after_nodigit r A) as N.
  assert (P : span_digits (String c d' +++ r) = (String c d', r)) by (apply span_complete; [apply all_digits_cons; auto|exact N]).
  destruct X as [->| ->], G as [->|[->| ->]]; cbn [append scan_exp];
    repeat match goal with |- context [Ascii.eqb ?a ?b] =>
      first [ change (Ascii.eqb a b) with true | change (Ascii.eqb a b) with false ] end; cbn [orb]; cbv iota;
    try (rewrite (digit_not c "+" C eq_refl), (digit_not c "-" C eq_refl); cbn [orb]; cbv iota);
    cbn [append] in P; rewrite P; reflexivity.
Qed.
Lemma scan_int_sound s i r : scan_int s = Some (i, r) -> s = i +++ r /\ int_text i.
Proof.
  unfold scan_int. destruct s as [|c s]; [discriminate|].
  destruct (Ascii.eqb_spec c "0") as [->|N]; [intros H; injection H as <- <-; split; [reflexivity|left; reflexivity]|].
  destruct (is_digit c) eqn:C; [|discriminate]. intros H.
  assert (H' : span_digits (String c s) = (i, r)) by congruence. pose proof (span_sound _ _ _ H') as (E & D & _).
  split; [exact E|]. right. destruct i as [|x i].
  - exfalso. cbn [span_digits] in H'. rewrite C in H'. destruct (span_digits s). discriminate H'.
  - cbn [append] in E. injection E as <- _. split; [split; [discriminate|exact D]|]. cbn [starts].
    destruct (Ascii.eqb_spec "0" c); [congruence|reflexivity].
Qed.
Lemma scan_int_complete i r : int_text i -> nodigit r -> scan_int (i +++ r) = Some (i, r).
Proof.
  intros [->|[D S]] N; [reflexivity|]. destruct (digits_head i D) as (c & d' & -> & C & D'). cbn [append scan_int].
  cbn [starts] in S. destruct (Ascii.eqb_spec "0" c) as [E|E]; [destruct d'; discriminate S|].
  destruct (Ascii.eqb_spec c "0") as [E'|E']; [congruence|]. rewrite C. f_equal.
  change (String c (d' +++ r)) with (String c d' +++ r). apply span_complete; [apply all_digits_cons; auto|exact N].
Qed.
Lemma scan_number_sound s t r : scan_number s = Some (t, r) -> s = t +++ r /\ number_text t.
Proof.
  unfold scan_number.
  set (sg := match s with String c s' => if Ascii.eqb c "-" then ("-", s') else ("", s) | EmptyString => ("", s) end).
  assert (HG : s = fst sg +++ snd sg /\ (fst sg = "" \/ fst sg = "-")).
  { unfold sg. destruct s as [|g s]; [auto|]. destruct (Ascii.eqb_spec g "-") as [->|]; auto. }
  destruct sg as [m s1]. cbn [fst snd] in HG. destruct HG as [-> HG].
  destruct (scan_int s1) as [[i s2]|] eqn:Ei; [|discriminate]. destruct (scan_frac s2) as [f s3] eqn:Ef.
  destruct (scan_exp s3) as [e s4] eqn:Ee. intros H. injection H as <- <-.
  apply scan_int_sound in Ei. destruct Ei as [-> Hi]. apply scan_frac_sound in Ef. destruct Ef as [-> Hf].
  apply scan_exp_sound in Ee. destruct Ee as [-> He].
  split; [rewrite !app_assoc_s; reflexivity|]. exists m, i, f, e. auto.
Qed.
Lemma exp_head e r : exp_text e -> after r -> nodigit (e +++ r) /\ scan_frac (e +++ r) = ("", e +++ r).
Proof.
  intros [->|(x & g & d & X & G & D & ->)] A; [split; [apply after_nodigit; exact A|apply after_frac; exact A]|].
  destruct X as [->| ->]; split; reflexivity.
Qed.
Lemma int_head i : int_text i -> exists c i', i = String c i' /\ is_digit c = true.
Proof. intros [->|[D _]]; [exists "0"%char, ""; auto|]. destruct (digits_head i D) as (c & d & -> & C & _). eauto. Qed.
Lemma scan_number_complete t r : number_text t -> after r -> scan_number (t +++ r) = Some (t, r).
Proof.
  intros (m & i & f & e & M & I & F & E & ->) A. rewrite !app_assoc_s.
  assert (S : forall rest, scan_number (m +++ i +++ rest) = match scan_int (i +++ rest) with
              | None => None
              | Some (i, s2) => let '(f, s3) := scan_frac s2 in let '(e, s4) := scan_exp s3 in Some (m +++ i +++ f +++ e, s4)
              end).
  { intros rest. destruct M as [->| ->]; [|reflexivity]. destruct (int_head i I) as (c & i' & -> & C). unfold scan_number.
    cbn [append]. rewrite (digit_not c "-" C eq_refl). reflexivity. }
  rewrite S. destruct (exp_head e r E A) as [N1 N2].
  assert (N3 : nodigit (f +++ e +++ r)) by (destruct F as [->|(d & _ & ->)]; [exact N1|reflexivity]).
  rewrite (scan_int_complete i _ I N3). rewrite (scan_frac_complete f _ F N1 (fun _ => N2)).
  rewrite (scan_exp_complete e r E A). reflexivity.
Qed.

(** ** values *)
Scheme denotes_mut := Induction for denotes Sort Prop
  with items_mut := Induction for items Sort Prop
  with members_mut := Induction for members Sort Prop.
Combined Scheme json_mut from denotes_mut, items_mut, members_mut.

Lemma starts_take p s : starts p s = true -> s = p +++ sdrop (String.length p) s.
Proof. intros H. apply starts_spec in H. destruct H as [r ->]. rewrite sdrop_app. reflexivity. Qed.
Lemma scan_word_sound s v r : scan_word s = Some (v, r) -> exists t, s = t +++ r /\ denotes t v.
Proof.
  unfold scan_word.
  destruct (starts "null" s) eqn:S1; [intros H; injection H as <- <-; exists "null"; split; [exact (starts_take _ _ S1)|constructor]|].
  destruct (starts "true" s) eqn:S2; [intros H; injection H as <- <-; exists "true"; split; [exact (starts_take _ _ S2)|constructor]|].
  destruct (starts "false" s) eqn:S3; [intros H; injection H as <- <-; exists "false"; split; [exact (starts_take _ _ S3)|constructor]|].
  destruct (scan_number s) as [[t r']|] eqn:S4.
  { intros H. injection H as <- <-. apply scan_number_sound in S4. destruct S4 as [E N]. exists t. split; [exact E|apply den_number; exact N]. }
  destruct (starts "NaN" s) eqn:S5; [intros H; injection H as <- <-; exists "NaN"; split; [exact (starts_take _ _ S5)|apply den_word; cbn; auto]|].
  destruct (starts "Infinity" s) eqn:S6; [intros H; injection H as <- <-; exists "Infinity"; split; [exact (starts_take _ _ S6)|apply den_word; cbn; auto]|].
  destruct (starts "-Infinity" s) eqn:S7; [intros H; injection H as <- <-; exists "-Infinity"; split; [exact (starts_take _ _ S7)|apply den_word; cbn; auto]|].
  discriminate.
Qed.
Lemma number_head t : number_text t -> exists c t', t = String c t' /\ (c = "-"%char \/ is_digit c = true).
Proof.
  intros (m & i & f & e & M & I & _ & _ & ->). destruct (int_head i I) as (c & i' & -> & C).
  destruct M as [->| ->]; cbn; eauto.
Qed.
Lemma scan_word_number t r : number_text t -> after r -> scan_word (t +++ r) = Some (JNum t, r).
Proof.
  intros N A. unfold scan_word. rewrite (scan_number_complete t r N A).
  destruct (number_head t N) as (c & t' & -> & C). cbn [append starts].
  assert (forall x, is_digit x = false -> x <> "-"%char -> Ascii.eqb x c = false).
  { intros x X Y. destruct (Ascii.eqb_spec x c) as [->|]; [|reflexivity]. destruct C; congruence. }
  rewrite !H by (reflexivity || discriminate). reflexivity.
Qed.

Lemma items_white w t l : white w -> items t l -> items (w +++ t) l.
Proof.
  intros W H. inversion H; subst; rewrite <- app_assoc_s.
  - apply it_one; auto using white_app.
  - apply it_more; auto using white_app.
Qed.
Lemma members_white w t l : white w -> members t l -> members (w +++ t) l.
Proof.
  intros W H. inversion H; subst; rewrite <- app_assoc_s.
  - apply me_one; auto using white_app.
  - apply me_more; auto using white_app.
Qed.

Lemma scan_sound f :
  (forall s v r, scan_once f s = Some (v, r) -> exists t, s = t +++ r /\ denotes t v) /\
  (forall s l r, parse_items f s = Some (l, r) -> exists t, s = t +++ "]" +++ r /\ items t l) /\
  (forall s l r, parse_members f s = Some (l, r) -> exists t, s = t +++ "}" +++ r /\ members t l).
Proof.
  induction f as [|f (IH1 & IH2 & IH3)]; [repeat split; intros; discriminate|].
  split; [|split].
  - intros s v r H. destruct s as [|c s1]; [discriminate|]. cbn [scan_once] in H.
    destruct (Ascii.eqb_spec c """") as [->|C1].
    { destruct (scanstring s1) as [[u r']|] eqn:E; [|discriminate]. injection H as <- <-.
      apply scanstring_sound in E. destruct E as (t & E & Q). exists t. split; [exact E|apply den_string; exact Q]. }
    destruct (Ascii.eqb_spec c "{") as [->|C2].
    { destruct (skip_spec s1) as (w & W & E & _). destruct (skip_ws s1) as [|d s2]; [discriminate|].
      destruct (Ascii.eqb_spec d "}") as [->|D].
      - injection H as <- <-. exists ("{" +++ w +++ "}"). split; [rewrite E; cbn; rewrite app_assoc_s; reflexivity|constructor; exact W].
      - destruct (parse_members f (String d s2)) as [[l r']|] eqn:P; [|discriminate]. injection H as <- <-.
        apply IH3 in P. destruct P as (t & P & M). exists ("{" +++ (w +++ t) +++ "}").
        split; [rewrite E, P; cbn; rewrite !app_assoc_s; reflexivity|]. apply den_dict. apply members_white; assumption. }
    destruct (Ascii.eqb_spec c "[") as [->|C3].
    { destruct (skip_spec s1) as (w & W & E & _). destruct (skip_ws s1) as [|d s2]; [discriminate|].
      destruct (Ascii.eqb_spec d "]") as [->|D].
      - injection H as <- <-. exists ("[" +++ w +++ "]"). split; [rewrite E; cbn; rewrite app_assoc_s; reflexivity|constructor; exact W].
      - destruct (parse_items f (String d s2)) as [[l r']|] eqn:P; [|discriminate]. injection H as <- <-.
        apply IH2 in P. destruct P as (t & P & M). exists ("[" +++ (w +++ t) +++ "]").
        split; [rewrite E, P; cbn; rewrite !app_assoc_s; reflexivity|]. apply den_list. apply items_white; assumption. }
    apply scan_word_sound. exact H.
  - intros s l r H. cbn [parse_items] in H. destruct (scan_once f s) as [[v s1]|] eqn:E; [|discriminate].
    apply IH1 in E. destruct E as (t & -> & D). destruct (skip_spec s1) as (w & W & E & _).
    destruct (skip_ws s1) as [|c s2]; [discriminate|]. destruct (Ascii.eqb_spec c "]") as [->|C1].
    { injection H as <- <-. exists ("" +++ t +++ w). split; [rewrite E; cbn [append]; rewrite app_assoc_s; reflexivity|]. apply it_one; [constructor|exact D|exact W]. }
    destruct (Ascii.eqb_spec c ",") as [->|C2]; [|discriminate]. apply cons_fst_some in H. destruct H as (l' & -> & H).
    destruct (skip_spec s2) as (w2 & W2 & E2 & _). apply IH2 in H. destruct H as (t2 & H & I).
    exists ("" +++ t +++ w +++ "," +++ (w2 +++ t2)). split.
    + rewrite E, E2, H. cbn [append]. rewrite !app_assoc_s. cbn [append]. rewrite app_assoc_s. reflexivity.
    + apply it_more; [constructor|exact D|exact W|]. apply items_white; assumption.
  - intros s l r H. cbn [parse_members] in H. destruct s as [|q s0]; [discriminate|].
    destruct (Ascii.eqb_spec q """") as [->|C0]; [|discriminate]. cbn [negb] in H.
    destruct (scanstring s0) as [[k s1]|] eqn:E0; [|discriminate].
    apply scanstring_sound in E0. destruct E0 as (tq & E0 & Q). rewrite E0.
    destruct (skip_spec s1) as (w1 & W1 & E1 & _). destruct (skip_ws s1) as [|c s2]; [discriminate|].
    destruct (Ascii.eqb_spec c ":") as [->|C1]; [|discriminate]. cbn [negb] in H.
    destruct (skip_spec s2) as (w2 & W2 & E2 & _).
    destruct (scan_once f (skip_ws s2)) as [[v s3]|] eqn:E3; [|discriminate].
    apply IH1 in E3. destruct E3 as (t & E3 & D). rewrite E3 in E2.
    destruct (skip_spec s3) as (w3 & W3 & E4 & _). destruct (skip_ws s3) as [|d s4]; [discriminate|].
    destruct (Ascii.eqb_spec d "}") as [->|C2].
    { injection H as <- <-. exists ("" +++ tq +++ w1 +++ ":" +++ w2 +++ t +++ w3).
      split; [rewrite E1, E2, E4; cbn [append]; rewrite !app_assoc_s; cbn [append]; rewrite !app_assoc_s; reflexivity|].
      apply me_one; auto; constructor. }
    destruct (Ascii.eqb_spec d ",") as [->|C3]; [|discriminate]. apply cons_fst_some in H. destruct H as (l' & -> & H).
    destruct (skip_spec s4) as (w4 & W4 & E5 & _). apply IH3 in H. destruct H as (t2 & H & M).
    exists ("" +++ tq +++ w1 +++ ":" +++ w2 +++ t +++ w3 +++ "," +++ (w4 +++ t2)). split.
    + rewrite E1, E2, E4, E5, H. cbn [append]. rewrite !app_assoc_s. cbn [append]. rewrite !app_assoc_s. cbn [append]. rewrite !app_assoc_s. reflexivity.
    + apply me_more; auto; [constructor|]. apply members_white; assumption.
Qed.

Lemma denotes_head t v : denotes t v -> exists c t', t = String c t' /\ is_ws c = false /\ c <> "]"%char /\ c <> "}"%char.
Proof.
  intros H. inversion H; subst; try (do 2 eexists; split; [reflexivity|split; [reflexivity|split; discriminate]]).
  - destruct (number_head t H0) as (c & t' & -> & C). exists c, t'. split; [reflexivity|].
    destruct C as [->|C]; [split; [reflexivity|split; discriminate]|].
    split; [destruct (is_ws c) eqn:W; [|reflexivity]; rewrite is_ws_iff in W; destruct W as [->|[->|[->| ->]]]; discriminate C|].
    split; intros ->; discriminate C.
  - cbn [In] in H0. destruct H0 as [<-|[<-|[<-|[]]]]; (do 2 eexists; split; [reflexivity|split; [reflexivity|split; discriminate]]).
  - destruct H0 as (b & l & -> & _). do 2 eexists; split; [reflexivity|split; [reflexivity|split; discriminate]].
Qed.
Lemma items_head t l x : items t l -> exists c s, skip_ws (t +++ x) = String c s /\ c <> "]"%char.
Proof.
  intros H. inversion H as [w1 t1 w2 v W D W2 E|w1 t1 w2 v s l' W D W2 I E]; subst; destruct (denotes_head _ _ D) as (c & t' & -> & C & N & _);
    rewrite app_assoc_s, (skip_white _ _ W); cbn [append]; rewrite skip_stop by exact C; eauto.
Qed.
Lemma members_head t l x : members t l -> exists c s, skip_ws (t +++ x) = String c s /\ c <> "}"%char.
Proof.
  intros H. inversion H; subst;
    match goal with Q : quoted ?q ?k |- _ => destruct Q as (b & ul & -> & _) end;
    rewrite app_assoc_s, skip_white by assumption; cbn [append]; rewrite skip_stop by reflexivity; do 2 eexists; (split; [reflexivity|discriminate]).
Qed.

Lemma scan_complete :
  (forall t v, denotes t v -> forall f r, (String.length t <= f)%nat -> after r -> scan_once f (t +++ r) = Some (v, r)) /\
  (forall t l, items t l -> forall f r, (S (String.length t) <= f)%nat -> parse_items f (skip_ws (t +++ "]" +++ r)) = Some (l, r)) /\
  (forall t l, members t l -> forall f r, (S (String.length t) <= f)%nat -> parse_members f (skip_ws (t +++ "}" +++ r)) = Some (l, r)).
Proof.
  apply (json_mut (fun t v _ => forall f r, (String.length t <= f)%nat -> after r -> scan_once f (t +++ r) = Some (v, r))
                  (fun t l _ => forall f r, (S (String.length t) <= f)%nat -> parse_items f (skip_ws (t +++ "]" +++ r)) = Some (l, r))
                  (fun t l _ => forall f r, (S (String.length t) <= f)%nat -> parse_members f (skip_ws (t +++ "}" +++ r)) = Some (l, r))).
  - intros [|f] r L A; [cbn in L; lia|]. reflexivity.
  - intros [|f] r L A; [cbn in L; lia|]. reflexivity.
  - intros [|f] r L A; [cbn in L; lia|]. reflexivity.
  - intros t N f r L A. pose proof (scan_word_number t r N A) as W. destruct (number_head t N) as (c & t' & -> & C).
    destruct f as [|f]; [cbn in L; lia|]. cbn [append scan_once].
    assert (Q : forall x, is_digit x = false -> x <> "-"%char -> Ascii.eqb c x = false).
    { intros x X Y. destruct (Ascii.eqb_spec c x) as [->|]; [|reflexivity]. destruct C; congruence. }
    rewrite !Q by (reflexivity || discriminate). exact W.
  - intros t I f r L A. cbn [In] in I. destruct f as [|f]; [destruct I as [<-|[<-|[<-|[]]]]; cbn in L; lia|].
    destruct I as [<-|[<-|[<-|[]]]]; reflexivity.
  - intros t u Q f r L A. destruct (scanstring_complete t u r Q) as (t' & -> & E). destruct f as [|f]; [cbn in L; lia|].
    cbn [append scan_once]. change (Ascii.eqb """" """") with true. cbv iota. rewrite E. reflexivity.
  - intros w W f r L A. destruct f as [|f]; [cbn in L; lia|]. cbn [append scan_once].
    change (Ascii.eqb "[" """") with false. change (Ascii.eqb "[" "{") with false. change (Ascii.eqb "[" "[") with true. cbv iota.
    rewrite app_assoc_s, (skip_white w _ W). reflexivity.
  - intros t l I IH f r L A. destruct f as [|f]; [cbn in L; lia|]. cbn [append scan_once].
    change (Ascii.eqb "[" """") with false. change (Ascii.eqb "[" "{") with false. change (Ascii.eqb "[" "[") with true. cbv iota.
    rewrite app_assoc_s. cbn [append String.length] in *. rewrite length_app_s in L. cbn [String.length] in L. rewrite Nat.add_1_r in L.
    specialize (IH f r ltac:(lia)). cbn [append] in IH.
    destruct (items_head t l (String "]" r) I) as (c & s & E & C). rewrite E in *.
    destruct (Ascii.eqb_spec c "]"); [contradiction|]. rewrite IH. reflexivity.
  - intros w W f r L A. destruct f as [|f]; [cbn in L; lia|]. cbn [append scan_once].
    change (Ascii.eqb "{" """") with false. change (Ascii.eqb "{" "{") with true. cbv iota.
    rewrite app_assoc_s, (skip_white w _ W). reflexivity.
  - intros t l I IH f r L A. destruct f as [|f]; [cbn in L; lia|]. cbn [append scan_once].
    change (Ascii.eqb "{" """") with false. change (Ascii.eqb "{" "{") with true. cbv iota.
    rewrite app_assoc_s. cbn [append String.length] in *. rewrite length_app_s in L. cbn [String.length] in L. rewrite Nat.add_1_r in L.
    specialize (IH f r ltac:(lia)). cbn [append] in IH.
    destruct (members_head t l (String "}" r) I) as (c & s & E & C). rewrite E in *.
    destruct (Ascii.eqb_spec c "}"); [contradiction|]. rewrite IH. reflexivity.
  - intros w1 t w2 v W1 D IH W2 f r L. rewrite !app_assoc_s. rewrite (skip_white w1 _ W1). rewrite !length_app_s in L.
    destruct (denotes_head t v D) as (c & t' & -> & C & _). rewrite skip_stop by exact C.
    destruct f as [|f]; [lia|]. cbn [parse_items]. rewrite (IH f (w2 +++ "]" +++ r)); [|lia|apply after_white; [exact W2|cbn; auto]].
    rewrite (skip_white w2 _ W2). reflexivity.
  - intros w1 t w2 v s l W1 D IH W2 I IH2 f r L. rewrite !app_assoc_s. rewrite (skip_white w1 _ W1). rewrite !length_app_s in L.
    change (String.length ",") with 1%nat in L.
    destruct (denotes_head t v D) as (c & t' & -> & C & _). rewrite skip_stop by exact C.
    destruct f as [|f]; [lia|]. cbn [parse_items]. rewrite (IH f (w2 +++ "," +++ s +++ "]" +++ r)); [|lia|apply after_white; [exact W2|cbn; auto]].
    rewrite (skip_white w2 _ W2). rewrite skip_stop by reflexivity. cbn [append]. change (Ascii.eqb "," "]") with false. change (Ascii.eqb "," ",") with true. cbv iota.
    specialize (IH2 f r ltac:(lia)). cbn [append] in IH2. rewrite IH2. reflexivity.
  - intros w1 q w2 w3 t w4 k v W1 Q W2 W3 D IH W4 f r L. rewrite !app_assoc_s. rewrite (skip_white w1 _ W1). rewrite !length_app_s in L.
    change (String.length ":") with 1%nat in L.
    destruct (scanstring_complete q k (w2 +++ ":" +++ w3 +++ t +++ w4 +++ "}" +++ r) Q) as (q' & -> & E).
    cbn [append]. rewrite skip_stop by reflexivity. destruct f as [|f]; [lia|]. cbn [parse_members]. change (Ascii.eqb """" """") with true. cbn [negb].
    cbn [append] in E. rewrite E. rewrite (skip_white w2 _ W2). rewrite skip_stop by reflexivity. change (Ascii.eqb ":" ":") with true. cbn [negb].
    rewrite (skip_white w3 _ W3). destruct (denotes_head t v D) as (c & t' & Et & C & _). rewrite skip_stop by (rewrite Et; exact C).
    rewrite (IH f (w4 +++ String "}" r)); [|lia|apply after_white; [exact W4|cbn; auto]].
    rewrite (skip_white w4 _ W4). reflexivity.
  - intros w1 q w2 w3 t w4 k v s l W1 Q W2 W3 D IH W4 I IH2 f r L. rewrite !app_assoc_s. rewrite (skip_white w1 _ W1). rewrite !length_app_s in L.
    change (String.length ":") with 1%nat in L. change (String.length ",") with 1%nat in L.
    destruct (scanstring_complete q k (w2 +++ ":" +++ w3 +++ t +++ w4 +++ "," +++ s +++ "}" +++ r) Q) as (q' & -> & E).
    cbn [append]. rewrite skip_stop by reflexivity. destruct f as [|f]; [lia|]. cbn [parse_members]. change (Ascii.eqb """" """") with true. cbn [negb].
    cbn [append] in E. rewrite E. rewrite (skip_white w2 _ W2). rewrite skip_stop by reflexivity. change (Ascii.eqb ":" ":") with true. cbn [negb].
    rewrite (skip_white w3 _ W3). destruct (denotes_head t v D) as (c & t' & Et & C & _). rewrite skip_stop by (rewrite Et; exact C).
    rewrite (IH f (w4 +++ String "," (s +++ String "}" r))); [|lia|apply after_white; [exact W4|cbn; auto]].
    rewrite (skip_white w4 _ W4). rewrite skip_stop by reflexivity. change (Ascii.eqb "," "}") with false. change (Ascii.eqb "," ",") with true. cbv iota.
    specialize (IH2 f r ltac:(lia)). cbn [append] in IH2. rewrite IH2. reflexivity.
Qed.
Theorem loads_iff t v : loads t = Some v <-> json_text t v.
Proof.
  unfold loads. split.
  - destruct (scan_once _ _) as [[v' r]|] eqn:E; [|discriminate]. destruct (String.eqb_spec (skip_ws r) "") as [R|]; [|discriminate].
    intros H. injection H as ->. apply scan_sound in E. destruct E as (s & E & D).
    destruct (skip_spec t) as (w & W & E1 & _). destruct (skip_spec r) as (w2 & W2 & E2 & _).
    exists w, s, w2. split; [|auto]. rewrite E1, E, E2, R, app_nil_s. reflexivity.
  - intros (w1 & s & w2 & -> & W1 & W2 & D). destruct (denotes_head s v D) as (c & s' & Es & C & _).
    rewrite (skip_white w1 _ W1). rewrite (skip_stop (s +++ w2)) by (rewrite Es; exact C).
    rewrite (proj1 scan_complete s v D).
    + rewrite <- (app_nil_s w2), (skip_white w2 "" W2). reflexivity.
    + rewrite !length_app_s. lia.
    + rewrite <- (app_nil_s w2). apply after_white; [exact W2|exact I].
Qed.

(** ** dumps *)
Fixpoint json_ind' (P : json -> Prop) (H1 : P JNull) (H2 : P JTrue) (H3 : P JFalse) (H4 : forall t, P (JNum t)) (H5 : forall u, P (JStr u))
  (H6 : forall l, Forall P l -> P (JList l)) (H7 : forall l, Forall (fun e => P (snd e)) l -> P (JDict l)) (v : json) : P v :=
  match v with
  | JNull => H1 | JTrue => H2 | JFalse => H3 | JNum t => H4 t | JStr u => H5 u
  | JList l => H6 l ((fix go l : Forall P l := match l with [] => Forall_nil _ | v :: l' => Forall_cons _ (json_ind' P H1 H2 H3 H4 H5 H6 H7 v) (go l') end) l)
  | JDict l => H7 l ((fix go l : Forall (fun e => P (snd e)) l := match l with [] => Forall_nil _ | e :: l' => Forall_cons _ (json_ind' P H1 H2 H3 H4 H5 H6 H7 (snd e)) (go l') end) l)
  end.

Definition to_units (c : N) : list N :=
  (if c <? 65536 then [c] else [55296 + (c - 65536) / 1024; 56320 + (c - 65536) mod 1024])%N.
Lemma hexd_digit n : (n < 16)%N -> digit16 (hexd n) n.
Proof.
  intros H. unfold hexd. destruct (N.ltb_spec n 10); [apply d16_num; assumption|apply d16_lower; lia].
Qed.
Lemma hex4_unit n : (n < 65536)%N -> unit_text ("\u" +++ hex4 n) n.
Proof.
  intros H. unfold hex4.
  assert (D1 : (n / 4096 < 16)%N) by (apply N.div_lt_upper_bound; lia).
  assert (D2 : (n / 256 mod 16 < 16)%N) by (apply N.mod_upper_bound; lia).
  assert (D3 : (n / 16 mod 16 < 16)%N) by (apply N.mod_upper_bound; lia).
  assert (D4 : (n mod 16 < 16)%N) by (apply N.mod_upper_bound; lia).
  assert (E : n = (n / 4096 * 4096 + n / 256 mod 16 * 256 + n / 16 mod 16 * 16 + n mod 16)%N).
  { pose proof (N.div_mod n 16 ltac:(lia)) as A. pose proof (N.div_mod (n / 16) 16 ltac:(lia)) as B.
    pose proof (N.div_mod (n / 256) 16 ltac:(lia)) as C.
    replace (n / 16 / 16)%N with (n / 256)%N in B by (rewrite N.div_div by lia; reflexivity).
    replace (n / 256 / 16)%N with (n / 4096)%N in C by (rewrite N.div_div by lia; reflexivity). lia. }
  rewrite E at 5. apply u_hex; apply hexd_digit; assumption.
Qed.
Lemma units_one t n : unit_text t n -> units_text t [n].
Proof. intros H. rewrite <- (app_nil_s t). constructor; [exact H|constructor]. Qed.
Lemma units_app t l : units_text t l -> forall t' l', units_text t' l' -> units_text (t +++ t') (l ++ l')%list.
Proof. induction 1; intros t' l' H'; [exact H'|]. rewrite app_assoc_s. cbn [app]. constructor; [assumption|auto]. Qed.
Lemma escape_units c : character c -> units_text (escape c) (to_units c).
Proof.
  intros H. unfold escape, to_units.
  assert (Short : forall e, In (e, c) [(""""%char, 34); ("\"%char, 92); ("/"%char, 47); ("b"%char, 8); ("f"%char, 12);
               ("n"%char, 10); ("r"%char, 13); ("t"%char, 9)]%N -> units_text ("\" +++ str1 e) (if (c <? 65536)%N then [c] else [55296 + (c - 65536) / 1024; 56320 + (c - 65536) mod 1024]%N)).
  { intros e I. assert (B : (c < 65536)%N) by (cbn [In] in I; repeat (destruct I as [I|I]; [injection I as _ <-; lia|]); destruct I).
    rewrite (proj2 (N.ltb_lt _ _) B). apply units_one, u_short, I. }
  destruct (N.eqb_spec c 34); [apply (Short """"%char); subst; cbn; auto|].
  destruct (N.eqb_spec c 92); [apply (Short "\"%char); subst; cbn; auto|].
  destruct (N.eqb_spec c 8); [apply (Short "b"%char); subst; cbn; auto 10|].
  destruct (N.eqb_spec c 9); [apply (Short "t"%char); subst; cbn; auto 10|].
  destruct (N.eqb_spec c 10); [apply (Short "n"%char); subst; cbn; auto 10|].
  destruct (N.eqb_spec c 12); [apply (Short "f"%char); subst; cbn; auto 10|].
  destruct (N.eqb_spec c 13); [apply (Short "r"%char); subst; cbn; auto 10|].
  destruct ((32 <=? c)%N && (c <=? 126)%N) eqn:P.
  { apply andb_true_iff in P. destruct P as [P1 P2]. apply N.leb_le in P1, P2. rewrite (proj2 (N.ltb_lt c 65536)) by lia.
    apply units_one, u_plain; [lia|assumption|assumption]. }
  destruct (N.ltb_spec c 65536) as [B|B].
  { apply units_one, hex4_unit. exact B. }
  rewrite <- app_assoc_s. apply (us_cons _ _ _ [_]); [apply hex4_unit|apply units_one, hex4_unit].
  - assert ((c - 65536) / 1024 < 1024)%N by (apply N.div_lt_upper_bound; unfold character in H; lia). lia.
  - pose proof (N.mod_upper_bound (c - 65536) 1024 ltac:(lia)). lia.
Qed.
Lemma escapes_units u : Forall character u -> units_text (escapes u) (flat_map to_units u).
Proof. induction 1; cbn [escapes flat_map]; [constructor|]. apply units_app; [apply escape_units; assumption|assumption]. Qed.
Lemma utf16_units u : Forall character u -> utf16 (flat_map to_units u) = u.
Proof.
  induction 1 as [|c u H _ IH]; [reflexivity|]. cbn [flat_map]. unfold to_units at 1.
  destruct (N.ltb_spec c 65536) as [B|B]; cbn [app].
  - rewrite utf16_single, IH; [reflexivity|]. left. unfold high. destruct H as [H|H].
    + rewrite (proj2 (N.leb_gt 55296 c)) by lia. reflexivity.
    + rewrite (proj2 (N.ltb_ge c 56320)) by lia. apply andb_false_r.
  - assert (D : ((c - 65536) / 1024 < 1024)%N) by (apply N.div_lt_upper_bound; unfold character in H; lia).
    pose proof (N.mod_upper_bound (c - 65536) 1024 ltac:(lia)) as M. pose proof (N.div_mod (c - 65536) 1024 ltac:(lia)) as E.
    set (q := ((c - 65536) / 1024)%N) in *. set (m := ((c - 65536) mod 1024)%N) in *. clearbody q m.
    rewrite utf16_pair, IH.
    + f_equal. unfold joined. lia.
    + unfold high. apply andb_true_iff. split; [apply N.leb_le|apply N.ltb_lt]; lia.
    + unfold low. apply andb_true_iff. split; [apply N.leb_le|apply N.ltb_lt]; lia.
Qed.
Lemma dump_str_quoted u : Forall character u -> quoted (dump_str u) u.
Proof. intros H. exists (escapes u), (flat_map to_units u). split; [reflexivity|]. split; [apply escapes_units; exact H|symmetry; apply utf16_units; exact H]. Qed.
Definition dump_items : list json -> string :=
  fix go l := match l with [] => "" | [v] => dumps v | v :: l' => dumps v +++ ", " +++ go l' end.
Definition dump_members : list (ustr * json) -> string :=
  fix go l := match l with
              | [] => ""
              | [(k, v)] => dump_str k +++ ": " +++ dumps v
              | (k, v) :: l' => dump_str k +++ ": " +++ dumps v +++ ", " +++ go l'
              end.
Lemma space : white " ". Proof. constructor; [auto|constructor]. Qed.
Lemma dumps_denotes v : proper v -> denotes (dumps v) v.
Proof.
  induction v as [| | |t|u|l IH|l IH] using json_ind'; intros P; cbn [dumps]; [constructor|constructor|constructor|apply den_number|apply den_string| |].
  - inversion P; assumption.
  - inversion P; subst. apply dump_str_quoted. assumption.
  - inversion P as [| | | | |l' F|]; subst. clear P. fold dump_items. destruct l as [|v l]; [apply (den_list_nil ""); constructor|].
    apply den_list. revert v IH F. induction l as [|w l IHl]; intros v IH F.
    + inversion IH; inversion F; subst. cbn [dump_items]. rewrite <- (app_nil_s (dumps v)). apply (it_one ""); [constructor|auto|constructor].
    + inversion IH as [|? ? IH1 IH2]; inversion F as [|? ? F1 F2]; subst.
      change (dump_items (v :: w :: l)) with ("" +++ dumps v +++ "" +++ "," +++ (" " +++ dump_items (w :: l))).
      apply it_more; [constructor|auto|constructor|]. apply items_white; [apply space|]. apply IHl; assumption.
  - inversion P as [| | | | | |l' F]; subst. clear P. fold dump_members. destruct l as [|v l]; [apply (den_dict_nil ""); constructor|].
    apply den_dict. revert v IH F. induction l as [|w l IHl]; intros [k v] IH F.
    + inversion IH; inversion F; subst. destruct H5. cbn [fst snd] in *. cbn [dump_members].
      change (dump_str k +++ ": " +++ dumps v) with ("" +++ dump_str k +++ "" +++ ":" +++ " " +++ dumps v).
      rewrite <- (app_nil_s (dumps v)).
      apply me_one; [constructor|apply dump_str_quoted; assumption|constructor|apply space|auto|constructor].
    + inversion IH as [|? ? IH1 IH2]; inversion F as [|? ? F1 F2]; subst. destruct F1. cbn [fst snd] in *.
      change (dump_members ((k, v) :: w :: l)) with ("" +++ dump_str k +++ "" +++ ":" +++ " " +++ dumps v +++ "" +++ "," +++ (" " +++ dump_members (w :: l))).
      apply me_more; [constructor|apply dump_str_quoted; assumption|constructor|apply space|auto|constructor|].
      apply members_white; [apply space|]. apply IHl; assumption.
Qed.
Lemma json_text_dumps v : proper v -> json_text (dumps v) v.
Proof.
  intros P. exists "", (dumps v), "". split; [cbn [append]; rewrite app_nil_s; reflexivity|].
  split; [constructor|]. split; [constructor|apply dumps_denotes; exact P].
Qed.

(** what is sent is printable ASCII *)
Definition printable (t : string) : Prop := sforall (fun c => ((32 <=? N_of_ascii c) && (N_of_ascii c <=? 126))%N) t = true.
Lemma hexd_printable n : (n < 16)%N -> ((32 <=? N_of_ascii (hexd n)) && (N_of_ascii (hexd n) <=? 126))%N%bool = true.
Proof.
  intros H. unfold hexd. destruct (N.ltb_spec n 10); rewrite N_back by lia; apply andb_true_iff; split; apply N.leb_le; lia.
Qed.
Lemma hex4_printable n : (n < 65536)%N -> printable (hex4 n).
Proof.
  intros H. unfold printable, hex4. cbn [sforall str1].
  rewrite !hexd_printable; [reflexivity|apply N.mod_upper_bound; lia|apply N.mod_upper_bound; lia|apply N.mod_upper_bound; lia|apply N.div_lt_upper_bound; lia].
Qed.
Lemma printable_app a b : printable a -> printable b -> printable (a +++ b).
Proof. unfold printable. intros A B. rewrite sforall_app, A, B. reflexivity. Qed.
Lemma escape_printable c : character c -> printable (escape c).
Proof.
  intros H. unfold escape.
  repeat match goal with |- printable (if (c =? ?n)%N then _ else _) => destruct (c =? n)%N; [reflexivity|] end.
  destruct ((32 <=? c)%N && (c <=? 126)%N) eqn:P.
  { pose proof P as P'. apply andb_true_iff in P'. destruct P' as [P1 P2]. apply N.leb_le in P1, P2. unfold printable. cbn [str1 sforall]. rewrite N_back by lia. rewrite P. reflexivity. }
  destruct (N.ltb_spec c 65536) as [B|B].
  { apply printable_app; [reflexivity|apply hex4_printable; exact B]. }
  assert ((c - 65536) / 1024 < 1024)%N by (apply N.div_lt_upper_bound; unfold character in H; lia).
  pose proof (N.mod_upper_bound (c - 65536) 1024 ltac:(lia)).
  apply printable_app; [reflexivity|]. apply printable_app; [apply hex4_printable; lia|].
  apply printable_app; [reflexivity|]. apply hex4_printable; lia.
Qed.
Lemma dump_str_printable u : Forall character u -> printable (dump_str u).
Proof.
  intros H. unfold dump_str. apply printable_app; [reflexivity|]. apply printable_app; [|reflexivity].
  induction H; [reflexivity|]. cbn [escapes]. apply printable_app; [apply escape_printable; assumption|assumption].
Qed.
Lemma digits_printable d : all_digits d -> printable d.
Proof.
  induction d as [|c d IH]; [reflexivity|]. intros A. apply all_digits_cons in A. destruct A as [A B]. unfold printable. cbn [sforall].
  apply is_digit_iff in A. destruct A as (n & N & ->). rewrite N_back by lia.
  rewrite (proj2 (N.leb_le 32 (48 + n))) by lia. rewrite (proj2 (N.leb_le (48 + n) 126)) by lia. exact (IH B).
Qed.
Lemma number_printable t : number_text t -> printable t.
Proof.
  intros (m & i & f & e & M & I & F & E & ->). repeat apply printable_app.
  - destruct M as [->| ->]; reflexivity.
  - destruct I as [->|[[_ D] _]]; [reflexivity|apply digits_printable; exact D].
  - destruct F as [->|(d & [_ D] & ->)]; [reflexivity|]. apply printable_app; [reflexivity|apply digits_printable; exact D].
  - destruct E as [->|(x & g & d & X & G & [_ D] & ->)]; [reflexivity|]. repeat apply printable_app.
    + destruct X as [->| ->]; reflexivity.
    + destruct G as [->|[->| ->]]; reflexivity.
    + apply digits_printable; exact D.
Qed.
Lemma dumps_printable v : proper v -> printable (dumps v).
Proof.
  induction v as [| | |t|u|l IH|l IH] using json_ind'; intros P; cbn [dumps]; try reflexivity.
  - inversion P. apply number_printable. assumption.
  - inversion P. apply dump_str_printable. assumption.
  - inversion P as [| | | | |l' F|]; subst. clear P. fold dump_items. apply printable_app; [reflexivity|]. apply printable_app; [|reflexivity].
    induction l as [|v l IHl]; [reflexivity|]. inversion IH as [|? ? IH1 IH2]; inversion F as [|? ? F1 F2]; subst.
    destruct l as [|w l]; [exact (IH1 F1)|].
    change (dump_items (v :: w :: l)) with (dumps v +++ ", " +++ dump_items (w :: l)).
    apply printable_app; [exact (IH1 F1)|]. apply printable_app; [reflexivity|]. exact (IHl IH2 F2).
  - inversion P as [| | | | | |l' F]; subst. clear P. fold dump_members. apply printable_app; [reflexivity|]. apply printable_app; [|reflexivity].
    induction l as [|[k v] l IHl]; [reflexivity|]. inversion IH as [|? ? IH1 IH2]; inversion F as [|? ? F1 F2]; subst.
    destruct F1 as [K1 K2]. cbn [fst snd] in *.
    assert (Q : forall s, printable s -> printable (dump_str k +++ ": " +++ dumps v +++ s)).
    { intros s S. apply printable_app; [apply dump_str_printable; exact K1|]. apply printable_app; [reflexivity|]. apply printable_app; [exact (IH1 K2)|exact S]. }
    destruct l as [|w l].
    + cbn [dump_members]. rewrite <- (app_nil_s (dumps v)). apply Q. reflexivity.
    + change (dump_members ((k, v) :: w :: l)) with (dump_str k +++ ": " +++ dumps v +++ (", " +++ dump_members (w :: l))).
      apply Q. apply printable_app; [reflexivity|]. exact (IHl IH2 F2).
Qed.
