(** Proofs about buffers, write_stdin, framing *)
From Coq Require Import String Ascii List Bool Arith ZArith Lia.
From Verif Require Import Io IoProofs Stream SpecStream.
Import ListNotations.
Open Scope list_scope.

Lemma zlen_nonneg b : (0 <= zlen b)%Z. Proof. unfold zlen. lia. Qed.
Lemma zlen_app a b : (zlen (a ++ b) = zlen a + zlen b)%Z.
Proof. unfold zlen. rewrite app_length. lia. Qed.
Lemma zlen_zero b : zlen b = 0%Z -> b = [].
Proof. unfold zlen. destruct b; [auto|cbn; lia]. Qed.

(** ** Buffers *)
Lemma buffer_free_some tm b : (zlen b <= tm)%Z -> buffer_free tm b = Some (tm - zlen b)%Z.
Proof.
  intros H. unfold buffer_free. pose proof (zlen_nonneg b). destruct (Z.eqb_spec (zlen b) 0) as [E|E].
  - rewrite E. f_equal. lia.
  - unfold limited_free. destruct (Z.ltb_spec (zlen b) 0); [lia|]. destruct (Z.ltb_spec tm (zlen b)); [lia|]. reflexivity.
Qed.
Lemma buffer_free_inv tm b tm' : buffer_free tm b = Some tm' -> tm' = (tm - zlen b)%Z.
Proof.
  unfold buffer_free. destruct (Z.eqb_spec (zlen b) 0) as [E|E].
  - intros H; injection H as <-. lia.
  - unfold limited_free. destruct (_ || _); [discriminate|]. intros H; injection H as <-. reflexivity.
Qed.

Theorem buffer_append_spec tm b data r : buffer_append tm b data = Some r ->
  r = ((tm + zlen data)%Z, b ++ data) /\ (data <> [] -> (tm + zlen data + zlen b <= BUFFER_LIMIT)%Z).
Proof.
  unfold buffer_append. destruct (BUFFER_LIMIT <? zlen b)%Z; [discriminate|].
  destruct (BUFFER_LIMIT <? zlen data)%Z; [discriminate|]. destruct (Z.eqb_spec (zlen data) 0) as [E|E].
  - intros H; injection H as <-. apply zlen_zero in E. subst data. rewrite app_nil_r. split; [|tauto].
    f_equal. unfold zlen. cbn. lia.
  - unfold limited_malloc. destruct (Z.ltb_spec BUFFER_LIMIT (tm + (zlen data + zlen b))) as [L|L]; [discriminate|].
    destruct (zlen data + zlen b <=? 0)%Z; [discriminate|]. cbn [orb].
    destruct (buffer_free _ b) as [tm2|] eqn:Ef; [|discriminate]. apply buffer_free_inv in Ef.
    intros H; injection H as <-. split; [f_equal; lia|]. intros _. lia.
Qed.
Theorem buffer_append_ok tm b data : (zlen b <= tm)%Z -> (tm + zlen data + zlen b <= BUFFER_LIMIT)%Z ->
  buffer_append tm b data = Some ((tm + zlen data)%Z, b ++ data).
Proof.
  intros Hb Hl. unfold buffer_append. pose proof (zlen_nonneg b). pose proof (zlen_nonneg data).
  destruct (Z.ltb_spec BUFFER_LIMIT (zlen b)); [lia|]. destruct (Z.ltb_spec BUFFER_LIMIT (zlen data)); [lia|].
  destruct (Z.eqb_spec (zlen data) 0) as [E|E].
  - pose proof (zlen_zero _ E). subst data. rewrite app_nil_r. f_equal. f_equal. unfold zlen. cbn. lia.
  - unfold limited_malloc. destruct (Z.ltb_spec BUFFER_LIMIT (tm + (zlen data + zlen b))); [lia|].
    destruct (Z.leb_spec (zlen data + zlen b) 0); [lia|]. cbn [orb]. rewrite buffer_free_some by lia.
    f_equal. f_equal. lia.
Qed.

Theorem buffer_remove_spec tm b n r : buffer_remove tm b n = Some r ->
  n <= length b /\ r = ((tm - Z.of_nat n)%Z, skipn n b).
Proof.
  unfold buffer_remove. destruct (Nat.ltb_spec (length b) n) as [L|L]; [discriminate|].
  destruct (Z.ltb_spec 0 (zlen b - Z.of_nat n)) as [P|P].
  - unfold limited_malloc. destruct (_ || _); [discriminate|]. destruct (buffer_free _ b) as [tm2|] eqn:Ef; [|discriminate].
    apply buffer_free_inv in Ef. intros H; injection H as <-. split; [exact L|]. f_equal. lia.
  - destruct (buffer_free _ b) as [tm2|] eqn:Ef; [|discriminate].
    apply buffer_free_inv in Ef. intros H; injection H as <-. split; [exact L|]. f_equal. unfold zlen in *. lia.
Qed.
Theorem buffer_remove_ok tm b n : n <= length b -> (zlen b <= tm)%Z ->
  (n = length b \/ (tm + (zlen b - Z.of_nat n) <= BUFFER_LIMIT)%Z) ->
  buffer_remove tm b n = Some ((tm - Z.of_nat n)%Z, skipn n b).
Proof.
  intros Hn Hb Hl. unfold buffer_remove. destruct (Nat.ltb_spec (length b) n); [lia|].
  destruct (Z.ltb_spec 0 (zlen b - Z.of_nat n)) as [P|P].
  - destruct Hl as [->|Hl]; [unfold zlen in P; lia|]. unfold limited_malloc.
    destruct (Z.ltb_spec BUFFER_LIMIT (tm + (zlen b - Z.of_nat n))); [lia|].
    destruct (Z.leb_spec (zlen b - Z.of_nat n) 0); [lia|]. cbn [orb]. rewrite buffer_free_some by lia. f_equal. f_equal. lia.
  - rewrite buffer_free_some by lia. f_equal. f_equal. unfold zlen in *. lia.
Qed.

Lemma set_nth_length i x bs : length (set_nth i x bs) = length bs.
Proof. revert i. induction bs as [|b bs IH]; intros [|i]; cbn; auto. Qed.
Lemma set_nth_same i x bs : i < length bs -> nth i (set_nth i x bs) [] = x.
Proof. revert i. induction bs as [|b bs IH]; intros [|i] H; cbn in *; try lia; auto. apply IH. lia. Qed.
Lemma set_nth_other i j x bs : i <> j -> nth j (set_nth i x bs) [] = nth j bs [].
Proof. revert i j. induction bs as [|b bs IH]; intros [|i] [|j] H; cbn; try lia; auto. Qed.
Lemma total_set_nth i x bs : i < length bs ->
  total_len (set_nth i x bs) = (total_len bs - zlen (nth i bs []) + zlen x)%Z.
Proof.
  unfold total_len. revert i. induction bs as [|b bs IH]; intros [|i] H; cbn [set_nth fold_right nth length] in *; try lia. rewrite IH by lia. lia.
Qed.

Definition bop_index (op : bop) : nat := match op with BAppend i _ => i | BRemove i _ => i end.

Theorem run_bops_spec ops : forall tm bs tm' bs', Forall (fun op => bop_index op < length bs) ops ->
  tm = total_len bs -> (tm <= BUFFER_LIMIT)%Z ->
  run_bops ops tm bs = Some (tm', bs') ->
  length bs' = length bs /\ tm' = total_len bs' /\ (tm' <= BUFFER_LIMIT)%Z /\
  forall i, i < length bs -> exists taken, length taken = removed i ops /\ nth i bs [] ++ appended i ops = taken ++ nth i bs' [].
Proof.
  induction ops as [|op ops IH]; intros tm bs tm' bs' Hi Ht Hl H.
  - cbn in H. injection H as <- <-. split; [reflexivity|]. split; [exact Ht|]. split; [exact Hl|].
    intros i _. exists []. split; [reflexivity|]. cbn. apply app_nil_r.
  - inversion Hi as [|? ? Hi1 Hi2]; subst. destruct op as [j d|j n]; cbn [run_bops bop_index] in *.
    + destruct (buffer_append _ _ d) as [[tm1 b1]|] eqn:E; [|discriminate].
      apply buffer_append_spec in E as [E Hlim]. injection E as -> ->.
      assert (Htot : (total_len bs + zlen d)%Z = total_len (set_nth j (nth j bs [] ++ d) bs)).
      { rewrite total_set_nth by exact Hi1. rewrite zlen_app. lia. }
      assert (Hlim2 : (total_len bs + zlen d <= BUFFER_LIMIT)%Z).
      { destruct d as [|a d]. { unfold zlen; cbn [length]; lia. } pose proof (zlen_nonneg (nth j bs [])). specialize (Hlim ltac:(discriminate)). lia. }
      apply IH in H; [|rewrite set_nth_length; exact Hi2|exact Htot|exact Hlim2]. rewrite set_nth_length in H.
      destruct H as (A & B & C & D). split; [exact A|]. split; [exact B|]. split; [exact C|].
      intros i Hii. destruct (D i Hii) as (taken & T1 & T2). exists taken. cbn [removed appended].
      split; [exact T1|]. destruct (Nat.eqb_spec i j) as [->|Hne].
      * rewrite set_nth_same in T2 by exact Hi1. rewrite app_assoc. exact T2.
      * rewrite set_nth_other in T2 by congruence. exact T2.
    + destruct (buffer_remove _ _ n) as [[tm1 b1]|] eqn:E; [|discriminate].
      apply buffer_remove_spec in E as [Hn E]. injection E as -> ->.
      assert (Htot : (total_len bs - Z.of_nat n)%Z = total_len (set_nth j (skipn n (nth j bs [])) bs)).
      { rewrite total_set_nth by exact Hi1. unfold zlen. rewrite skipn_length. lia. }
      apply IH in H; [|rewrite set_nth_length; exact Hi2|exact Htot|lia]. rewrite set_nth_length in H.
      destruct H as (A & B & C & D). split; [exact A|]. split; [exact B|]. split; [exact C|].
      intros i Hii. destruct (D i Hii) as (taken & T1 & T2). cbn [removed appended].
      destruct (Nat.eqb_spec i j) as [->|Hne].
      * rewrite set_nth_same in T2 by exact Hi1. exists (firstn n (nth j bs []) ++ taken). split.
        -- rewrite app_length, firstn_length_le by exact Hn. lia.
        -- rewrite <- app_assoc, <- T2, app_assoc, firstn_skipn. reflexivity.
      * rewrite set_nth_other in T2 by congruence. exists taken. split; [exact T1|exact T2].
Qed.

(** ** write_stdin and flush_client_data *)
Theorem flush_loop_spec script : forall tm b s w tm' b', flush_loop script tm b = Some (s, w, tm', b') ->
  b = w ++ b' /\ (s = WOk <-> b' = []) /\ tm' = (tm - zlen w)%Z.
Proof.
  induction script as [|o script IH]; intros tm b s w tm' b'; cbn [flush_loop].
  - destruct b; intros H; injection H as <- <- <- <-; (split; [reflexivity|]); (split; [split; congruence|unfold zlen; cbn; lia]).
  - destruct b as [|a b0]. { intros H; injection H as <- <- <- <-; (split; [reflexivity|]); (split; [split; congruence|unfold zlen; cbn; lia]). }
    set (b := a :: b0) in *.
    destruct o as [k| | |]; try (intros H; injection H as <- <- <- <-; (split; [reflexivity|]); (split; [split; unfold b; congruence|unfold zlen; cbn; lia])).
    cbv zeta. set (n := Nat.min k (length b)). destruct (buffer_remove tm b n) as [[tm1 b1]|] eqn:E; [|discriminate].
    apply buffer_remove_spec in E as [Hn E]. injection E as -> ->.
    destruct (flush_loop script _ _) as [[[[s1 w1] tm2] b2]|] eqn:E2; [|discriminate].
    intros H; injection H as <- <- <- <-. destruct (IH _ _ _ _ _ _ E2) as (A & B & C). split; [|split].
    + rewrite <- app_assoc, <- A. symmetry. apply firstn_skipn.
    + exact B.
    + rewrite zlen_app. assert (zlen (firstn n b) = Z.of_nat n) by (unfold zlen; rewrite firstn_length_le by exact Hn; reflexivity). lia.
Qed.
(** A flush of a buffer that is at most half of the limit never aborts *)
Theorem flush_loop_total script : forall tm b, (zlen b <= tm)%Z -> (tm + zlen b <= BUFFER_LIMIT)%Z -> flush_loop script tm b <> None.
Proof.
  induction script as [|o script IH]; intros tm b Hb Hl; cbn [flush_loop].
  - destruct b; discriminate.
  - destruct b as [|a b0]; [discriminate|]. set (b := a :: b0) in *. destruct o as [k| | |]; try discriminate.
    cbv zeta. set (n := Nat.min k (length b)).
    assert (Hn : n <= length b) by (unfold n; lia).
    rewrite buffer_remove_ok; [|exact Hn|exact Hb|right; lia].
    assert (L : zlen (skipn n b) = (zlen b - Z.of_nat n)%Z) by (unfold zlen; rewrite skipn_length; lia).
    specialize (IH (tm - Z.of_nat n)%Z (skipn n b) ltac:(lia) ltac:(lia)).
    destruct (flush_loop script _ _) as [[[[s1 w1] tm2] b2]|]; [discriminate|]. contradiction.
Qed.

Theorem write_loop_spec script : forall tm data s w tm' b', write_loop script tm data = Some (s, w, tm', b') ->
  is_prefix w data /\ (s <> WError -> data = w ++ b') /\ (s = WOk -> b' = []) /\ tm' = (tm + zlen b')%Z /\
  (s = WBuffered -> b' <> []) /\ (s = WError -> b' = []).
Proof.
  induction script as [|o script IH]; intros tm data s w tm' b'; cbn [write_loop].
  - destruct data as [|a data].
    + intros H; injection H as <- <- <- <-. split; [exists []; reflexivity|]. split; [auto|]. split; [auto|]. split; [unfold zlen; cbn; lia|]. split; discriminate.
    + destruct (buffer_append tm [] (a :: data)) as [[tm1 b1]|] eqn:E; [|discriminate]. apply buffer_append_spec in E as [E _]. injection E as -> ->.
      intros H; injection H as <- <- <- <-. split; [eexists; reflexivity|]. split; [auto|]. split; [discriminate|]. split; [reflexivity|]. split; discriminate.
  - destruct data as [|a data0].
    { intros H; injection H as <- <- <- <-. split; [exists []; reflexivity|]. split; [auto|]. split; [auto|]. split; [unfold zlen; cbn; lia|]. split; discriminate. }
    set (data := a :: data0) in *. destruct o as [k| | |].
    + destruct (Nat.min k (length data)) as [|n0] eqn:En; [discriminate|]. rewrite <- En.
      assert (Hn : Nat.min k (length data) <= length data) by lia. set (n := Nat.min k (length data)) in *.
      destruct (write_loop script tm (skipn n data)) as [[[[s1 w1] tm1] b1]|] eqn:E; [|discriminate].
      intros H; injection H as <- <- <- <-. destruct (IH _ _ _ _ _ _ E) as ((rest & A) & B & C & D & F & G). split; [|split; [|split; [|split; [|split]]]]; auto.
      * exists rest. rewrite <- app_assoc, <- A. symmetry. apply firstn_skipn.
      * intros Hs. rewrite <- app_assoc, <- (B Hs). symmetry. apply firstn_skipn.
    + intros H; injection H as <- <- <- <-. split; [eexists; reflexivity|]. split; [congruence|]. split; [auto|]. split; [unfold zlen; cbn; lia|]. split; [discriminate|auto].
    + destruct (buffer_append tm [] data) as [[tm1 b1]|] eqn:E; [|discriminate]. apply buffer_append_spec in E as [E _]. injection E as -> ->.
      intros H; injection H as <- <- <- <-. split; [eexists; reflexivity|]. split; [auto|]. split; [discriminate|]. split; [reflexivity|]. split; [intros _; discriminate|discriminate].
    + intros H; injection H as <- <- <- <-. split; [eexists; reflexivity|]. split; [congruence|]. split; [auto|]. split; [unfold zlen; cbn; lia|]. split; [discriminate|auto].
Qed.

Theorem write_stdin_spec script tm data b s w tm' b' : write_stdin script tm data b = Some (s, w, tm', b') ->
  is_prefix w (b ++ data) /\ (s <> WError -> b ++ data = w ++ b') /\ (s = WOk -> b' = []) /\ (s = WError -> b' = []) /\
  (tm' - zlen b' = tm - zlen b)%Z.
Proof.
  unfold write_stdin. destruct b as [|a b0].
  - intros H. apply write_loop_spec in H as (A & B & C & D & _ & F). cbn [app]. split; [exact A|]. split; [exact B|]. split; [exact C|]. split; [exact F|].
    unfold zlen in *. cbn [length] in *. lia.
  - remember (a :: b0) as b eqn:Eb. clear Eb a b0. destruct (buffer_append tm b data) as [[tm1 b1]|] eqn:E; [|discriminate].
    apply buffer_append_spec in E as [E _]. injection E as -> ->. intros H; injection H as <- <- <- <-.
    split; [eexists; reflexivity|]. split; [auto|]. split; [discriminate|]. split; [discriminate|]. rewrite zlen_app. lia.
Qed.

Theorem run_wops_spec ops : forall tm b ok w tm' b', run_wops ops tm b = Some (ok, w, tm', b') ->
  is_prefix w (b ++ received ops) /\ (ok = true -> b ++ received ops = w ++ b').
Proof.
  induction ops as [|op ops IH]; intros tm b ok w tm' b' H.
  - cbn in H. injection H as <- <- <- <-. cbn. rewrite app_nil_r. split; [exists b; reflexivity|auto].
  - destruct op as [d script|script]; cbn [run_wops received] in *.
    + destruct (write_stdin script tm d b) as [[[[s1 w1] tm1] b1]|] eqn:E; [|discriminate].
      apply write_stdin_spec in E as (A & B & C & D & _). rewrite app_assoc.
      assert (Go : s1 <> WError -> match run_wops ops tm1 b1 with None => None | Some (ok, w', tm, b) => Some (ok, w1 ++ w', tm, b) end = Some (ok, w, tm', b') ->
        is_prefix w ((b ++ d) ++ received ops) /\ (ok = true -> (b ++ d) ++ received ops = w ++ b')).
      { intros Hs. rewrite (B Hs). destruct (run_wops ops tm1 b1) as [[[[ok2 w2] tm2] b2]|] eqn:E2; [|discriminate].
        intros X; injection X as <- <- <- <-. destruct (IH _ _ _ _ _ _ E2) as [(rest & P) Q]. split.
        - exists rest. rewrite <- !app_assoc, <- P. reflexivity.
        - intros Hok. rewrite <- !app_assoc, <- (Q Hok). reflexivity. }
      destruct s1; [apply Go; [discriminate|exact H]|apply Go; [discriminate|exact H]|].
      injection H as <- <- <- <-. split; [|discriminate]. destruct A as [rest A]. exists (rest ++ received ops). rewrite A, <- app_assoc. reflexivity.
    + destruct (flush_client_data true script tm b) as [[[[s1 w1] tm1] b1]|] eqn:E; [|discriminate]. cbn [flush_client_data] in E.
      apply flush_loop_spec in E as (A & B & _).
      assert (Go : match run_wops ops tm1 b1 with None => None | Some (ok, w', tm, b) => Some (ok, w1 ++ w', tm, b) end = Some (ok, w, tm', b') ->
        is_prefix w (b ++ received ops) /\ (ok = true -> b ++ received ops = w ++ b')).
      { rewrite A. destruct (run_wops ops tm1 b1) as [[[[ok2 w2] tm2] b2]|] eqn:E2; [|discriminate].
        intros X; injection X as <- <- <- <-. destruct (IH _ _ _ _ _ _ E2) as [(rest & P) Q]. split.
        - exists rest. rewrite <- !app_assoc, <- P. reflexivity.
        - intros Hok. rewrite <- !app_assoc, <- (Q Hok). reflexivity. }
      destruct s1; [apply Go; exact H|apply Go; exact H|]. injection H as <- <- <- <-. split; [|discriminate].
      exists (b1 ++ received ops). rewrite A, <- app_assoc. reflexivity.
Qed.

(** ** do_replace_chars *)
Theorem replace_char_spec c : (kept_char c -> replace_char c = c) /\ (~ kept_char c -> replace_char c = "_"%char).
Proof.
  unfold kept_char, replace_char. set (n := nat_of_ascii c). cbn [In].
  destruct (Nat.ltb_spec n 32), (Nat.ltb_spec 126 n), (Nat.eqb_spec n 9), (Nat.eqb_spec n 10), (Nat.eqb_spec n 13), (Nat.eqb_spec n 8), (Nat.eqb_spec n 7);
    cbn [orb andb negb]; split; intros; try reflexivity; exfalso; lia.
Qed.
Theorem do_replace_chars_app a b : do_replace_chars (a ++ b) = do_replace_chars a ++ do_replace_chars b.
Proof. apply map_app. Qed.
Lemma do_replace_chars_length a : length (do_replace_chars a) = length a.
Proof. apply map_length. Qed.

(** ** Encoding *)
Lemma zbyte_byte_of z : zbyte (byte_of z) = (z mod 256)%Z.
Proof.
  unfold zbyte, byte_of. pose proof (Z.mod_pos_bound z 256 ltac:(lia)) as B.
  rewrite N_ascii_embedding by lia. lia.
Qed.
Lemma byte_of_zbyte c z : (z mod 256 = zbyte c)%Z -> byte_of z = c.
Proof. intros H. unfold byte_of. rewrite H. unfold zbyte. rewrite N2Z.id. apply ascii_N_embedding. Qed.
Lemma zbyte_bound c : (0 <= zbyte c < 256)%Z.
Proof. unfold zbyte. pose proof (N_ascii_bounded c). lia. Qed.
Lemma dec32_enc32 z rest : (0 <= z < 4294967296)%Z -> dec32 (enc32 z ++ rest) = z.
Proof.
  intros H. cbn [enc32 app dec32]. rewrite !zbyte_byte_of.
  pose proof (Z.div_mod z 256 ltac:(lia)).
  pose proof (Z.div_mod (z / 256) 256 ltac:(lia)) as H1. rewrite Z.div_div in H1 by lia. change (256 * 256)%Z with 65536%Z in H1.
  pose proof (Z.div_mod (z / 65536) 256 ltac:(lia)) as H2. rewrite Z.div_div in H2 by lia. change (65536 * 256)%Z with 16777216%Z in H2.
  rewrite (Z.mod_small (z / 16777216) 256). { lia. }
  split; [apply Z.div_pos; lia|]. apply Z.div_lt_upper_bound; lia.
Qed.
Lemma enc32_dec32 c0 c1 c2 c3 rest : enc32 (dec32 (c0 :: c1 :: c2 :: c3 :: rest)) = [c0; c1; c2; c3].
Proof.
  cbn [dec32]. pose proof (zbyte_bound c0). pose proof (zbyte_bound c1). pose proof (zbyte_bound c2). pose proof (zbyte_bound c3).
  set (z := (zbyte c0 + 256 * zbyte c1 + 65536 * zbyte c2 + 16777216 * zbyte c3)%Z).
  assert (E1 : (z / 256 = zbyte c1 + 256 * zbyte c2 + 65536 * zbyte c3)%Z).
  { symmetry. apply (Z.div_unique z 256 _ (zbyte c0)); unfold z; lia. }
  assert (E2 : (z / 65536 = zbyte c2 + 256 * zbyte c3)%Z).
  { symmetry. apply (Z.div_unique z 65536 _ (zbyte c0 + 256 * zbyte c1)); unfold z; lia. }
  assert (E3 : (z / 16777216 = zbyte c3)%Z).
  { symmetry. apply (Z.div_unique z 16777216 _ (zbyte c0 + 256 * zbyte c1 + 65536 * zbyte c2)); unfold z; lia. }
  unfold enc32. rewrite E1, E2, E3. f_equal; [|f_equal; [|f_equal; [|f_equal]]]; apply byte_of_zbyte.
  - symmetry. apply (Z.mod_unique z 256 (z/256)); unfold z in *; lia.
  - symmetry. apply (Z.mod_unique _ 256 (zbyte c2 + 256 * zbyte c3)); lia.
  - symmetry. apply (Z.mod_unique _ 256 (zbyte c3)); lia.
  - apply Z.mod_small. lia.
Qed.
Lemma dec32_bound b : (0 <= dec32 b < 4294967296)%Z.
Proof.
  destruct b as [|c0 [|c1 [|c2 [|c3 b]]]]; cbn [dec32]; try lia.
  pose proof (zbyte_bound c0). pose proof (zbyte_bound c1). pose proof (zbyte_bound c2). pose proof (zbyte_bound c3). lia.
Qed.
Lemma enc32_length z : length (enc32 z) = 4. Proof. reflexivity. Qed.
Lemma enc32_inj a b : (0 <= a < 4294967296)%Z -> (0 <= b < 4294967296)%Z -> enc32 a = enc32 b -> a = b.
Proof. intros Ha Hb E. rewrite <- (dec32_enc32 a []), <- (dec32_enc32 b []) by assumption. now rewrite E. Qed.

(** the header at the front of a stream *)
Lemma header_split b : 8 <= length b -> b = enc32 (dec32 b) ++ enc32 (dec32 (skipn 4 b)) ++ skipn 8 b.
Proof.
  destruct b as [|c0 [|c1 [|c2 [|c3 [|c4 [|c5 [|c6 [|c7 b]]]]]]]]; cbn [length]; try lia. intros _.
  cbn [skipn]. rewrite !enc32_dec32. reflexivity.
Qed.
Lemma wire_app a b : wire (a ++ b) = wire a ++ wire b.
Proof. unfold wire. rewrite map_app, concat_app. reflexivity. Qed.
Lemma wire_cons m ms : wire (m :: ms) = frame m ++ wire ms.
Proof. reflexivity. Qed.
