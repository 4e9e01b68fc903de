(** The UTF-8 check against the definition of UTF-8 *)
From Coq Require Import String Ascii List Bool Arith ZArith Lia.
From Verif Require Import Base FileSys SpecUtf8.
Import ListNotations.
Open Scope string_scope.
Open Scope list_scope.
Open Scope Z_scope.

Definition zb (c : ascii) : Z := Z.of_nat (nat_of_ascii c).
Lemma zb_range c : 0 <= zb c < 256.
Proof. unfold zb. pose proof (nat_ascii_bounded c). lia. Qed.
Lemma zb_byte n : 0 <= n < 256 -> zb (byte n) = n.
Proof.
  intros H. unfold zb, byte, nat_of_ascii. rewrite N_ascii_embedding by lia. lia.
Qed.
Lemma byte_zb c : byte (zb c) = c.
Proof.
  unfold zb, byte, nat_of_ascii. rewrite N_nat_Z, N2Z.id. apply ascii_N_embedding.
Qed.
Lemma zb_eq c n : zb c = n -> c = byte n.
Proof. intros <-. symmetry. apply byte_zb. Qed.

(** the check, one byte at a time, on numbers *)
Lemma aux_need k lo hi c s : utf8_valid_aux (S k) lo hi (String c s) = true <->
  Z.of_nat lo <= zb c <= Z.of_nat hi /\ utf8_valid_aux k 128 191 s = true.
Proof.
  cbn [utf8_valid_aux]. unfold zb. split.
  - intros H. apply andb_prop in H as [H1 H2]. apply andb_prop in H1 as [H1 H3].
    apply Nat.leb_le in H1, H3. split; [lia|exact H2].
  - intros [H1 H2]. rewrite H2. rewrite (proj2 (Nat.leb_le _ _)), (proj2 (Nat.leb_le _ _)) by lia. reflexivity.
Qed.
Lemma aux_empty k lo hi : utf8_valid_aux (S k) lo hi "" = false.
Proof. reflexivity. Qed.
Definition start_rule (z : Z) (s : string) : bool :=
  if z <=? 127 then utf8_valid_aux 0 128 191 s
  else if (194 <=? z) && (z <=? 223) then utf8_valid_aux 1 128 191 s
  else if z =? 224 then utf8_valid_aux 2 160 191 s
  else if z =? 237 then utf8_valid_aux 2 128 159 s
  else if (225 <=? z) && (z <=? 239) then utf8_valid_aux 2 128 191 s
  else if z =? 240 then utf8_valid_aux 3 144 191 s
  else if (241 <=? z) && (z <=? 243) then utf8_valid_aux 3 128 191 s
  else if z =? 244 then utf8_valid_aux 3 128 143 s
  else false.
Lemma leb_z a b : (a <=? b)%nat = (Z.of_nat a <=? Z.of_nat b).
Proof. destruct (Nat.leb_spec a b), (Z.leb_spec (Z.of_nat a) (Z.of_nat b)); auto; lia. Qed.
Lemma eqb_z a b : (a =? b)%nat = (Z.of_nat a =? Z.of_nat b).
Proof. destruct (Nat.eqb_spec a b), (Z.eqb_spec (Z.of_nat a) (Z.of_nat b)); auto; lia. Qed.
Lemma aux_start lo hi c s : utf8_valid_aux 0 lo hi (String c s) = start_rule (zb c) s.
Proof. cbn [utf8_valid_aux]. rewrite !leb_z, !eqb_z. reflexivity. Qed.
Lemma valid_start c s : utf8_valid (String c s) = start_rule (zb c) s.
Proof. apply aux_start. Qed.

Ltac zif := repeat match goal with |- context [if ?b then _ else _] =>
  let E := fresh "E" in destruct b eqn:E; [try (exfalso; lia)|try (exfalso; lia)] end.

Lemma encode_valid n rest : scalar n -> utf8_valid rest = true -> utf8_valid (encode_char n +++ rest) = true.
Proof.
  intros Hn Hr. unfold encode_char, scalar in *.
  destruct (n <? 128) eqn:E1; [|destruct (n <? 2048) eqn:E2; [|destruct (n <? 65536) eqn:E3]]; cbn [str1 String.append]; rewrite valid_start.
  - rewrite zb_byte by lia. unfold start_rule. destruct (n <=? 127) eqn:E; [exact Hr|lia].
  - assert (2 <= n / 64 < 32) by (Z.to_euclidean_division_equations; lia).
    assert (0 <= n mod 64 < 64) by (apply Z.mod_pos_bound; lia).
    rewrite zb_byte by lia. unfold start_rule. zif. apply aux_need. rewrite zb_byte by lia. split; [lia|exact Hr].
  - assert (0 <= n / 4096 < 16) by (Z.to_euclidean_division_equations; lia).
    assert (0 <= n / 64 mod 64 < 64) by (apply Z.mod_pos_bound; lia).
    assert (0 <= n mod 64 < 64) by (apply Z.mod_pos_bound; lia).
    assert (n = 4096 * (n / 4096) + 64 * (n / 64 mod 64) + n mod 64).
    { Z.to_euclidean_division_equations. lia. }
    rewrite zb_byte by lia. unfold start_rule. zif; apply aux_need; rewrite zb_byte by lia; (split; [lia|]); apply aux_need; rewrite zb_byte by lia; (split; [lia|exact Hr]).
  - assert (0 <= n / 262144 < 5) by (Z.to_euclidean_division_equations; lia).
    assert (0 <= n / 4096 mod 64 < 64) by (apply Z.mod_pos_bound; lia).
    assert (0 <= n / 64 mod 64 < 64) by (apply Z.mod_pos_bound; lia).
    assert (0 <= n mod 64 < 64) by (apply Z.mod_pos_bound; lia).
    assert (n = 262144 * (n / 262144) + 4096 * (n / 4096 mod 64) + 64 * (n / 64 mod 64) + n mod 64).
    { Z.to_euclidean_division_equations. lia. }
    rewrite zb_byte by lia. unfold start_rule. zif; apply aux_need; rewrite zb_byte by lia; (split; [lia|]);
    apply aux_need; rewrite zb_byte by lia; (split; [lia|]); apply aux_need; rewrite zb_byte by lia; (split; [lia|exact Hr]).
Qed.

Lemma need_inv k lo hi s : utf8_valid_aux (S k) lo hi s = true ->
  exists c s', s = String c s' /\ Z.of_nat lo <= zb c <= Z.of_nat hi /\ utf8_valid_aux k 128 191 s' = true.
Proof.
  destruct s as [|c s]; [discriminate|]. intros H. apply aux_need in H as [H1 H2]. eauto.
Qed.

Lemma valid_inv c s : utf8_valid (String c s) = true ->
  exists n rest, scalar n /\ String c s = encode_char n +++ rest /\ utf8_valid rest = true /\ (String.length rest <= String.length s)%nat.
Proof.
  rewrite valid_start. pose proof (zb_range c) as R. unfold start_rule.
  assert (T2 : forall a b x y, zb a = x -> zb b = y -> String a (str1 b) = String (byte x) (str1 (byte y))) by (intros; subst; rewrite !byte_zb; reflexivity).
  destruct (zb c <=? 127) eqn:E1.
  { intros H. exists (zb c), s. unfold scalar, encode_char. assert (X : zb c <? 128 = true) by lia. rewrite X, byte_zb.
    split; [lia|]. split; [reflexivity|]. split; [exact H|lia]. }
  destruct ((194 <=? zb c) && (zb c <=? 223)) eqn:E2.
  { intros H. apply need_inv in H as (c1 & s1 & -> & B1 & H).
    exists (64 * (zb c - 192) + (zb c1 - 128)), s1. unfold scalar, encode_char. set (n := 64 * (zb c - 192) + (zb c1 - 128)) in *.
    assert (D1 : n / 64 = zb c - 192) by (subst n; Z.to_euclidean_division_equations; lia).
    assert (D2 : n mod 64 = zb c1 - 128) by (subst n; Z.to_euclidean_division_equations; lia).
    rewrite D1, D2. assert (X1 : n <? 128 = false) by lia. assert (X2 : n <? 2048 = true) by lia. rewrite X1, X2.
    replace (192 + (zb c - 192)) with (zb c) by lia. replace (128 + (zb c1 - 128)) with (zb c1) by lia. rewrite !byte_zb.
    split; [lia|]. split; [reflexivity|]. split; [exact H|cbn; lia]. }
  assert (Three : forall lo hi, utf8_valid_aux 2 lo hi s = true -> 224 <= zb c <= 239 -> (128 <= lo)%nat -> (hi <= 191)%nat ->
    (zb c = 224 -> (160 <= lo)%nat) -> (zb c = 237 -> (hi <= 159)%nat) ->
    exists n rest, scalar n /\ String c s = encode_char n +++ rest /\ utf8_valid rest = true /\ (String.length rest <= String.length s)%nat).
  { intros lo hi H B0 L1 L2 L3 L4. apply need_inv in H as (c1 & s1 & -> & B1 & H). apply need_inv in H as (c2 & s2 & -> & B2 & H).
    exists (4096 * (zb c - 224) + 64 * (zb c1 - 128) + (zb c2 - 128)), s2. unfold scalar, encode_char. set (n := 4096 * (zb c - 224) + 64 * (zb c1 - 128) + (zb c2 - 128)) in *.
    assert (D1 : n / 4096 = zb c - 224) by (subst n; Z.to_euclidean_division_equations; lia).
    assert (D2 : n / 64 mod 64 = zb c1 - 128) by (subst n; Z.to_euclidean_division_equations; lia).
    assert (D3 : n mod 64 = zb c2 - 128) by (subst n; Z.to_euclidean_division_equations; lia).
    rewrite D1, D2, D3. assert (X1 : n <? 128 = false) by lia. assert (X2 : n <? 2048 = false) by lia. assert (X3 : n <? 65536 = true) by lia. rewrite X1, X2, X3.
    replace (224 + (zb c - 224)) with (zb c) by lia. replace (128 + (zb c1 - 128)) with (zb c1) by lia. replace (128 + (zb c2 - 128)) with (zb c2) by lia. rewrite !byte_zb.
    split; [lia|]. split; [reflexivity|]. split; [exact H|cbn; lia]. }
  assert (Four : forall lo hi, utf8_valid_aux 3 lo hi s = true -> 240 <= zb c <= 244 -> (128 <= lo)%nat -> (hi <= 191)%nat ->
    (zb c = 240 -> (144 <= lo)%nat) -> (zb c = 244 -> (hi <= 143)%nat) ->
    exists n rest, scalar n /\ String c s = encode_char n +++ rest /\ utf8_valid rest = true /\ (String.length rest <= String.length s)%nat).
  { intros lo hi H B0 L1 L2 L3 L4. apply need_inv in H as (c1 & s1 & -> & B1 & H). apply need_inv in H as (c2 & s2 & -> & B2 & H). apply need_inv in H as (c3 & s3 & -> & B3 & H).
    exists (262144 * (zb c - 240) + 4096 * (zb c1 - 128) + 64 * (zb c2 - 128) + (zb c3 - 128)), s3. unfold scalar, encode_char.
    set (n := 262144 * (zb c - 240) + 4096 * (zb c1 - 128) + 64 * (zb c2 - 128) + (zb c3 - 128)) in *.
    assert (D0 : n / 262144 = zb c - 240) by (subst n; Z.to_euclidean_division_equations; lia).
    assert (D1 : n / 4096 mod 64 = zb c1 - 128) by (subst n; Z.to_euclidean_division_equations; lia).
    assert (D2 : n / 64 mod 64 = zb c2 - 128) by (subst n; Z.to_euclidean_division_equations; lia).
    assert (D3 : n mod 64 = zb c3 - 128) by (subst n; Z.to_euclidean_division_equations; lia).
    rewrite D0, D1, D2, D3. assert (X1 : n <? 128 = false) by lia. assert (X2 : n <? 2048 = false) by lia. assert (X3 : n <? 65536 = false) by lia. rewrite X1, X2, X3.
    replace (240 + (zb c - 240)) with (zb c) by lia. replace (128 + (zb c1 - 128)) with (zb c1) by lia. replace (128 + (zb c2 - 128)) with (zb c2) by lia. replace (128 + (zb c3 - 128)) with (zb c3) by lia. rewrite !byte_zb.
    split; [lia|]. split; [reflexivity|]. split; [exact H|cbn; lia]. }
  destruct (zb c =? 224) eqn:E3; [intros H; apply (Three _ _ H); lia|].
  destruct (zb c =? 237) eqn:E4; [intros H; apply (Three _ _ H); lia|].
  destruct ((225 <=? zb c) && (zb c <=? 239)) eqn:E5; [intros H; apply (Three _ _ H); lia|].
  destruct (zb c =? 240) eqn:E6; [intros H; apply (Four _ _ H); lia|].
  destruct ((241 <=? zb c) && (zb c <=? 243)) eqn:E7; [intros H; apply (Four _ _ H); lia|].
  destruct (zb c =? 244) eqn:E8; [intros H; apply (Four _ _ H); lia|discriminate].
Qed.

Theorem utf8_spec s : utf8_valid s = true <-> utf8_text s.
Proof.
  split.
  - remember (String.length s) as n eqn:Ln. assert (L : (String.length s <= n)%nat) by lia. clear Ln. revert s L.
    induction n as [|n IH]; intros s L H.
    + destruct s; [|cbn in L; lia]. exists []. split; [constructor|reflexivity].
    + destruct s as [|c s]; [exists []; split; [constructor|reflexivity]|].
      apply valid_inv in H as (x & rest & Hx & E & Hr & Lr). cbn [String.length] in L.
      destruct (IH rest ltac:(lia) Hr) as (l & Fl & El). exists (x :: l). split; [constructor; auto|]. rewrite E, El. reflexivity.
  - intros (l & Fl & ->). induction Fl as [|x l Hx Fl IH]; [reflexivity|]. cbn [encode]. now apply encode_valid.
Qed.
