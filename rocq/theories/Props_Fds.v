(** C103: programs get their own ends, and nobody keeps a copy *)
From Coq Require Import List Bool Arith Lia.
From Verif Require Import Fds SpecFds.
Import ListNotations.

Lemma put_same t n e : put t n e n = e.
Proof. unfold put. rewrite Nat.eqb_refl. reflexivity. Qed.
Lemma put_other t n e m : m <> n -> put t n e m = t m.
Proof. intros H. unfold put. apply Nat.eqb_neq in H. rewrite H. reflexivity. Qed.
Lemma search_spec t fuel : forall n m, search t n fuel = Some m -> n <= m /\ t m = None /\ (forall i, n <= i < m -> t i <> None).
Proof.
  induction fuel as [|fuel IH]; intros n m H; cbn [search] in H; [discriminate|].
  destruct (t n) as [e|] eqn:E.
  - apply IH in H as (A & B & C). split; [lia|]. split; [exact B|]. intros i Hi. destruct (Nat.eq_dec i n) as [->|]; [congruence|]. apply C. lia.
  - injection H as <-. split; [lia|]. split; [exact E|]. intros i Hi. lia.
Qed.
Lemma open_spec limit t f c n t' : open limit t f c = Some (n, t') ->
  t n = None /\ t' n = Some (mkEntry f c) /\ (forall m, m <> n -> t' m = t m) /\ ((forall i, i < 3 -> t i <> None) -> 3 <= n).
Proof.
  unfold open. destruct (search t 0 limit) as [m|] eqn:S; [|discriminate]. intros H. assert (m = n) by congruence. subst m.
  assert (t' = put t n (Some (mkEntry f c))) by congruence. subst t'. apply search_spec in S as (_ & A & B).
  split; [exact A|]. split; [apply put_same|]. split; [intros m; apply put_other|].
  intros H3. destruct (le_lt_dec 3 n) as [|L]; [assumption|]. destruct (H3 n L A).
Qed.
Lemma connection_spec limit t k c a b t' : connection limit t k c = Some (a, b, t') ->
  t a = None /\ t b = None /\ a <> b /\ t' a = Some (mkEntry (End k false) c) /\ t' b = Some (mkEntry (End k true) c) /\
  (forall m, m <> a -> m <> b -> t' m = t m) /\ ((forall i, i < 3 -> t i <> None) -> 3 <= a /\ 3 <= b).
Proof.
  unfold connection. destruct (open limit t (End k false) c) as [[a' t1]|] eqn:A; [|discriminate].
  destruct (open limit t1 (End k true) c) as [[b' t2]|] eqn:B; [|discriminate]. intros H.
  assert (a' = a) by congruence. assert (b' = b) by congruence. assert (t2 = t') by congruence. subst.
  apply open_spec in A as (A1 & A2 & A3 & A4). apply open_spec in B as (B1 & B2 & B3 & B4).
  assert (N : a <> b) by (intros ->; congruence).
  split; [exact A1|]. split; [rewrite <- A3 by congruence; exact B1|]. split; [exact N|]. split; [rewrite B3 by congruence; exact A2|]. split; [exact B2|].
  split. { intros m Ha Hb. rewrite B3 by exact Hb. apply A3, Ha. }
  intros H3. split; [apply A4, H3|]. apply B4. intros i Hi. rewrite A3 by (specialize (A4 H3); lia). apply H3, Hi.
Qed.
Lemma standard_open t i o e : standard t i o e -> forall n, n < 3 -> t n <> None.
Proof. intros (A & B & C) n H. unfold is_file in *. destruct n as [|[|[|n]]]; [congruence..|lia]. Qed.

(** fix_fds, with all descriptors but the standard ones at least 3 *)
Lemma fix_standard range t a b e fa fb fe ca cb ce : 3 <= a -> 3 <= b -> (3 <= e \/ e = 2 /\ ce = false) ->
  t a = Some (mkEntry fa ca) -> t b = Some (mkEntry fb cb) -> t e = Some (mkEntry fe ce) -> closable range t ->
  exists c, fix_fds range t a b e = Some c /\ only_standard (exec c) fa fb fe.
Proof.
  intros Ha Hb He A B E Cl. unfold fix_fds.
  destruct (Nat.ltb_spec b 1) as [?|_]; [lia|]. destruct (Nat.ltb_spec e 2) as [?|_]; [lia|]. cbn [orb].
  destruct (Nat.eqb_spec a 0) as [?|_]; [lia|]. unfold dup2 at 1. rewrite A. destruct (Nat.eqb_spec a 0) as [?|_]; [lia|]. cbn [e_file].
  destruct (Nat.eqb_spec b 1) as [?|_]; [lia|]. unfold dup2 at 1. rewrite put_other by lia. rewrite B. destruct (Nat.eqb_spec b 1) as [?|_]; [lia|]. cbn [e_file].
  set (t2 := put (put t 0 _) 1 _).
  assert (G : exists t3, (if Nat.eqb e 2 then Some t2 else dup2 t2 e 2) = Some t3 /\ t3 0 = Some (mkEntry fa false) /\ t3 1 = Some (mkEntry fb false) /\
    t3 2 = Some (mkEntry fe false) /\ forall n, 3 <= n -> t3 n = t n).
  { destruct (Nat.eqb_spec e 2) as [->|Ne].
    - destruct He as [He|[_ ->]]; [lia|]. exists t2. split; [reflexivity|]. unfold t2. split; [rewrite put_other by lia; apply put_same|]. split; [apply put_same|].
      split; [rewrite !put_other by lia; exact E|]. intros n Hn. rewrite !put_other by lia. reflexivity.
    - unfold dup2. assert (X : t2 e = Some (mkEntry fe ce)) by (unfold t2; rewrite !put_other by lia; exact E). rewrite X.
      destruct (Nat.eqb_spec e 2) as [?|_]; [lia|]. cbn [e_file]. eexists. split; [reflexivity|]. unfold t2.
      split; [rewrite !put_other by lia; rewrite put_same; reflexivity|]. split; [rewrite put_other by lia; apply put_same|]. split; [apply put_same|].
      intros n Hn. rewrite !put_other by lia. reflexivity. }
  destruct G as (t3 & -> & G0 & G1 & G2 & G3). exists (close_rest range t3). split; [reflexivity|].
  split. { split; [|split]; unfold is_file, exec, close_rest; cbn [Nat.leb]; [rewrite G0|rewrite G1|rewrite G2]; reflexivity. }
  intros n Hn. unfold exec, close_rest. apply Nat.leb_le in Hn as Hn'. rewrite Hn'.
  destruct range; [reflexivity|]. destruct (Nat.ltb_spec n 256) as [_|H1]; [reflexivity|]. rewrite G3 by exact Hn.
  destruct (t n) as [x|] eqn:X; [|reflexivity]. destruct Cl as [Cl|Cl]; [discriminate|]. rewrite (Cl n x H1 X). reflexivity.
Qed.
Lemma closable_new range t t' a b f g : closable range t -> t' a = Some (mkEntry f true) -> t' b = Some (mkEntry g true) ->
  (forall m, m <> a -> m <> b -> t' m = t m) -> closable range t'.
Proof.
  intros [Cl|Cl] A B H; [left; exact Cl|]. right. intros n e Hn E. destruct (Nat.eq_dec n a) as [->|Na]; [rewrite A in E; injection E as <-; reflexivity|].
  destruct (Nat.eq_dec n b) as [->|Nb]; [rewrite B in E; injection E as <-; reflexivity|]. rewrite H in E by assumption. apply (Cl n e Hn E).
Qed.

(** A service (and a local program of qrexec-client): its input, output and errors are one end
    each of a connection, the caller has the other ends, in descriptors that were free and are
    not inherited by other programs; nothing else changes, and the caller does not keep an end of
    the service *)
Theorem C103_service limit range fork t i o e k err r : standard t i o e -> closable range t -> unused t k ->
  do_fork_exec limit range fork t k err = Some r ->
  exists child, s_child r = Some child /\
    only_standard child (End k false) (End (S k) true) (if err then End (S (S k)) true else e) /\
    s_parent r (s_in r) = Some (mkEntry (End k true) true) /\ s_parent r (s_out r) = Some (mkEntry (End (S k) false) true) /\
    (if err then exists n, s_err r = Some n /\ s_parent r n = Some (mkEntry (End (S (S k)) false) true) /\ t n = None else s_err r = None) /\
    t (s_in r) = None /\ t (s_out r) = None /\
    (forall n, n <> s_in r -> n <> s_out r -> s_err r <> Some n -> s_parent r n = t n) /\
    ~ holds (s_parent r) (End k false) /\ ~ holds (s_parent r) (End (S k) true) /\ ~ holds (s_parent r) (End (S (S k)) true).
Proof.
  intros St Cl Un H. pose proof (standard_open _ _ _ _ St) as O3. unfold do_fork_exec in H.
  destruct (connection limit t k true) as [[[in0 in1] t1]|] eqn:C1; [|discriminate].
  destruct (connection limit t1 (S k) true) as [[[out0 out1] t2]|] eqn:C2; [|discriminate].
  apply connection_spec in C1 as (I1 & I2 & I3 & I4 & I5 & I6 & I7). specialize (I7 O3).
  assert (O3' : forall n, n < 3 -> t1 n <> None) by (intros n Hn; rewrite I6 by lia; apply O3, Hn).
  apply connection_spec in C2 as (U1 & U2 & U3 & U4 & U5 & U6 & U7). specialize (U7 O3').
  assert (D1 : out0 <> in0) by congruence. assert (D2 : out0 <> in1) by congruence. assert (D3 : out1 <> in0) by congruence. assert (D4 : out1 <> in1) by congruence.
  assert (Cl1 : closable range t1) by (apply (closable_new range t t1 in0 in1 _ _ Cl I4 I5 I6)).
  assert (Cl2 : closable range t2) by (apply (closable_new range t1 t2 out0 out1 _ _ Cl1 U4 U5 U6)).
  assert (T2 : forall m, m <> in0 -> m <> in1 -> m <> out0 -> m <> out1 -> t2 m = t m) by (intros m A B C D; rewrite U6, I6 by assumption; reflexivity).
  assert (V0 : t2 in0 = Some (mkEntry (End k false) true)) by (rewrite U6 by congruence; exact I4).
  assert (V1 : t2 in1 = Some (mkEntry (End k true) true)) by (rewrite U6 by congruence; exact I5).
  assert (O3'' : forall n, n < 3 -> t2 n <> None) by (intros n Hn; rewrite U6 by lia; apply O3', Hn).
  destruct err.
  - destruct (connection limit t2 (S (S k)) true) as [[[err0 err1] t3]|] eqn:C3; [|discriminate].
    apply connection_spec in C3 as (W1 & W2 & W3 & W4 & W5 & W6 & W7). specialize (W7 O3'').
    assert (E1 : err0 <> in0) by congruence. assert (E2 : err0 <> in1) by congruence. assert (E3 : err0 <> out0) by congruence. assert (E4 : err0 <> out1) by congruence.
    assert (E5 : err1 <> in0) by congruence. assert (E6 : err1 <> in1) by congruence. assert (E7 : err1 <> out0) by congruence. assert (E8 : err1 <> out1) by congruence.
    assert (Cl3 : closable range t3) by (apply (closable_new range t2 t3 err0 err1 _ _ Cl2 W4 W5 W6)).
    destruct fork; [|discriminate].
    assert (X0 : t3 in0 = Some (mkEntry (End k false) true)) by (rewrite W6 by congruence; exact V0).
    assert (X1 : t3 in1 = Some (mkEntry (End k true) true)) by (rewrite W6 by congruence; exact V1).
    assert (Y0 : t3 out0 = Some (mkEntry (End (S k) false) true)) by (rewrite W6 by congruence; exact U4).
    assert (Y1 : t3 out1 = Some (mkEntry (End (S k) true) true)) by (rewrite W6 by congruence; exact U5).
    destruct (fix_standard range t3 in0 out1 err1 _ _ _ _ _ _ ltac:(lia) ltac:(lia) (or_introl (proj2 W7)) X0 Y1 W5 Cl3) as (c & Fc & Oc).
    rewrite Fc in H. cbv zeta in H. assert (R : r = mkSpawned (Some (exec c)) (close (close (close t3 in0) out1) err1) in1 out0 (Some err0)) by congruence. subst r. clear H.
    cbn [s_child s_parent s_in s_out s_err]. exists (exec c). split; [reflexivity|]. split; [exact Oc|]. unfold close.
    split; [rewrite !put_other by congruence; exact X1|]. split; [rewrite !put_other by congruence; exact Y0|].
    split. { exists err0. split; [reflexivity|]. split; [rewrite !put_other by congruence; exact W4|]. rewrite <- T2 by congruence. exact W1. }
    split; [exact I2|]. split; [rewrite <- I6 by congruence; exact U1|].
    split.
    { intros n N1 N2 N3. destruct (Nat.eq_dec n in0) as [->|M1]. { rewrite 2 put_other by congruence. rewrite put_same. symmetry. exact I1. }
      destruct (Nat.eq_dec n out1) as [->|M2]. { rewrite put_other by congruence. rewrite put_same. symmetry. rewrite <- I6 by congruence. exact U2. }
      destruct (Nat.eq_dec n err1) as [->|M3]. { rewrite put_same. symmetry. rewrite <- T2 by congruence. exact W2. }
      rewrite !put_other by congruence. rewrite W6 by congruence. apply T2; congruence. }
    assert (Q : forall n f cl, put (put (put t3 in0 None) out1 None) err1 None n = Some (mkEntry f cl) -> (t n = Some (mkEntry f cl) \/ f = End k true \/ f = End (S k) false \/ f = End (S (S k)) false)).
    { intros n f cl E. destruct (Nat.eq_dec n err1) as [->|]; [rewrite put_same in E; discriminate|]. rewrite put_other in E by assumption.
      destruct (Nat.eq_dec n out1) as [->|]; [rewrite put_same in E; discriminate|]. rewrite put_other in E by assumption.
      destruct (Nat.eq_dec n in0) as [->|]; [rewrite put_same in E; discriminate|]. rewrite put_other in E by assumption.
      destruct (Nat.eq_dec n err0) as [->|]; [right; right; right; congruence|]. rewrite W6 in E by assumption.
      destruct (Nat.eq_dec n out0) as [->|]; [right; right; left; congruence|]. destruct (Nat.eq_dec n in1) as [->|]; [right; left; congruence|].
      left. rewrite <- T2 by assumption. exact E. }
    repeat split; intros (n & cl & E); apply Q in E as [E|[E|[E|E]]]; try discriminate; try (injection E; lia); (eapply Un; [|exact E]); lia.
  - destruct fork; [|discriminate]. assert (S2 : t2 2 = Some (mkEntry e false)) by (rewrite T2 by lia; apply (proj2 (proj2 St))).
    destruct (fix_standard range t2 in0 out1 2 _ _ _ _ _ _ ltac:(lia) ltac:(lia) (or_intror (conj eq_refl eq_refl)) V0 U5 S2 Cl2) as (c & Fc & Oc).
    rewrite Fc in H. cbv zeta in H. assert (R : r = mkSpawned (Some (exec c)) (close (close t2 in0) out1) in1 out0 None) by congruence. subst r. clear H.
    cbn [s_child s_parent s_in s_out s_err]. exists (exec c). split; [reflexivity|]. split; [exact Oc|]. unfold close.
    split; [rewrite !put_other by congruence; exact V1|]. split; [rewrite !put_other by congruence; exact U4|]. split; [reflexivity|].
    split; [exact I2|]. split; [rewrite <- I6 by congruence; exact U1|].
    split.
    { intros n N1 N2 _. destruct (Nat.eq_dec n in0) as [->|M1]. { rewrite put_other by congruence. rewrite put_same. symmetry. exact I1. }
      destruct (Nat.eq_dec n out1) as [->|M2]. { rewrite put_same. symmetry. rewrite <- I6 by congruence. exact U2. }
      rewrite !put_other by congruence. apply T2; congruence. }
    assert (Q : forall n f cl, put (put t2 in0 None) out1 None n = Some (mkEntry f cl) -> (t n = Some (mkEntry f cl) \/ f = End k true \/ f = End (S k) false)).
    { intros n f cl E. destruct (Nat.eq_dec n out1) as [->|]; [rewrite put_same in E; discriminate|]. rewrite put_other in E by assumption.
      destruct (Nat.eq_dec n in0) as [->|]; [rewrite put_same in E; discriminate|]. rewrite put_other in E by assumption.
      destruct (Nat.eq_dec n out0) as [->|]; [right; right; congruence|]. destruct (Nat.eq_dec n in1) as [->|]; [right; left; congruence|].
      left. rewrite <- T2 by assumption. exact E. }
    repeat split; intros (n & cl & E); apply Q in E as [E|[E|E]]; try discriminate; try (injection E; lia); (eapply Un; [|exact E]); lia.
Qed.
(** It can be started if there are enough descriptors left *)
Definition free_range (t : table) (a b : nat) : Prop := forall n, a <= n < b -> t n = None.
Lemma search_finds t fuel : forall n a, n <= a < n + fuel -> t a = None -> exists m, search t n fuel = Some m /\ m <= a.
Proof.
  induction fuel as [|fuel IH]; intros n a H A; [lia|]. cbn [search]. destruct (t n) as [e|] eqn:E; [|exists n; split; [reflexivity|lia]].
  apply IH; [|exact A]. destruct (Nat.eq_dec a n) as [->|]; [congruence|lia].
Qed.
Lemma open_works limit t f c a b : free_range t a b -> a < b <= limit -> exists n t', open limit t f c = Some (n, t') /\ free_range t' (S a) b.
Proof.
  intros F H. destruct (search_finds t limit 0 a) as (m & S & L); [lia|apply F; lia|]. unfold open. rewrite S. eexists _, _. split; [reflexivity|].
  intros n Hn. rewrite put_other by lia. apply F. lia.
Qed.
Lemma connection_works limit t k c a b : free_range t a b -> S a < b <= limit -> exists x y t', connection limit t k c = Some (x, y, t') /\ free_range t' (S (S a)) b.
Proof.
  intros F H. unfold connection. destruct (open_works limit t (End k false) c a b F) as (n & t1 & -> & F1); [lia|].
  destruct (open_works limit t1 (End k true) c (S a) b F1) as (m & t2 & -> & F2); [lia|]. eauto.
Qed.
Theorem C103_starts limit range t k err a : free_range t a (a + 6) -> a + 6 <= limit -> exists r, do_fork_exec limit range true t k err = Some r.
Proof.
  intros F H. unfold do_fork_exec. destruct (connection_works limit t k true a (a + 6) F) as (x & y & t1 & -> & F1); [lia|].
  destruct (connection_works limit t1 (S k) true (S (S a)) (a + 6) F1) as (x' & y' & t2 & -> & F2); [lia|].
  destruct err; [|eexists; reflexivity].
  destruct (connection_works limit t2 (S (S k)) true (S (S (S (S a)))) (a + 6) F2) as (x'' & y'' & t3 & -> & F3); [lia|]. eexists. reflexivity.
Qed.
Definition usual : table := fun n => match n with 0 => Some (mkEntry (Old 0) false) | 1 => Some (mkEntry (Old 1) false) | 2 => Some (mkEntry (Old 2) false) | 5 => Some (mkEntry (Old 5) true) | _ => None end.
Lemma usual_ok : standard usual (Old 0) (Old 1) (Old 2) /\ (forall range, closable range usual) /\ (forall k, unused usual k) /\ free_range usual 6 12.
Proof.
  repeat split.
  - intros range. right. intros n e H E. do 6 (destruct n as [|n]; [lia|]). discriminate.
  - intros k n k' s c _ E. do 6 (destruct n as [|n]; [discriminate|]). discriminate.
  - intros n H. do 6 (destruct n as [|n]; [lia|]). reflexivity.
Qed.

(** When the user is logged in, the process that waits for the program holds none of its
    descriptors *)
Theorem C103_login t i o e : only_standard t i o e -> only_standard (fst (login t)) i o e /\ forall f, ~ holds (snd (login t)) f.
Proof.
  intros [[A [B C]] H]. unfold login. cbn [fst snd]. split.
  - split. { unfold standard, is_file, exec in *. rewrite A, B, C. auto. } intros n Hn. unfold exec. rewrite H by exact Hn. reflexivity.
  - intros f (n & c & E). unfold close in E. destruct n as [|[|[|n]]].
    + rewrite !put_other in E by lia. rewrite put_same in E. discriminate.
    + rewrite put_other in E by lia. rewrite put_same in E. discriminate.
    + rewrite put_same in E. discriminate.
    + rewrite !put_other in E by lia. rewrite H in E by lia. discriminate.
Qed.
(** A program that nobody waits for reads nothing and writes to nowhere; what a service writes to
    its error output goes to the logger, whose input has no other source *)
Lemma open_lowest limit t f c n t' : open limit t f c = Some (n, t') -> forall m, t m = None -> n <= m.
Proof.
  unfold open. destruct (search t 0 limit) as [m|] eqn:S; [|discriminate]. intros H. assert (m = n) by congruence. subst m. apply search_spec in S as (_ & _ & B).
  intros m M. destruct (le_lt_dec n m) as [|L]; [assumption|]. exfalso. apply (B m); [lia|exact M].
Qed.
Theorem C103_just_exec limit range fork t i o e k service program logger : standard t i o e -> closable range t ->
  (range = true \/ exists n, n < 256 /\ t n = None) ->
  just_exec limit range fork t k service = Some (program, logger) ->
  only_standard program Null Null (if service then End k true else Null) /\
  (if service then exists l, logger = Some l /\ only_standard l (End k false) o e else logger = None).
Proof.
  intros St Cl Fr H. pose proof (standard_open _ _ _ _ St) as O3. unfold just_exec in H.
  destruct (open limit t Null false) as [[fdn t1]|] eqn:A; [|discriminate]. pose proof (open_lowest _ _ _ _ _ _ A) as Lo.
  apply open_spec in A as (A1 & A2 & A3 & A4). specialize (A4 O3).
  assert (O3' : forall n, n < 3 -> t1 n <> None) by (intros n Hn; rewrite A3 by lia; apply O3, Hn).
  assert (Cl1 : closable range t1).
  { destruct Cl as [Cl|Cl]; [left; exact Cl|]. destruct Fr as [->|(m & M & Fm)]; [left; reflexivity|]. right. intros n x Hn E. specialize (Lo m Fm).
    rewrite A3 in E by lia. apply (Cl n x Hn E). }
  assert (S1 : t1 1 = Some (mkEntry o false)) by (rewrite A3 by lia; apply (proj1 (proj2 St))).
  assert (S2 : t1 2 = Some (mkEntry e false)) by (rewrite A3 by lia; apply (proj2 (proj2 St))).
  destruct service.
  - unfold open_logger in H. destruct (connection limit t1 k true) as [[[p0 p1] t2]|] eqn:C; [|discriminate]. destruct fork; [|discriminate].
    apply connection_spec in C as (I1 & I2 & I3 & I4 & I5 & I6 & I7). specialize (I7 O3').
    assert (Cl2 : closable range t2) by (apply (closable_new range t1 t2 p0 p1 _ _ Cl1 I4 I5 I6)).
    assert (D : fdn <> p0) by congruence. assert (D' : fdn <> p1) by congruence.
    assert (L : exists c, fix_fds range t2 p0 1 2 = Some c /\ only_standard (exec c) (End k false) o e).
    { assert (Y1 : t2 1 = Some (mkEntry o false)) by (rewrite I6 by lia; exact S1). assert (Y2 : t2 2 = Some (mkEntry e false)) by (rewrite I6 by lia; exact S2).
      unfold fix_fds. cbn [Nat.ltb Nat.leb orb Nat.eqb]. destruct (Nat.eqb_spec p0 0) as [?|_]; [lia|]. unfold dup2. rewrite I4. destruct (Nat.eqb_spec p0 0) as [?|_]; [lia|].
      cbn [e_file]. eexists. split; [reflexivity|]. split.
      - split; [|split]; unfold is_file, exec, close_rest; cbn [Nat.leb]; [rewrite put_same|rewrite put_other, Y1 by lia|rewrite put_other, Y2 by lia]; reflexivity.
      - intros n Hn. unfold exec, close_rest. apply Nat.leb_le in Hn as Hn'. rewrite Hn'. destruct range; [reflexivity|]. destruct (Nat.ltb_spec n 256) as [_|H1]; [reflexivity|].
        rewrite put_other by lia. destruct (t2 n) as [x|] eqn:X; [|reflexivity]. destruct Cl2 as [Cl2|Cl2]; [discriminate|]. rewrite (Cl2 n x H1 X). reflexivity. }
    destruct L as (c & Fc & Oc). rewrite Fc in H.
    assert (Cl3 : closable range (close t2 p0)).
    { destruct Cl2 as [Cl2|Cl2]; [left; exact Cl2|]. right. intros n x Hn E. unfold close in E. destruct (Nat.eq_dec n p0) as [->|]; [rewrite put_same in E; discriminate|].
      rewrite put_other in E by assumption. apply (Cl2 n x Hn E). }
    assert (X1 : close t2 p0 fdn = Some (mkEntry Null false)) by (unfold close; rewrite put_other, I6 by assumption; exact A2).
    assert (X2 : close t2 p0 p1 = Some (mkEntry (End k true) true)) by (unfold close; rewrite put_other by congruence; exact I5).
    destruct (fix_standard range (close t2 p0) fdn fdn p1 _ _ _ _ _ _ A4 A4 (or_introl (proj2 I7)) X1 X1 X2 Cl3) as (c' & Fc' & Oc').
    rewrite Fc' in H. assert (program = exec c') by congruence. assert (logger = Some (exec c)) by congruence. subst. split; [exact Oc'|]. eauto.
  - destruct (fix_standard range t1 fdn fdn fdn _ _ _ _ _ _ A4 A4 (or_introl A4) A2 A2 A2 Cl1) as (c & Fc & Oc).
    rewrite Fc in H. assert (program = exec c) by congruence. assert (logger = None) by congruence. subst. auto.
Qed.
(** The policy program *)
Theorem C103_policy_program limit range t i o e k program parent fd : standard t i o e -> closable range t -> unused t k ->
  policy_program limit range t k = Some (program, parent, fd) ->
  (exists p, program = Some p /\ only_standard p (End k true) (End k true) e) /\
  parent fd = Some (mkEntry (End k false) true) /\ ~ holds parent (End k true) /\ (forall n, n < 3 -> parent n = t n).
Proof.
  intros St Cl Un H. unfold policy_program in H. set (t0 := close_rest range t) in *.
  assert (T0 : forall n, n < 3 -> t0 n = t n). { intros n Hn. unfold t0, close_rest. destruct (Nat.leb_spec 3 n); [lia|reflexivity]. }
  assert (T3 : forall n x, 3 <= n -> t0 n = Some x -> t n = Some x /\ e_cloexec x = true).
  { intros n x Hn E. unfold t0, close_rest in E. destruct (Nat.leb_spec 3 n); [|lia]. destruct range; [discriminate|]. destruct (Nat.ltb_spec n 256) as [?|Hge]; [discriminate|].
    destruct Cl as [Cl|Cl]; [discriminate|]. split; [exact E|]. apply (Cl n x Hge E). }
  assert (O3 : forall n, n < 3 -> t0 n <> None) by (intros n Hn; rewrite T0 by exact Hn; apply (standard_open _ _ _ _ St), Hn).
  destruct (connection limit t0 k true) as [[[a b] t1]|] eqn:C; [|discriminate]. apply connection_spec in C as (I1 & I2 & I3 & I4 & I5 & I6 & I7). specialize (I7 O3).
  unfold dup2, close in H. rewrite put_other, I5 in H by congruence. destruct (Nat.eqb_spec b 0) as [?|_]; [lia|]. cbn [e_file] in H.
  rewrite !put_other in H by lia. rewrite I5 in H. destruct (Nat.eqb_spec b 1) as [?|_]; [lia|]. cbn [e_file] in H. cbv zeta in H.
  set (p := exec _) in H. assert (program = Some p) by congruence. assert (parent = put t1 b None) by congruence. assert (fd = a) by congruence. subst program parent fd. clear H.
  split; [|split; [|split]].
  - exists p. split; [reflexivity|]. unfold p. split.
    + split; [|split]; unfold is_file, exec.
      * rewrite put_other by lia. rewrite put_other by lia. rewrite put_same. reflexivity.
      * rewrite put_other by lia. rewrite put_same. reflexivity.
      * rewrite !put_other by lia. rewrite I6, T0 by lia. rewrite (proj2 (proj2 St)). reflexivity.
    + intros n Hn. unfold exec. destruct (Nat.eq_dec n b) as [->|Nb]; [rewrite put_same; reflexivity|]. rewrite 3 put_other by lia.
      destruct (Nat.eq_dec n a) as [->|Na]; [rewrite put_same; reflexivity|]. rewrite put_other, I6 by assumption. destruct (t0 n) as [x|] eqn:X; [|reflexivity].
      destruct (T3 n x Hn X) as [_ ->]. reflexivity.
  - rewrite put_other by assumption. exact I4.
  - intros (n & c & E). destruct (Nat.eq_dec n b) as [->|Nb]; [rewrite put_same in E; discriminate|]. rewrite put_other in E by assumption.
    destruct (Nat.eq_dec n a) as [->|Na]; [congruence|]. rewrite I6 in E by assumption.
    destruct (le_lt_dec 3 n) as [Ge|Lt].
    + destruct (T3 n _ Ge E) as [E' _]. apply (Un n k true c (le_n k) E').
    + rewrite T0 in E by exact Lt. apply (Un n k true c (le_n k) E).
  - intros n Hn. rewrite put_other, I6 by lia. apply T0, Hn.
Qed.
(** A local program of qrexec-client-vm: its input and output are the call; what this program had
    is kept in other descriptors, as the environment of the program says; the connection to the
    agent and the other ends are not visible to it *)
Lemma dup_spec limit t a n t' : dup limit t a = Some (n, t') ->
  exists f c, t a = Some (mkEntry f c) /\ t n = None /\ t' n = Some (mkEntry f false) /\ (forall m, m <> n -> t' m = t m) /\ ((forall i, i < 3 -> t i <> None) -> 3 <= n).
Proof.
  unfold dup. destruct (t a) as [[f c]|] eqn:E; [|discriminate]. cbn [e_file]. intros H. apply open_spec in H as (A & B & C & D). exists f, c. auto.
Qed.
Lemma save_spec limit is : forall t t' l, (forall i, i < 3 -> t i <> None) -> (forall i, In i is -> i < 3) -> save limit t is = Some (t', l) ->
  map fst l = is /\ NoDup (map snd l) /\
  (forall i n, In (i, n) l -> 3 <= n /\ t n = None /\ exists f c, t i = Some (mkEntry f c) /\ t' n = Some (mkEntry f false)) /\
  (forall m, ~ In m (map snd l) -> t' m = t m).
Proof.
  induction is as [|i is IH]; intros t t' l O3 I3 H; cbn [save] in H.
  - assert (t' = t) by congruence. assert (l = []) by congruence. subst. split; [reflexivity|]. split; [constructor|]. split; [intros i n []|auto].
  - destruct (dup limit t i) as [[n t1]|] eqn:D; [|discriminate]. destruct (save limit t1 is) as [[t2 l']|] eqn:S; [|discriminate].
    assert (t' = t2) by congruence. assert (l = (i, n) :: l') by congruence. subst t' l. apply dup_spec in D as (f & c & A & B & C & D & E). specialize (E O3).
    destruct (IH t1 t2 l') as (M & ND & K & U); [|intros j J; apply I3; right; exact J|exact S|].
    { intros j Hj. rewrite D by lia. apply O3, Hj. }
    assert (Nn : ~ In n (map snd l')). { intros J. apply in_map_iff in J as ([j n'] & En & J). cbn [snd] in En. subst n'. destruct (K j n J) as (_ & N & _). congruence. }
    cbn [map fst snd]. split; [congruence|]. split; [constructor; assumption|]. split.
    + intros j m [J|J].
      * assert (j = i) by congruence. assert (m = n) by congruence. subst. split; [exact E|]. split; [exact B|]. exists f, c. split; [exact A|]. rewrite U by exact Nn. exact C.
      * destruct (K j m J) as (K1 & K2 & f' & c' & K3 & K4). assert (m <> n) by congruence. rewrite D in K2 by assumption. split; [exact K1|]. split; [exact K2|].
        exists f', c'. split; [|exact K4]. rewrite <- (D j); [exact K3|]. assert (Ij : In j is) by (rewrite <- M; apply in_map_iff; exists (j, m); auto). specialize (I3 j (or_intror Ij)). lia.
    + intros m Hm. rewrite U by (intros J; apply Hm; right; exact J). apply D. intros ->. apply Hm. left. reflexivity.
Qed.
Theorem C103_local_program limit t i o e k trigger pass_stderr r program saved : standard t i o e -> unused t k -> 3 <= trigger -> t trigger <> None ->
  local_program limit t k trigger pass_stderr = Some r -> l_child r = Some (program, saved) ->
  standard program (End k false) (End (S k) true) e /\
  map fst saved = (if pass_stderr then [0; 1; 2] else [0; 1]) /\
  (forall n m, In (n, m) saved -> 3 <= m /\ is_file program m (match n with 0 => i | 1 => o | _ => e end)) /\
  (forall n, 3 <= n -> ~ In n (map snd saved) -> program n = if Nat.eqb n trigger then None else exec t n) /\
  l_parent r (l_in r) = Some (mkEntry (End k true) false) /\ l_parent r (l_out r) = Some (mkEntry (End (S k) false) false) /\
  (forall n, n <> l_in r -> n <> l_out r -> l_parent r n = t n).
Proof.
  intros St Un Tr To H Hc. pose proof (standard_open _ _ _ _ St) as O3. unfold local_program in H.
  destruct (connection limit t k false) as [[[in0 in1] t1]|] eqn:C1; [|discriminate].
  destruct (connection limit t1 (S k) false) as [[[out0 out1] t2]|] eqn:C2; [|discriminate].
  apply connection_spec in C1 as (I1 & I2 & I3 & I4 & I5 & I6 & I7). specialize (I7 O3).
  assert (O3' : forall n, n < 3 -> t1 n <> None) by (intros n Hn; rewrite I6 by lia; apply O3, Hn).
  apply connection_spec in C2 as (U1 & U2 & U3 & U4 & U5 & U6 & U7). specialize (U7 O3').
  assert (D1 : out0 <> in0) by congruence. assert (D2 : out0 <> in1) by congruence. assert (D3 : out1 <> in0) by congruence. assert (D4 : out1 <> in1) by congruence.
  assert (T2 : forall m, m <> in0 -> m <> in1 -> m <> out0 -> m <> out1 -> t2 m = t m) by (intros m A B C D; rewrite U6, I6 by assumption; reflexivity).
  assert (V0 : t2 in0 = Some (mkEntry (End k false) false)) by (rewrite U6 by congruence; exact I4).
  assert (V1 : t2 in1 = Some (mkEntry (End k true) false)) by (rewrite U6 by congruence; exact I5).
  assert (F1 : t out0 = None) by (rewrite <- I6 by congruence; exact U1). assert (F2 : t out1 = None) by (rewrite <- I6 by congruence; exact U2).
  assert (N1 : trigger <> in0) by congruence. assert (N2 : trigger <> in1) by congruence. assert (N3 : trigger <> out0) by congruence. assert (N4 : trigger <> out1) by congruence.
  set (c1 := close (close (close t2 in1) out0) trigger) in H.
  assert (W : forall m, m <> in1 -> m <> out0 -> m <> trigger -> c1 m = t2 m) by (intros m A B C; unfold c1, close; rewrite !put_other by assumption; reflexivity).
  assert (O3c : forall n, n < 3 -> c1 n <> None) by (intros n Hn; rewrite W by lia; rewrite T2 by lia; apply O3, Hn).
  destruct (save limit c1 (if pass_stderr then [0; 1; 2] else [0; 1])) as [[c2 l]|] eqn:S.
  2:{ cbv zeta in H. assert (r = mkLocal None (close (close t2 in0) out1) in1 out0) by congruence. subst r. discriminate. }
  assert (I3' : forall j, In j (if pass_stderr then [0; 1; 2] else [0; 1]) -> j < 3) by (intros j J; destruct pass_stderr; cbn in J; lia).
  apply save_spec in S as (S1 & S2 & S3 & S4); [|exact O3c|exact I3'].
  assert (NS : forall m, c1 m <> None -> ~ In m (map snd l)).
  { intros m Hm J. apply in_map_iff in J as ([j m'] & En & J). cbn [snd] in En. subst m'. destruct (S3 j m J) as (_ & Z & _). contradiction. }
  assert (X0 : c2 in0 = Some (mkEntry (End k false) false)). { rewrite S4; [rewrite W by congruence; exact V0|]. apply NS. rewrite W by congruence. congruence. }
  assert (X1 : c2 out1 = Some (mkEntry (End (S k) true) false)). { rewrite S4; [rewrite W by congruence; exact U5|]. apply NS. rewrite W by congruence. congruence. }
  unfold dup2 in H. rewrite X0 in H. destruct (Nat.eqb_spec in0 0) as [?|_]; [lia|]. cbn [e_file] in H. rewrite put_other in H by lia. rewrite X1 in H.
  destruct (Nat.eqb_spec out1 1) as [?|_]; [lia|]. cbn [e_file] in H. cbv zeta in H. unfold close in H.
  set (p := exec _) in H. assert (R : r = mkLocal (Some (p, l)) (put (put t2 in0 None) out1 None) in1 out0) by congruence. subst r. clear H.
  cbn [l_child l_parent l_in l_out] in *. assert (program = p) by congruence. assert (saved = l) by congruence. subst program saved. clear Hc.
  assert (P : forall m, m <> 0 -> m <> 1 -> m <> in0 -> m <> out1 -> p m = exec c2 m) by (intros m A B C D; unfold p, exec; rewrite !put_other by assumption; reflexivity).
  assert (Std : forall m, m < 3 -> c2 m = t m). { intros m Hm. rewrite S4 by (apply NS, O3c, Hm). rewrite W by lia. apply T2; lia. }
  assert (Sv : forall n m, In (n, m) l -> 3 <= m /\ m <> in0 /\ m <> out1 /\ exists f c, t n = Some (mkEntry f c) /\ c2 m = Some (mkEntry f false)).
  { intros n m J. destruct (S3 n m J) as (A & B & f & c & C & D).
    assert (Hn : n < 3) by (apply I3'; rewrite <- S1; apply in_map_iff; exists (n, m); auto).
    split; [exact A|]. split; [intros ->; rewrite W in B by congruence; congruence|]. split; [intros ->; rewrite W in B by congruence; congruence|].
    exists f, c. split; [|exact D]. rewrite <- C. rewrite W, T2 by lia. reflexivity. }
  split; [|split; [|split; [|split; [|split; [|split]]]]].
  - split; [|split]; unfold is_file.
    + unfold p, exec. rewrite 3 put_other by lia. rewrite put_same. reflexivity.
    + unfold p, exec. rewrite 2 put_other by lia. rewrite put_same. reflexivity.
    + rewrite P by lia. unfold exec. rewrite Std by lia. rewrite (proj2 (proj2 St)). reflexivity.
  - exact S1.
  - intros n m J. destruct (Sv n m J) as (A & B & C & f & c & D & E). split; [exact A|]. unfold is_file. rewrite P by lia. unfold exec. rewrite E. cbn [e_cloexec].
    assert (Hn : n < 3) by (apply I3'; rewrite <- S1; apply in_map_iff; exists (n, m); auto). destruct St as (Q0 & Q1 & Q2). unfold is_file in *.
    destruct n as [|[|[|n]]]; [congruence..|lia].
  - intros n Hn Hs. destruct (Nat.eqb_spec n trigger) as [->|Nt].
    + rewrite P by lia. unfold exec. rewrite S4 by exact Hs. unfold c1, close. rewrite put_same. reflexivity.
    + destruct (Nat.eq_dec n out1) as [->|M1]; [unfold p, exec; rewrite put_same, F2; reflexivity|].
      destruct (Nat.eq_dec n in0) as [->|M2]; [unfold p, exec; rewrite put_other by congruence; rewrite put_same, I1; reflexivity|].
      rewrite P by lia. unfold exec. rewrite S4 by exact Hs.
      destruct (Nat.eq_dec n in1) as [->|M3]. { unfold c1, close. rewrite 2 put_other by congruence. rewrite put_same, I2. reflexivity. }
      destruct (Nat.eq_dec n out0) as [->|M4]. { unfold c1, close. rewrite put_other by congruence. rewrite put_same, F1. reflexivity. }
      rewrite W, T2 by assumption. reflexivity.
  - rewrite !put_other by congruence. exact V1.
  - rewrite !put_other by congruence. exact U4.
  - intros n A B. destruct (Nat.eq_dec n out1) as [->|M1]; [rewrite put_same; symmetry; exact F2|]. rewrite put_other by assumption.
    destruct (Nat.eq_dec n in0) as [->|M2]; [rewrite put_same; symmetry; exact I1|]. rewrite put_other by assumption. apply T2; assumption.
Qed.
Example ex_local : match local_program 16 usual 7 5 true with
  | Some r => match l_child r with Some (p, saved) => Some (saved, map p [0; 1; 2; 3; 4; 5; 6; 7; 8], l_in r, l_out r) | None => None end
  | None => None end =
  Some ([(0, 4); (1, 5); (2, 6)], [Some (mkEntry (End 7 false) false); Some (mkEntry (End 8 true) false); Some (mkEntry (Old 2) false); None;
    Some (mkEntry (Old 0) false); Some (mkEntry (Old 1) false); Some (mkEntry (Old 2) false); None; None], 4, 6).
Proof. reflexivity. Qed.
Example ex_service : match do_fork_exec 16 true true usual 7 true with
  | Some r => match s_child r with Some p => Some (map p [0; 1; 2; 3; 4; 5], s_in r, s_out r, s_err r) | None => None end
  | None => None end =
  Some ([Some (mkEntry (End 7 false) false); Some (mkEntry (End 8 true) false); Some (mkEntry (End 9 true) false); None; None; None], 4, 6, Some 8).
Proof. reflexivity. Qed.

(** All programs of qrexec have their standard descriptors from the start, or end at once *)
Theorem C103_checked t t' : setup_logging (exec t) = Some t' -> exists i o e, standard t' i o e.
Proof.
  unfold setup_logging. assert (X : forall n x, exec t n = Some x -> e_cloexec x = false).
  { intros n x. unfold exec. destruct (t n) as [[f [|]]|]; [discriminate| |discriminate]. intros E. cbn in E. assert (x = mkEntry f false) by congruence. subst x. reflexivity. }
  destruct (exec t 0) as [[i ci]|] eqn:E0; [|discriminate]. destruct (exec t 1) as [[o co]|] eqn:E1; [|discriminate]. destruct (exec t 2) as [[e ce]|] eqn:E2; [|discriminate].
  intros H. assert (t' = exec t) by congruence. subst t'. pose proof (X _ _ E0) as H0. pose proof (X _ _ E1) as H1. pose proof (X _ _ E2) as H2. cbn [e_cloexec] in H0, H1, H2. subst ci co ce.
  exists i, o, e. unfold standard, is_file. auto.
Qed.
Theorem C103_refuses t n : n < 3 -> exec t n = None -> setup_logging (exec t) = None.
Proof.
  intros H E. unfold setup_logging. destruct n as [|[|[|n]]]; [| | |lia]; rewrite E; [reflexivity| |]; destruct (exec t 0); try reflexivity. destruct (exec t 1); reflexivity.
Qed.
(** and nothing else stops them, and nothing is changed *)
Theorem C103_goes_on t : (forall n, n < 3 -> exec t n <> None) -> setup_logging (exec t) = Some (exec t).
Proof.
  intros H. unfold setup_logging. pose proof (H 0 ltac:(lia)). pose proof (H 1 ltac:(lia)). pose proof (H 2 ltac:(lia)).
  destruct (exec t 0); [|congruence]. destruct (exec t 1); [|congruence]. destruct (exec t 2); [reflexivity|congruence].
Qed.
(** This is needed: with standard input closed, services would be started without it, because
    the new socket would be descriptor 0 itself *)
Theorem C103_check_needed limit range k err : 16 <= limit ->
  exists r c, do_fork_exec limit range true (close usual 0) k err = Some r /\ s_child r = Some c /\ c 0 = None.
Proof.
  intros H. do 16 (destruct limit as [|limit]; [lia|]). destruct err; eexists; eexists; (split; [reflexivity|split; reflexivity]).
Qed.
(** qubes.WaitForSession inherits what the agent has open (if not marked otherwise), and has its
    input twice *)
Theorem C103_session_refuted : exists c p, wait_for_session 16 (put usual 3 (Some (mkEntry (Old 3) false))) 7 = Some (Some c, p) /\
  is_file c 0 (End 7 false) /\ is_file c 3 (Old 3) /\ is_file c 4 (End 7 false).
Proof. eexists. eexists. split; [reflexivity|]. repeat split. Qed.
(** But nobody keeps an end for writing, so it sees the end of its input *)
Theorem C103_session limit t i o e k program parent : standard t i o e -> unused t k -> wait_for_session limit t k = Some (program, parent) ->
  (exists c, program = Some c /\ standard c (End k false) o e /\ ~ holds c (End k true)) /\ (forall n, parent n = t n).
Proof.
  intros St Un H. pose proof (standard_open _ _ _ _ St) as O3. unfold wait_for_session in H.
  destruct (connection limit t k false) as [[[p0 p1] t1]|] eqn:C; [|discriminate]. apply connection_spec in C as (I1 & I2 & I3 & I4 & I5 & I6 & I7). specialize (I7 O3).
  unfold dup2, close in H. rewrite put_other, I4 in H by assumption. destruct (Nat.eqb_spec p0 0) as [?|_]; [lia|]. cbn [e_file] in H.
  set (c := exec _) in H. assert (program = Some c) by congruence. assert (parent = put (put t1 p0 None) p1 None) by congruence. subst program parent. clear H. split.
  - exists c. split; [reflexivity|]. split.
    + unfold c. split; [|split]; unfold is_file, exec.
      * rewrite put_same. reflexivity.
      * rewrite !put_other, I6 by lia. rewrite (proj1 (proj2 St)). reflexivity.
      * rewrite !put_other, I6 by lia. rewrite (proj2 (proj2 St)). reflexivity.
    + intros (n & cl & E). unfold c, exec in E. destruct (Nat.eq_dec n 0) as [->|N0]; [rewrite put_same in E; discriminate|]. rewrite put_other in E by assumption.
      destruct (Nat.eq_dec n p1) as [->|N1]; [rewrite put_same in E; discriminate|]. rewrite put_other in E by assumption.
      destruct (Nat.eq_dec n p0) as [->|N2]; [rewrite I4 in E; discriminate|]. rewrite I6 in E by assumption.
      destruct (t n) as [x|] eqn:X; [|discriminate]. destruct (e_cloexec x); [discriminate|]. assert (x = mkEntry (End k true) cl) by congruence. subst x.
      apply (Un n k true cl (le_n k) X).
  - intros n. destruct (Nat.eq_dec n p1) as [->|N1]; [rewrite put_same; symmetry; exact I2|]. rewrite put_other by assumption.
    destruct (Nat.eq_dec n p0) as [->|N2]; [rewrite put_same; symmetry; exact I1|]. rewrite put_other, I6 by assumption. reflexivity.
Qed.

(** ** With enough descriptors left, the programs are started *)
Lemma close_free t n a b : free_range t a b -> free_range (close t n) a b.
Proof. intros F m Hm. unfold close. destruct (Nat.eq_dec m n) as [->|]; [apply put_same|rewrite put_other by assumption; apply F, Hm]. Qed.
Lemma dup_works limit t x a b : t x <> None -> free_range t a b -> a < b <= limit ->
  exists n t', dup limit t x = Some (n, t') /\ free_range t' (S a) b /\ t n = None /\ (forall m, m <> n -> t' m = t m).
Proof.
  intros X F H. unfold dup. destruct (t x) as [e|]; [|congruence]. destruct (open_works limit t (e_file e) false a b F H) as (n & t' & O & F').
  destruct (open_spec _ _ _ _ _ _ O) as (A & _ & B & _). exists n, t'. auto.
Qed.
Lemma save_works limit is : forall t a b, (forall i, In i is -> t i <> None) -> free_range t a b -> a + length is <= b -> b <= limit ->
  exists t' l, save limit t is = Some (t', l) /\ forall m, t m <> None -> t' m = t m.
Proof.
  induction is as [|i is IH]; intros t a b O F L B; [exists t, []; split; [reflexivity|auto]|]. cbn [length save] in *.
  destruct (dup_works limit t i a b) as (n & t1 & -> & F1 & N & Same); [apply O; left; reflexivity|exact F|lia|].
  destruct (IH t1 (S a) b) as (t2 & l & -> & K); [|exact F1|lia|exact B|].
  - intros j Hj. assert (j <> n) by (intros ->; apply (O n); [right; exact Hj|exact N]). rewrite Same by assumption. apply O. right. exact Hj.
  - exists t2, ((i, n) :: l). split; [reflexivity|]. intros m Hm. assert (m <> n) by congruence. rewrite K; [apply Same; assumption|]. rewrite Same by assumption. exact Hm.
Qed.
Theorem C103_local_starts limit t i o e k trigger pass_stderr a : standard t i o e -> 3 <= trigger -> t trigger <> None ->
  free_range t a (a + 7) -> a + 7 <= limit ->
  exists r program saved, local_program limit t k trigger pass_stderr = Some r /\ l_child r = Some (program, saved).
Proof.
  intros St Tr Ta F L. unfold local_program. pose proof (standard_open _ _ _ _ St) as Std.
  destruct (connection_works limit t k false a (a + 7) F) as (in0 & in1 & t1 & E1 & F1); [lia|]. rewrite E1.
  destruct (connection_works limit t1 (S k) false (S (S a)) (a + 7) F1) as (out0 & out1 & t2 & E2 & F2); [lia|]. rewrite E2.
  destruct (connection_spec _ _ _ _ _ _ _ E1) as (A1 & A2 & A3 & A4 & A5 & A6 & A7).
  destruct (connection_spec _ _ _ _ _ _ _ E2) as (B1 & B2 & B3 & B4 & B5 & B6 & B7).
  destruct (A7 Std) as [I0 I1]. assert (Std1 : forall n, n < 3 -> t1 n <> None) by (intros n Hn; rewrite A6 by lia; apply Std, Hn). destruct (B7 Std1) as [O0 O1].
  assert (in0 <> out0) by congruence. assert (in0 <> out1) by congruence. assert (in1 <> out0) by congruence. assert (in1 <> out1) by congruence.
  set (c1 := close (close (close t2 in1) out0) trigger).
  assert (C1 : forall m, m <> in1 -> m <> out0 -> m <> trigger -> c1 m = t2 m) by (intros m ? ? ?; unfold c1, close; rewrite !put_other by assumption; reflexivity).
  assert (Fc : free_range c1 (S (S (S (S a)))) (a + 7)) by (unfold c1; apply close_free, close_free, close_free; exact F2).
  destruct (save_works limit (if pass_stderr then [0; 1; 2] else [0; 1]) c1 (S (S (S (S a)))) (a + 7)) as (c2 & saved & -> & Keep); [|exact Fc|destruct pass_stderr; cbn; lia|exact L|].
  { intros j Hj. assert (j < 3) by (destruct pass_stderr; cbn in Hj; lia). rewrite C1 by lia. rewrite B6 by lia. apply Std1. assumption. }
  assert (trigger <> in0) by congruence. assert (trigger <> in1) by congruence.
  assert (T1 : t1 trigger <> None) by (rewrite A6 by assumption; exact Ta). assert (trigger <> out0) by congruence. assert (trigger <> out1) by congruence.
  assert (K0 : c2 in0 = t2 in0) by (rewrite Keep; [apply C1; congruence|rewrite C1 by congruence; rewrite B6 by congruence; congruence]).
  assert (K1 : c2 out1 = t2 out1) by (rewrite Keep; [apply C1; congruence|rewrite C1 by congruence; congruence]).
  assert (X0 : c2 in0 = Some (mkEntry (End k false) false)) by (rewrite K0, B6 by congruence; exact A4).
  assert (X1 : c2 out1 = Some (mkEntry (End (S k) true) false)) by (rewrite K1; exact B5).
  unfold dup2. rewrite X0. destruct (Nat.eqb_spec in0 0); [lia|]. rewrite put_other by lia. rewrite X1.
  eexists _, _, _. split; [reflexivity|]. reflexivity.
Qed.
Theorem C103_just_exec_starts limit range t i o e k service a : standard t i o e -> free_range t a (a + 3) -> a + 3 <= limit ->
  exists program logger, just_exec limit range true t k service = Some (program, logger).
Proof.
  intros St F L. unfold just_exec. pose proof (standard_open _ _ _ _ St) as Std.
  destruct (open_works limit t Null false a (a + 3) F) as (n & t1 & E1 & F1); [lia|]. rewrite E1.
  destruct (open_spec _ _ _ _ _ _ E1) as (A1 & A2 & A3 & A4). specialize (A4 Std).
  destruct service.
  - unfold open_logger. destruct (connection_works limit t1 k true (S a) (a + 3) F1) as (p0 & p1 & t2 & E2 & F2); [lia|]. rewrite E2.
    destruct (connection_spec _ _ _ _ _ _ _ E2) as (B1 & B2 & B3 & B4 & B5 & B6 & B7).
    assert (n <> p0) by congruence. assert (n <> p1) by congruence.
    assert (Std1 : forall m, m < 3 -> t1 m <> None) by (intros m Hm; rewrite A3 by lia; apply Std, Hm). destruct (B7 Std1) as [P0 P1].
    assert (X : close t2 p0 n = Some (mkEntry Null false)) by (unfold close; rewrite put_other by assumption; rewrite B6 by assumption; exact A2).
    assert (Y : close t2 p0 p1 = Some (mkEntry (End k true) true)) by (unfold close; rewrite put_other by congruence; exact B5).
    unfold fix_fds, dup2. destruct (Nat.ltb_spec n 1); [lia|]. destruct (Nat.ltb_spec p1 2); [lia|]. cbn [orb].
    destruct (Nat.eqb_spec n 0); [lia|]. rewrite X. destruct (Nat.eqb_spec n 1); [lia|]. rewrite put_other by lia. rewrite X.
    destruct (Nat.eqb_spec p1 2); [lia|]. rewrite !put_other by lia. rewrite Y. eauto.
  - unfold fix_fds, dup2. destruct (Nat.ltb_spec n 1); [lia|]. destruct (Nat.ltb_spec n 2); [lia|]. cbn [orb].
    destruct (Nat.eqb_spec n 0); [lia|]. rewrite A2. destruct (Nat.eqb_spec n 1); [lia|]. rewrite put_other by lia. rewrite A2.
    destruct (Nat.eqb_spec n 2); [lia|]. rewrite !put_other by lia. rewrite A2. eauto.
Qed.
Theorem C103_policy_starts limit range t k a : free_range t a (a + 2) -> 3 <= a -> a + 2 <= limit ->
  exists program parent fd, policy_program limit range t k = Some (program, parent, fd).
Proof.
  intros F H L. unfold policy_program. destruct (connection_works limit (close_rest range t) k true a (a + 2)) as (x & y & t' & -> & _); [|lia|eauto].
  intros n Hn. unfold close_rest. destruct (Nat.leb_spec 3 n); [|lia]. rewrite F by exact Hn. destruct range; [reflexivity|]. destruct (Nat.ltb n 256); reflexivity.
Qed.
Theorem C103_session_starts limit t k a : free_range t a (a + 2) -> a + 2 <= limit ->
  exists program parent, wait_for_session limit t k = Some (program, parent).
Proof.
  intros F L. unfold wait_for_session. destruct (connection_works limit t k false a (a + 2) F) as (x & y & t' & -> & _); [lia|eauto].
Qed.
(** the table of a usual process has room for all of these *)
Lemma usual_room : free_range usual 6 13 /\ usual 5 <> None.
Proof. split; [|discriminate]. intros n H. do 6 (destruct n as [|n]; [lia|]). reflexivity. Qed.
