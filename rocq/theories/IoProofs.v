(** Proofs about the I/O helpers *)
From Coq Require Import String Ascii List Bool Arith ZArith Lia.
From Verif Require Import Io.
Import ListNotations.
Open Scope list_scope.

Lemma firstn_skipn_app {A} n (l : list A) : firstn n l ++ skipn n l = l.
Proof. apply firstn_skipn. Qed.

Theorem write_all_spec script : forall data r w, write_all script data = (r, w) ->
  (exists rest, data = w ++ rest) /\ (r = Some true -> w = data) /\
  (r = Some false -> w <> data /\ exists o, In o script /\ o <> WIntr /\ (forall k, o = Wrote k -> k = 0)).
Proof.
  induction script as [|o script IH]; intros data r w; cbn [write_all].
  - destruct data as [|a data]; intros H; inversion H; subst.
    + split; [exists []; reflexivity|]. split; [auto|discriminate].
    + split; [eexists; reflexivity|]. split; discriminate.
  - destruct data as [|a data]. { intros H; inversion H; subst. split; [exists []; reflexivity|]. split; [auto|discriminate]. }
    set (d := a :: data) in *.
    assert (Hd : length d <> 0) by (cbn; discriminate).
    destruct o as [k| | |].
    + destruct (Nat.min k (length d)) as [|n] eqn:En.
      * intros H; inversion H; subst. split; [eexists; reflexivity|]. split; [discriminate|]. intros _.
        split; [discriminate|]. exists (Wrote k). split; [now left|]. split; [discriminate|]. intros k' E; inversion E; lia.
      * rewrite <- En. set (m := Nat.min k (length d)) in *.
        destruct (write_all script (skipn m d)) as [r' w'] eqn:Ew. intros H; inversion H; subst r w.
        destruct (IH _ _ _ Ew) as ((rest & Er) & Ht & Hf). split; [|split].
        -- exists rest. rewrite <- app_assoc, <- Er. symmetry. apply firstn_skipn.
        -- intros E. rewrite (Ht E). apply firstn_skipn.
        -- intros E. destruct (Hf E) as [Hne (o & Ho & P)]. split; [|exists o; split; [now right|exact P]].
           intros E2. apply Hne. apply (app_inv_head (firstn m d)). rewrite E2. symmetry. apply firstn_skipn.
    + intros H. destruct (IH _ _ _ H) as (A & B & C). split; [exact A|]. split; [exact B|].
      intros E. destruct (C E) as [Hne (o & Ho & P)]. split; [exact Hne|]. exists o. split; [now right|exact P].
    + intros H; inversion H; subst. split; [eexists; reflexivity|]. split; [discriminate|]. intros _.
      split; [discriminate|]. exists WAgain. split; [now left|]. split; [discriminate|]. discriminate.
    + intros H; inversion H; subst. split; [eexists; reflexivity|]. split; [discriminate|]. intros _.
      split; [discriminate|]. exists WErr. split; [now left|]. split; [discriminate|]. discriminate.
Qed.

Lemma read_count_bounds k want src : read_count k want src <= want /\ read_count k want src <= length src.
Proof. unfold read_count. destruct src; cbn [length]; lia. Qed.
Lemma read_count_zero k want src : 0 < want -> read_count k want src = 0 -> src = [].
Proof. unfold read_count. destruct src; [auto|]. cbn [length]. lia. Qed.

Theorem read_all_spec script : forall src size r b rest, read_all script src size = (r, b, rest) ->
  src = b ++ rest /\ length b <= size /\ (r = Some true <-> length b = size) /\
  (r = Some false -> rest = [] \/ exists o, In o script /\ (o = RAgain \/ o = RErr)).
Proof.
  induction script as [|o script IH]; intros src size r b rest; cbn [read_all].
  - destruct size as [|size]; intros H; inversion H; subst; (split; [reflexivity|]); (split; [cbn; lia|]);
      (split; [split; [try discriminate; auto|cbn; try discriminate; auto]|discriminate]).
  - destruct size as [|size].
    { intros H; inversion H; subst; (split; [reflexivity|]); (split; [cbn; lia|]);
      (split; [split; [try discriminate; auto|cbn; try discriminate; auto]|discriminate]). }
    set (sz := S size) in *.
    assert (Fail : forall o', o = o' -> (o' = RAgain \/ o' = RErr) -> (Some false, [], src) = (r, b, rest) ->
      src = b ++ rest /\ length b <= sz /\ (r = Some true <-> length b = sz) /\
      (r = Some false -> rest = [] \/ exists o0, In o0 (o :: script) /\ (o0 = RAgain \/ o0 = RErr))).
    { intros o' -> Ho H; inversion H; subst. split; [reflexivity|]. split; [cbn; lia|]. split; [split; [discriminate|discriminate]|].
      intros _. right. exists o'. split; [now left|exact Ho]. }
    destruct o as [k| | |].
    + destruct (read_count k sz src) as [|n] eqn:En.
      * intros H; inversion H; subst. split; [reflexivity|]. split; [cbn; lia|]. split; [split; discriminate|].
        intros _. left. apply (read_count_zero k sz); [unfold sz; lia|exact En].
      * rewrite <- En. pose proof (read_count_bounds k sz src) as [B1 B2]. set (m := read_count k sz src) in *.
        destruct (read_all script (skipn m src) (sz - m)) as [[r' b'] rest'] eqn:Er. intros H; inversion H; subst r b rest.
        destruct (IH _ _ _ _ _ Er) as (A & B & C & D). split; [|split; [|split]].
        -- rewrite <- app_assoc, <- A. symmetry. apply firstn_skipn.
        -- rewrite app_length, firstn_length_le by exact B2. lia.
        -- rewrite app_length, firstn_length_le by exact B2. rewrite C. lia.
        -- intros E. destruct (D E) as [|(o & Ho & P)]; [auto|]. right. exists o. split; [now right|exact P].
    + intros H. destruct (IH _ _ _ _ _ H) as (A & B & C & D). split; [exact A|]. split; [exact B|]. split; [exact C|].
      intros E. destruct (D E) as [|(o & Ho & P)]; [auto|]. right. exists o. split; [now right|exact P].
    + apply (Fail RAgain); auto.
    + apply (Fail RErr); auto.
Qed.

Theorem read_to_malloc_spec script : forall src buf_size max acc r,
  2 <= buf_size <= max -> length acc < buf_size ->
  read_to_malloc script src buf_size max acc = Some r ->
  match r with
  | Some b => b = acc ++ src /\ length b < max
  | None => max <= length (acc ++ src) \/ In RErr script
  end.
Proof.
  induction script as [|o script IH]; intros src buf_size max acc r Hb Ha; cbn [read_to_malloc]; [discriminate|].
  destruct o as [k| | |].
  - cbv zeta. set (to_read := buf_size - length acc). pose proof (read_count_bounds k to_read src) as [B1 B2].
    set (n := read_count k to_read src) in *.
    destruct (Nat.eqb_spec n 0) as [En|En].
    { intros H; inversion H; subst r. apply read_count_zero in En; [|unfold to_read; lia]. subst src.
      rewrite app_nil_r. split; [reflexivity|lia]. }
    assert (Hacc : length (acc ++ firstn n src) = length acc + n).
    { rewrite app_length, firstn_length_le by exact B2. reflexivity. }
    assert (Hsrc : (acc ++ firstn n src) ++ skipn n src = acc ++ src).
    { rewrite <- app_assoc, firstn_skipn. reflexivity. }
    destruct (Nat.eqb_spec n to_read) as [Et|Et].
    + destruct (Nat.leb_spec max buf_size) as [Hm|Hm].
      * intros H; inversion H; subst r. left. rewrite <- Hsrc, app_length, Hacc. unfold to_read in *. lia.
      * set (bs := if buf_size / 2 <? max - buf_size then buf_size + buf_size / 2 else max).
        assert (Hbs : buf_size < bs <= max).
        { unfold bs. pose proof (Nat.div_le_lower_bound buf_size 2 1 ltac:(lia) ltac:(lia)).
          destruct (Nat.ltb_spec (buf_size / 2) (max - buf_size)); lia. }
        intros H. apply IH in H; [|lia|rewrite Hacc; unfold to_read in *; lia].
        rewrite Hsrc in H. destruct r; [exact H|]. destruct H; [auto|]. right. now right.
    + intros H. apply IH in H; [|lia|rewrite Hacc; unfold to_read in *; lia].
      rewrite Hsrc in H. destruct r; [exact H|]. destruct H; [auto|]. right. now right.
  - intros H. apply IH in H; auto. destruct r; [exact H|]. destruct H; [auto|]. right. now right.
  - intros H. apply IH in H; auto. destruct r; [exact H|]. destruct H; [auto|]. right. now right.
  - intros H; inversion H; subst. right. now left.
Qed.

Theorem copy_fd_all_spec chunk script : 0 < chunk -> forall src r w, copy_fd_all chunk script src = (r, w) ->
  (exists rest, src = w ++ rest) /\ (r = Some true -> w = src).
Proof.
  intros Hc. induction script as [|[o ws] script IH]; intros src r w; cbn [copy_fd_all].
  { intros H; inversion H; subst. split; [eexists; reflexivity|discriminate]. }
  destruct o as [k| | |].
  - destruct (read_count k chunk src) as [|n] eqn:En.
    { apply read_count_zero in En; [|exact Hc]. intros H; inversion H; subst. split; [exists []; reflexivity|auto]. }
    remember (S n) as m eqn:Em. clear Em En. destruct (write_all ws (firstn m src)) as [r1 w1] eqn:E1.
    destruct (write_all_spec _ _ _ _ E1) as ((rest1 & P1) & T1 & _).
    assert (Bad : r1 <> Some true -> (r1, w1) = (r, w) -> (exists rest, src = w ++ rest) /\ (r = Some true -> w = src)).
    { intros Hne H; inversion H; subst. split; [|intros ?; congruence].
      exists (rest1 ++ skipn m src). rewrite app_assoc, <- P1. symmetry. apply firstn_skipn. }
    destruct r1 as [[|]|]; [|apply Bad; discriminate|apply Bad; discriminate].
    specialize (T1 eq_refl). subst w1.
    destruct (copy_fd_all chunk script (skipn m src)) as [r2 w2] eqn:E2. intros H; inversion H; subst r w.
    destruct (IH _ _ _ E2) as ((rest2 & P2) & T2). split.
    + exists rest2. rewrite <- app_assoc, <- P2. symmetry. apply firstn_skipn.
    + intros E. rewrite (T2 E). apply firstn_skipn.
  - apply IH.
  - intros H; inversion H; subst. split; [eexists; reflexivity|discriminate].
  - intros H; inversion H; subst. split; [eexists; reflexivity|discriminate].
Qed.

Lemma advance_concat iovs : forall n, n <= length (concat iovs) -> concat (advance iovs n) = skipn n (concat iovs).
Proof.
  induction iovs as [|v iovs IH]; intros n Hn; cbn [advance concat] in *.
  - now rewrite skipn_nil.
  - rewrite app_length in Hn. rewrite skipn_app. destruct (Nat.ltb_spec n (length v)) as [H|H].
    + cbn [concat]. replace (n - length v) with 0 by lia. reflexivity.
    + rewrite (skipn_all2 v) by exact H. cbn [app]. apply IH. lia.
Qed.
Theorem sendmsg_all_spec script : forall iovs r w, sendmsg_all script iovs = (r, w) ->
  (exists rest, concat iovs = w ++ rest) /\ (r = Some true -> w = concat iovs).
Proof.
  induction script as [|o script IH]; intros iovs r w; cbn [sendmsg_all].
  - destruct iovs; intros H; inversion H; subst; (split; [eexists; reflexivity|]); [auto|discriminate].
  - destruct iovs as [|v iovs]. { intros H; inversion H; subst; (split; [eexists; reflexivity|]). auto. }
    set (iv := v :: iovs) in *. destruct o as [k| | |]; try apply IH.
    + cbv zeta. set (n := Nat.min k (length (concat iv))).
      destruct (sendmsg_all script (advance iv n)) as [r' w'] eqn:E. intros H; inversion H; subst r w.
      destruct (IH _ _ _ E) as ((rest & P) & T). rewrite advance_concat in * by (unfold n; lia). split.
      * exists rest. rewrite <- app_assoc, <- P. symmetry. apply firstn_skipn.
      * intros Et. rewrite (T Et). apply firstn_skipn.
    + intros H; inversion H; subst. split; [eexists; reflexivity|discriminate].
Qed.
Theorem write_vchan_all_spec script : forall data r w, write_vchan_all script data = (r, w) ->
  (exists rest, data = w ++ rest) /\ (r = Some true -> w = data).
Proof.
  induction script as [|o script IH]; intros data r w; cbn [write_vchan_all].
  - destruct data; intros H; inversion H; subst; (split; [eexists; reflexivity|]); [auto|discriminate].
  - destruct data as [|a data]. { intros H; inversion H; subst; (split; [eexists; reflexivity|]). auto. }
    set (d := a :: data) in *.
    destruct o as [k| | |]; try (intros H; inversion H; subst; split; [eexists; reflexivity|discriminate]).
    cbv zeta. set (n := Nat.min k (length d)). destruct (write_vchan_all script (skipn n d)) as [r' w'] eqn:E.
    intros H; inversion H; subst r w. destruct (IH _ _ _ E) as ((rest & P) & T). split.
    + exists rest. rewrite <- app_assoc, <- P. symmetry. apply firstn_skipn.
    + intros Et. rewrite (T Et). apply firstn_skipn.
Qed.
Theorem read_vchan_all_spec script : forall src size r b rest, read_vchan_all script src size = (r, b, rest) ->
  src = b ++ rest /\ length b <= size /\ (r = Some true <-> length b = size).
Proof.
  induction script as [|o script IH]; intros src size r b rest; cbn [read_vchan_all].
  - destruct size as [|size]; intros H; inversion H; subst; (split; [reflexivity|]); (split; [cbn; lia|]);
      (split; [try discriminate; auto|cbn; try discriminate; auto]).
  - destruct size as [|size].
    { intros H; inversion H; subst; (split; [reflexivity|]); (split; [cbn; lia|]); split; auto. }
    set (sz := S size) in *.
    assert (Fail : (Some false, [], src) = (r, b, rest) -> src = b ++ rest /\ length b <= sz /\ (r = Some true <-> length b = sz)).
    { intros H; inversion H; subst. split; [reflexivity|]. split; [cbn; lia|]. split; discriminate. }
    destruct o as [k| | |]; try exact Fail. destruct src as [|a src0] eqn:Es; [exact Fail|]. rewrite <- Es in *. clear Es.
    cbv zeta. pose proof (read_count_bounds k sz src) as [B1 B2]. set (m := read_count k sz src) in *.
    destruct (read_vchan_all script (skipn m src) (sz - m)) as [[r' b'] rest'] eqn:Er. intros H; inversion H; subst r b rest.
    destruct (IH _ _ _ _ _ Er) as (A & B & C). split; [|split].
    + rewrite <- app_assoc, <- A. symmetry. apply firstn_skipn.
    + rewrite app_length, firstn_length_le by exact B2. lia.
    + rewrite app_length, firstn_length_le by exact B2. rewrite C. lia.
Qed.
