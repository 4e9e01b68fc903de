(** C47: the helpers for input and output come to an end. A schedule is what the system calls return, up
    to now; a helper that has not returned has more to do, and no call has failed. *)
From Coq Require Import String Ascii List Bool Arith Lia.
From Verif Require Import Base Io IoProofs.
Import ListNotations.
Open Scope list_scope.

Theorem C47_write_running script : forall data w, write_all script data = (None, w) ->
  w <> data /\ forall o, In o script -> o = WIntr \/ exists k, o = Wrote (S k).
Proof.
  induction script as [|o script IH]; intros data w H; cbn [write_all] in H.
  - destruct data; [discriminate|]. assert (w = []) by congruence. subst. split; [discriminate|intros o []].
  - destruct data as [|a data]; [discriminate|]. destruct o as [k| | |]; try discriminate.
    + destruct (Nat.min k (length (a :: data))) as [|n] eqn:M; [discriminate|].
      destruct (write_all script (skipn (S n) (a :: data))) as [r w1] eqn:E. assert (r = None) by congruence. subst r.
      assert (w = firstn (S n) (a :: data) ++ w1) by congruence. subst w. destruct (IH _ _ E) as [A B]. split.
      * intros X. apply A. rewrite <- (firstn_skipn (S n) (a :: data)) in X at 2. apply app_inv_head in X. exact X.
      * intros o [<-|O]; [|apply B; exact O]. right. destruct k as [|k]; [discriminate M|]. exists k. reflexivity.
    + destruct (IH _ _ H) as [A B]. split; [exact A|]. intros o [<-|O]; [left; reflexivity|apply B; exact O].
Qed.
Theorem C47_read_running script : forall src size b rest, read_all script src size = (None, b, rest) ->
  length b < size /\ forall o, In o script -> o = RIntr \/ exists k, o = Read k.
Proof.
  induction script as [|o script IH]; intros src size b rest H; cbn [read_all] in H.
  - destruct size; [discriminate|]. assert (b = []) by congruence. subst. split; [cbn; lia|intros o []].
  - destruct size as [|size]; [discriminate|]. destruct o as [k| | |]; try discriminate.
    + destruct (read_count k (S size) src) as [|n] eqn:M; [discriminate|].
      destruct (read_all script (skipn (S n) src) (S size - S n)) as [[r b1] rest1] eqn:E. assert (r = None) by congruence. subst r.
      assert (b = firstn (S n) src ++ b1) by congruence. subst b. destruct (IH _ _ _ _ E) as [A B].
      destruct (read_count_bounds k (S size) src) as [C D]. rewrite M in C, D. split.
      * rewrite app_length, firstn_length. lia.
      * intros o [<-|O]; [right; exists k; reflexivity|apply B; exact O].
    + destruct (IH _ _ _ _ H) as [A B]. split; [exact A|]. intros o [<-|O]; [left; reflexivity|apply B; exact O].
Qed.
(** copying: the reads so far have not failed, or the write of what was read is not done *)
Theorem C47_copy_running chunk script : forall src w, copy_fd_all chunk script src = (None, w) ->
  exists pre, (forall o ws, In (o, ws) pre -> o = RIntr \/ exists k, o = Read k) /\
    (script = pre \/ exists k ws post data w', script = pre ++ (Read k, ws) :: post /\ write_all ws data = (None, w')).
Proof.
  induction script as [|[o ws] script IH]; intros src w H; cbn [copy_fd_all] in H.
  - exists []. split; [intros o ws []|left; reflexivity].
  - destruct o as [k| | |]; try discriminate.
    + destruct (read_count k chunk src) as [|n]; [discriminate|].
      destruct (write_all ws (firstn (S n) src)) as [[[|]|] w1] eqn:E; try discriminate.
      * destruct (copy_fd_all chunk script (skipn (S n) src)) as [r w2] eqn:C. assert (r = None) by congruence. subst r.
        destruct (IH _ _ C) as (pre & P & Q). exists ((Read k, ws) :: pre). split.
        -- intros o x [X|X]; [right; exists k; congruence|eapply P; exact X].
        -- destruct Q as [->|(k' & ws' & post & d & w' & -> & W)]; [left; reflexivity|]. right. exists k', ws', post, d, w'. auto.
      * exists []. split; [intros o x []|]. right. exists k, ws, script, (firstn (S n) src), w1. auto.
    + destruct (IH _ _ H) as (pre & P & Q). exists ((RIntr, ws) :: pre). split.
      * intros o x [X|X]; [left; congruence|eapply P; exact X].
      * destruct Q as [->|(k' & ws' & post & d & w' & -> & W)]; [left; reflexivity|]. right. exists k', ws', post, d, w'. auto.
Qed.
Lemma advance_all iovs : forall n, length (concat iovs) <= n -> advance iovs n = [].
Proof.
  induction iovs as [|v iovs IH]; intros n L; cbn [advance]; [reflexivity|]. cbn [concat] in L. rewrite app_length in L.
  destruct (n <? length v) eqn:E; [apply Nat.ltb_lt in E; lia|]. apply IH. lia.
Qed.
Theorem C47_send_running script : forall iovs w, sendmsg_all script iovs = (None, w) ->
  (concat iovs <> [] -> w <> concat iovs) /\ ~ In WErr script.
Proof.
  induction script as [|o script IH]; intros iovs w H; cbn [sendmsg_all] in H.
  - destruct iovs; [discriminate|]. assert (w = []) by congruence. subst. split; [intros N E; apply N; symmetry; exact E|intros []].
  - destruct iovs as [|v iovs]; [discriminate|]. destruct o as [k| | |]; try discriminate.
    + remember (v :: iovs) as l eqn:El. clear El. cbv zeta in H.
      destruct (sendmsg_all script (advance l (Nat.min k (length (concat l))))) as [r w1] eqn:E. assert (r = None) by congruence. subst r.
      assert (w = firstn (Nat.min k (length (concat l))) (concat l) ++ w1) by congruence. subst w. destruct (IH _ _ E) as [A B]. split.
      * intros N X. set (n := Nat.min k (length (concat l))) in *. assert (n <= length (concat l)) by (unfold n; lia).
        rewrite advance_concat in A by assumption. rewrite <- (firstn_skipn n (concat l)) in X at 2. apply app_inv_head in X.
        destruct (skipn n (concat l)) as [|b bs] eqn:S; [|apply A; [discriminate|exact X]].
        assert (L : length (concat l) <= n) by (apply (f_equal (@length ascii)) in S; rewrite skipn_length in S; cbn in S; lia).
        rewrite (advance_all l n L) in E. destruct script; cbn in E; discriminate E.
      * intros [X|X]; [discriminate X|exact (B X)].
    + destruct (IH _ _ H) as [A B]. split; [exact A|]. intros [X|X]; [discriminate X|exact (B X)].
    + destruct (IH _ _ H) as [A B]. split; [exact A|]. intros [X|X]; [discriminate X|exact (B X)].
Qed.
Theorem C47_malloc_running script : forall src initial max, qubes_read_all_to_malloc script src initial max = None -> ~ In RErr script.
Proof.
  intros src initial max. unfold qubes_read_all_to_malloc. generalize (@nil ascii). revert src initial.
  induction script as [|o script IH]; intros src initial acc H; [intros []|]. cbn [read_to_malloc] in H.
  intros [->|X]; [discriminate H|]. destruct o as [k| | |]; try (exact (IH _ _ _ H X)); [|discriminate H].
  cbv zeta in H. destruct (read_count k (initial - length acc) src =? 0); [discriminate H|].
  destruct (read_count k (initial - length acc) src =? initial - length acc); [|exact (IH _ _ _ H X)].
  destruct (max <=? initial); [discriminate H|exact (IH _ _ _ H X)].
Qed.
Theorem C47_vchan_running : (forall script data w, write_vchan_all script data = (None, w) -> w <> data /\ forall o, In o script -> exists k, o = Wrote k) /\
  (forall script src size b rest, read_vchan_all script src size = (None, b, rest) -> length b < size /\ forall o, In o script -> exists k, o = Read k).
Proof.
  split.
  - induction script as [|o script IH]; intros data w H; cbn [write_vchan_all] in H.
    + destruct data; [discriminate|]. assert (w = []) by congruence. subst. split; [discriminate|intros o []].
    + destruct data as [|a data]; [discriminate|]. destruct o as [k| | |]; try discriminate. cbv zeta in H.
      destruct (write_vchan_all script (skipn (Nat.min k (length (a :: data))) (a :: data))) as [r w1] eqn:E. assert (r = None) by congruence. subst r.
      assert (w = firstn (Nat.min k (length (a :: data))) (a :: data) ++ w1) by congruence. subst w. destruct (IH _ _ E) as [A B]. split.
      * intros X. apply A. apply (app_inv_head (firstn (Nat.min k (length (a :: data))) (a :: data))). rewrite firstn_skipn. exact X.
      * intros o [<-|O]; [exists k; reflexivity|apply B; exact O].
  - induction script as [|o script IH]; intros src size b rest H; cbn [read_vchan_all] in H.
    + destruct size; [discriminate|]. assert (b = []) by congruence. subst. split; [cbn; lia|intros o []].
    + destruct size as [|size]; [discriminate|]. destruct o as [k| | |]; try discriminate. destruct src as [|a src]; [discriminate|]. cbv zeta in H.
      set (n := read_count k (S size) (a :: src)) in *. destruct (read_count_bounds k (S size) (a :: src)) as [C D]. fold n in C, D.
      destruct (read_vchan_all script (skipn n (a :: src)) (S size - n)) as [[r b1] rest1] eqn:E. assert (r = None) by congruence. subst r.
      assert (b = firstn n (a :: src) ++ b1) by congruence. subst b. destruct (IH _ _ _ _ E) as [A B]. split.
      * rewrite app_length, firstn_length. lia.
      * intros o [<-|O]; [exists k; reflexivity|apply B; exact O].
Qed.
Example C47_running_run : write_all [Wrote 2; WIntr] ["a"; "b"; "c"]%char = (None, ["a"; "b"]%char) /\
  fst (sendmsg_all [Wrote 2; WAgain; Wrote 9] [["a"]; ["b"; "c"]; []]%char) = Some true /\
  fst (sendmsg_all [Wrote 2; WAgain] [["a"]; ["b"; "c"]; []]%char) = None /\
  fst (copy_fd_all 4 [(Read 3, [Wrote 1])] ["a"; "b"]%char) = None.
Proof. vm_compute. auto. Qed.
