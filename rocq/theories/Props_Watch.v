(** C34, C35: which directories the cache watches, and when it loads. *)
From Coq Require Import String Ascii List Bool Arith.
From Verif Require Import Base SysInfo Token Rule FileSys Loader Cache Props_Loader Props_Cache.
Import ListNotations.
Open Scope string_scope.
Open Scope list_scope.

(** What is watched when the watches are set up: of the policy directories and, unless the
    old format is ignored, the two default ones, those that exist, and exactly the directories in them.
    Afterwards the choice does not change. *)
Theorem C34_watched lg fu ul paths s s' : cache_step lg fu ul paths s LWatch s' ->
  (forall r, In r (c_roots s') <->
     fget (c_fs s) r <> None /\ (In r paths \/ ul = true /\ (r = ["etc"; "qubes"; "policy.d"] \/ r = ["etc"; "qubes-rpc"; "policy"]))) /\
  (forall d, In d (c_dirs s') <-> fget (c_fs s) d = Some NDir /\ exists r q, In r (c_roots s') /\ d = r ++ q) /\
  c_fs s' = c_fs s /\ c_policy s' = c_policy s /\ c_outdated s' = c_outdated s /\ c_watching s' = true /\
  (forall h s2, reach lg fu ul paths anything s' h s2 -> c_roots s2 = c_roots s').
Proof.
  intros St. inversion St as [| ? W |  | ]; subst. unfold initialize_watcher.
  cbn [c_roots c_dirs c_fs c_policy c_outdated c_watching].
  split; [|split; [|do 4 (split; [reflexivity|])]].
  - intros r. unfold watch_roots. rewrite filter_In, in_app_iff, filter_In, negb_true_iff.
    assert (X : exists_at (c_fs s) r = true <-> fget (c_fs s) r <> None)
      by (unfold exists_at; destruct (fget (c_fs s) r); split; congruence).
    rewrite X. destruct ul.
    + destruct (existsb (path_eqb r) [POLICYPATH; POLICYPATH_OLD]) eqn:E.
      * apply existsb_path in E. cbn [In] in *. unfold POLICYPATH, POLICYPATH_OLD in *.
        split; intros [H G]; (split; [tauto|]); intuition congruence.
      * assert (N : ~ In r [POLICYPATH; POLICYPATH_OLD]) by (rewrite <- existsb_path; congruence).
        cbn [In] in *. unfold POLICYPATH, POLICYPATH_OLD in *. intuition (congruence || auto).
    + cbn. intuition congruence.
  - intros d. rewrite in_flat_map. split.
    + intros (r & Hr & Hd). apply dirs_under_In in Hd as [P D]. split; [exact D|].
      apply prefix_spec in P as (q & ->). exists r, q. auto.
    + intros (D & r & q & Hr & ->). exists r. split; [exact Hr|]. apply dirs_under_In. split; [|exact D].
      apply prefix_spec. eauto.
  - intros h s2 R.
    enough (G : c_watching s2 = true /\ c_roots s2 = watch_roots ul (c_fs s) paths) by tauto.
    induction R as [|h s1 l s2 R [IW IR] _ St1]; [split; reflexivity|].
    inversion St1 as [s0 c Hc|s0 Hw|s0 s'' Hd|s0 d ld a s'' _ _ _ Hg]; subst.
    + cbn. auto.
    + congruence.
    + unfold deliver in Hd. destruct (c_queue s1) as [|[k p] q]; [discriminate|]. injection Hd as <-. cbn. auto.
    + assert (K : forall l t, c_watching (fold_left change_tree l t) = c_watching t /\ c_roots (fold_left change_tree l t) = c_roots t).
      { induction l as [|c l IHl]; intros t; [split; reflexivity|]. cbn [fold_left]. destruct (IHl (change_tree t c)) as [-> ->]. split; reflexivity. }
      unfold get_policy in Hg. destruct (K d s1) as [K1 K2].
      destruct (c_outdated s1); [|injection Hg as <- <-; auto].
      destruct ld; injection Hg as <- <-; cbn [c_watching c_roots]; rewrite K1, K2; auto.
Qed.

(** Between notifications the daemon answers from memory: a request after one that was
    answered with a policy gets the same policy, whatever the files are now and whatever loading would
    yield, and nothing changes *)
Theorem C34_cached lg fu ul paths s d ld p s1 h s2 d2 ld2 a s3 :
  cache_step lg fu ul paths s (LRequest d ld (Ok (Some p))) s1 ->
  reach lg fu ul paths anything s1 h s2 -> ~ In LDeliver h ->
  cache_step lg fu ul paths s2 (LRequest d2 ld2 a) s3 ->
  a = Ok (Some p) /\ s3 = s2 /\ d2 = [].
Proof.
  intros S1 R N S2.
  assert (A1 : c_outdated s1 = false /\ c_policy s1 = Some p).
  { inversion S1 as [| | |? ? ? ? ? _ _ _ Hg]; subst. unfold get_policy in Hg. destruct (c_outdated s) eqn:O.
    - destruct ld; injection Hg as H1 <-; [|congruence]. cbn. split; congruence.
    - injection Hg as H1 <-. split; [exact O|congruence]. }
  assert (A2 : c_outdated s2 = false /\ c_policy s2 = Some p).
  { clear S2. induction R as [|h s0 l s2' R IH _ St]; [exact A1|].
    rewrite in_app_iff in N. destruct IH as [IO IP]; [intros K; apply N; auto|].
    inversion St as [s00 c Hc|s00 Hw|s00 s'' Hd|s00 d' ld' a' s'' Hok Hdu Hld Hg]; subst.
    - auto.
    - auto.
    - exfalso. apply N. right. left. reflexivity.
    - unfold get_policy in Hg. rewrite IO in Hg. injection Hg as <- <-. auto. }
  destruct A2 as [O2 P2]. inversion S2 as [| | |? ? ? ? ? _ Hdu _ Hg]; subst.
  unfold get_policy in Hg. rewrite O2 in Hg. injection Hg as <- <-. rewrite P2. auto.
Qed.

(** and a request after any notification loads *)
Theorem C34_notified lg fu ul paths lazy f during load s0 h s s1 h2 s2 d ld a s3 :
  new_cache lazy f during load = Ok s0 -> reach lg fu ul paths anything s0 h s ->
  cache_step lg fu ul paths s LDeliver s1 ->
  reach lg fu ul paths anything s1 h2 s2 -> (forall d ld a, ~ In (LRequest d ld a) h2) ->
  cache_step lg fu ul paths s2 (LRequest d ld a) s3 ->
  a = match ld with Ok p => Ok (Some p) | Err e => Err e end.
Proof.
  intros New R S1 R2 N S2.
  assert (A1 : c_outdated s1 = true).
  { inversion S1 as [| |? ? Hd|]; subst. unfold deliver in Hd.
    pose proof (queue_handled _ _ _ _ _ _ _ _ _ _ _ New R) as Q.
    destruct (c_queue s) as [|[k p] q]; [discriminate|]. injection Hd as <-. cbn [c_outdated].
    rewrite (Q k p (or_introl eq_refl)). apply orb_true_r. }
  assert (A2 : c_outdated s2 = true).
  { clear S2. induction R2 as [|h' s0' l s2' R2 IH _ St]; [exact A1|].
    specialize (IH (fun d ld a K => N d ld a (in_or_app _ _ _ (or_introl K)))).
    inversion St as [s00 c Hc|s00 Hw|s00 s'' Hd|s00 d' ld' a' s'' Hok Hdu Hld Hg]; subst.
    - exact IH.
    - exact IH.
    - unfold deliver in Hd. destruct (c_queue s0') as [|[k p] q]; [discriminate|]. injection Hd as <-. cbn. rewrite IH. reflexivity.
    - exfalso. apply (N d' ld' a'), in_or_app. right. left. reflexivity. }
  inversion S2 as [| | |? ? ? ? ? _ _ _ Hg]; subst. unfold get_policy in Hg. rewrite A2 in Hg.
  destruct ld; injection Hg as <- <-; reflexivity.
Qed.

(** the hypotheses are met: the daemon as it starts, the watches, a change and a request *)
Example C34_watched_example :
  cache_step POLICYPATH_OLD 5 true ex_paths ex0 LWatch ex1 /\
  In ["run"; "qubes"; "policy.d"] (c_roots ex1) /\ cache_step POLICYPATH_OLD 5 true ex_paths ex2 LDeliver ex3.
Proof.
  split; [apply cs_watch; vm_compute; reflexivity|]. split; [vm_compute; auto|]. apply cs_deliver. vm_compute. reflexivity.
Qed.
