(** Lemmas for the policy graph. *)
From Coq Require Import String Ascii List Bool Arith Permutation.
From Verif Require Import Base SysInfo Token Rule Policy Graph SpecPolicy SpecGraph SelectProofs EvalProofs.
Import ListNotations.
Open Scope string_scope.
Open Scope list_scope.

Lemma each_In {A B} (g : A -> res (list B)) : forall l out, each g l = Ok out ->
  (forall x, In x l -> exists ys, g x = Ok ys /\ incl ys out) /\
  (forall y, In y out -> exists x ys, In x l /\ g x = Ok ys /\ In y ys).
Proof.
  induction l as [|a l IH]; intros out E; cbn in E.
  - injection E as <-. split; [intros x []|intros y []].
  - destruct (g a) as [b|] eqn:Ga; [|discriminate]. cbn in E.
    destruct (each g l) as [bs|] eqn:El; [|discriminate]. injection E as <-.
    destruct (IH bs eq_refl) as [I1 I2]. split.
    + intros x [<-|Hx]; [exists b; split; [exact Ga|apply incl_appl, incl_refl]|].
      destruct (I1 x Hx) as (ys & G & Inc). exists ys. split; [exact G|apply incl_appr; exact Inc].
    + intros y Hy. apply in_app_or in Hy as [Hy|Hy].
      * exists a, b. split; [left; reflexivity|auto].
      * destruct (I2 y Hy) as (x & ys & Hx & G & H). exists x, ys. split; [right; exact Hx|auto].
Qed.
Lemma once_In x : forall l seen, In x (once seen l) <-> In x l /\ ~ In x seen.
Proof.
  induction l as [|y l IH]; intros seen; cbn [once]; [cbn; tauto|].
  destruct (smem y seen) eqn:E.
  - rewrite IH. apply smem_In in E. cbn. split; [tauto|]. intros [[<-|H] N]; tauto.
  - assert (N : ~ In y seen) by (rewrite <- smem_In; congruence).
    cbn [In]. rewrite IH. cbn [In]. split; [intros [<-|[H1 H2]]; tauto|]. intros [[<-|H1] H2]; [tauto|].
    destruct (string_dec y x) as [->|]; tauto.
Qed.

(** ** Evaluation looks at the service and the argument through matching only *)
Definition same_call (q q' : request) : Prop :=
  q_info q = q_info q' /\ q_source q = q_source q' /\ q_target q = q_target q'.
Lemma is_match_same r q q' : same_call q q' -> is_match_but_target r q = is_match_but_target r q' -> is_match r q = is_match r q'.
Proof. intros (Ei & Es & Et) M. unfold is_match. rewrite M, Ei, Es, Et. reflexivity. Qed.
Lemma collect_loop_same q q' : same_call q q' -> forall rs ts, (forall r, In r rs -> is_match_but_target r q = is_match_but_target r q') ->
  collect_loop rs q ts = collect_loop rs q' ts.
Proof.
  intros (Ei & Es & Et). induction rs as [|r rs IH]; intros ts M; [reflexivity|]. cbn [collect_loop].
  rewrite (M r (or_introl eq_refl)), Ei. destruct (is_match_but_target r q') as [[|]|]; cbn [bind]; auto.
  - destruct (expand (q_info q') _); cbn [bind]; auto. apply IH. intros; apply M; right; auto.
  - apply IH. intros; apply M; right; auto.
Qed.
Lemma find_same q q' : same_call q q' -> forall rs, (forall r, In r rs -> is_match_but_target r q = is_match_but_target r q') ->
  find_matching_rule rs q = find_matching_rule rs q'.
Proof.
  intros S. induction rs as [|r rs IH]; intros M; [reflexivity|]. cbn [find_matching_rule].
  rewrite (is_match_same r q q' S (M r (or_introl eq_refl))).
  destruct (is_match r q') as [[|]|]; cbn [bind]; auto. apply IH. intros; apply M; right; auto.
Qed.
Lemma find_In rs q r : find_matching_rule rs q = Ok r -> In r rs.
Proof.
  induction rs as [|x rs IH]; cbn; [discriminate|]. destruct (is_match x q) as [[|]|]; cbn; try discriminate.
  - intros [= <-]. auto.
  - auto.
Qed.
Lemma evaluate_same q q' rs : same_call q q' -> (forall r, In r rs -> is_match_but_target r q = is_match_but_target r q') ->
  find_matching_rule rs q = find_matching_rule rs q' /\
  forall r, In r rs -> action_evaluate rs r q = action_evaluate rs r q'.
Proof.
  intros S M. split; [apply find_same; auto|]. intros r Hr. unfold action_evaluate.
  pose proof (is_match_same r q q' S (M r Hr)) as Mr. pose proof S as (Ei & Es & Et).
  destruct (r_action r).
  - reflexivity.
  - unfold allow_evaluate, assert_match. rewrite Mr, Ei, Es, Et. reflexivity.
  - unfold ask_evaluate, assert_match, collect_targets_for_ask. rewrite Mr, Ei, Es.
    rewrite (collect_loop_same q q' S (rev rs) []); [reflexivity|].
    intros x Hx. apply M, in_rev. exact Hx.
Qed.

(** rules that do not match can be left out *)
Lemma find_filter P q : forall rs, (forall r, In r rs -> P r = false -> is_match_but_target r q = Ok false) ->
  find_matching_rule (filter P rs) q = find_matching_rule rs q.
Proof.
  induction rs as [|r rs IH]; intros N; [reflexivity|]. cbn [filter find_matching_rule].
  destruct (P r) eqn:E; cbn [find_matching_rule].
  - destruct (is_match r q) as [[|]|]; cbn [bind]; auto. apply IH. intros; apply N; [right|]; auto.
  - unfold is_match. rewrite (N r (or_introl eq_refl) E). cbn [bind]. apply IH. intros; apply N; [right|]; auto.
Qed.
Lemma collect_filter P q : forall rs ts, (forall r, In r rs -> P r = false -> is_match_but_target r q = Ok false) ->
  collect_loop (filter P rs) q ts = collect_loop rs q ts.
Proof.
  induction rs as [|r rs IH]; intros ts N; [reflexivity|]. cbn [filter].
  assert (N' : forall r, In r rs -> P r = false -> is_match_but_target r q = Ok false) by (intros; apply N; [right|]; auto).
  destruct (P r) eqn:E; cbn [collect_loop].
  - destruct (is_match_but_target r q) as [[|]|]; cbn [bind]; auto.
    destruct (expand (q_info q) _); cbn [bind]; auto.
  - rewrite (N r (or_introl eq_refl) E). cbn [bind]. auto.
Qed.
Lemma filter_rev {A} (P : A -> bool) (l : list A) : filter P (rev l) = rev (filter P l).
Proof.
  induction l as [|x l IH]; [reflexivity|]. cbn [rev filter]. rewrite filter_app, IH. cbn [filter].
  destruct (P x); cbn [rev]; [reflexivity|apply app_nil_r].
Qed.
Lemma evaluate_filter P q rs : (forall r, In r rs -> P r = false -> is_match_but_target r q = Ok false) ->
  find_matching_rule (filter P rs) q = find_matching_rule rs q /\
  forall r, action_evaluate (filter P rs) r q = action_evaluate rs r q.
Proof.
  intros N. split; [apply find_filter; exact N|]. intros r. unfold action_evaluate. destruct (r_action r); auto.
  unfold ask_evaluate, collect_targets_for_ask. rewrite <- filter_rev.
  rewrite (collect_filter P q (rev rs) []); [reflexivity|]. intros x Hx. apply N, in_rev. exact Hx.
Qed.

Lemma no_service r q : opt_match (r_service r) (q_service q) = false -> is_match_but_target r q = Ok false.
Proof. intros E. unfold is_match_but_target. rewrite E. reflexivity. Qed.
Lemma no_arg r q : opt_match (r_arg r) (q_arg q) = false -> is_match_but_target r q = Ok false.
Proof. intros E. unfold is_match_but_target. rewrite E. destruct (opt_match (r_service r) (q_service q)); reflexivity. Qed.
Lemma match_cols r q q' : same_call q q' -> opt_match (r_service r) (q_service q) = opt_match (r_service r) (q_service q') ->
  opt_match (r_arg r) (q_arg q) = opt_match (r_arg r) (q_arg q') -> is_match_but_target r q = is_match_but_target r q'.
Proof. intros (Ei & Es & Et) A B. unfold is_match_but_target. rewrite A, B, Ei, Es. reflexivity. Qed.

(** make_request without a relay: the parts *)
Lemma make_request_parts i sv ar s t q : make_request i sv ar s t "" = Ok q ->
  starts "+" ar = true /\ q_info q = i /\ q_service q = sv /\ q_arg q = ar /\ q_source q = s /\
  forall sv' ar', starts "+" ar' = true -> exists q', make_request i sv' ar' s t "" = Ok q' /\ same_call q q' /\ q_service q' = sv' /\ q_arg q' = ar'.
Proof.
  unfold make_request. destruct (starts "+" ar) eqn:P; [|discriminate]. cbn [negb].
  destruct (parse_tok CIntended (if String.eqb t "" then "@default" else t)) as [t0|]; [|discriminate]. cbn [bind].
  destruct (verify i t0) as [t1|]; [|discriminate]. cbn [bind]. cbn [String.eqb].
  intros [= <-]. cbn. do 5 (split; [reflexivity|]).
  intros sv' ar' P'. rewrite P'. cbn. eexists. split; [reflexivity|]. split; [|split; reflexivity]. split; [|split]; reflexivity.
Qed.
