(** C98: waiting for a connection ends in time *)
From Coq Require Import List Bool ZArith Lia.
From Verif Require Import VchanTimeout SpecTimeout.
Import ListNotations.
Open Scope Z_scope.

Lemma reading_valid t : valid t -> reading (Some t) = Some (Some t).
Proof.
  intros [A B]. unfold reading, BILLION. rewrite (proj2 (Z.leb_le _ _) A), (proj2 (Z.ltb_lt _ _) B). reflexivity.
Qed.
Lemma time_left_spec e n : valid e -> valid n ->
  match time_left e n with
  | Some l => 0 <= tv_sec l /\ valid l /\ instant n + instant l = instant e
  | None => instant e < instant n
  end.
Proof.
  intros [E1 E2] [N1 N2]. unfold time_left, valid, instant in *. destruct (Z.leb_spec (tv_sec n) (tv_sec e)); [|cbn [tv_sec tv_nsec] in *; lia].
  destruct (Z.ltb_spec (tv_nsec e - tv_nsec n) 0); cbv iota zeta beta.
  - destruct (Z.ltb_spec (tv_sec e - tv_sec n - 1) 0); cbn [tv_sec tv_nsec]; unfold BILLION; lia.
  - destruct (Z.ltb_spec (tv_sec e - tv_sec n) 0); cbn [tv_sec tv_nsec]; unfold BILLION; lia.
Qed.
Lemma after_idle is_server now r finish : idle is_server (now, r, finish) -> after_poll is_server r finish = None.
Proof.
  intros [->|[->|(-> & -> & F)]]; try reflexivity. cbn [after_poll]. destruct (Z.ltb_spec finish 0); [lia|]. destruct (Z.eqb_spec finish 0); [lia|reflexivity].
Qed.
Lemma after_connected is_server now r finish : connected is_server (now, r, finish) -> after_poll is_server r finish = Some (Returned 0).
Proof. intros (-> & [->| ->]); [reflexivity|]. cbn [after_poll]. destruct is_server; reflexivity. Qed.
Lemma after_failed is_server now r finish : failed is_server (now, r, finish) -> after_poll is_server r finish = Some (Returned (-1)).
Proof.
  intros [->|[->|(-> & -> & F)]]; try reflexivity. cbn [after_poll]. destruct (Z.ltb_spec finish 0); [reflexivity|lia].
Qed.
Lemma turn_cases is_server t : idle is_server t \/ connected is_server t \/ failed is_server t.
Proof.
  destruct t as [[now r] finish]. unfold idle, connected, failed.
  destruct r as [| | |input]; [tauto|tauto|tauto|]. destruct input; [|tauto]. destruct is_server; [tauto|].
  destruct (Z.lt_trichotomy finish 0) as [H|[H|H]]; [tauto|tauto|]. left. right. right. split; [reflexivity|]. split; [reflexivity|lia].
Qed.
Lemma deadline_end start timeout : instant (mkTime (tv_sec start + timeout) (tv_nsec start)) = deadline start timeout.
Proof. unfold deadline, instant. cbn [tv_sec tv_nsec]. lia. Qed.

(** ** The limit *)

(** Whenever it waits, it does so until the deadline and no longer; signals and the like do not
    prolong the time. The limit given to ppoll is always well-formed. *)
Theorem C98_limit is_server timeout start ts e polls : 0 < timeout -> valid start -> Forall clock_works ts ->
  wait_for_connection is_server timeout (Some start) ts = (e, polls) ->
  forall now limit, In (now, limit) polls -> exists n l, now = Some n /\ limit = Some l /\
    0 <= tv_sec l /\ valid l /\ instant n + instant l = deadline start timeout.
Proof.
  intros T V C. unfold wait_for_connection. rewrite reading_valid by exact V. rewrite <- deadline_end.
  set (end_tp := mkTime (tv_sec start + timeout) (tv_nsec start)). assert (Ve : valid end_tp) by exact V. clearbody end_tp.
  revert e polls. induction C as [|t ts (n & En & Vn) _ IH]; intros e polls H now limit I; cbn [turns] in H.
  - injection H as <- <-. destruct I.
  - destruct t as [[now' r] finish]. cbn [fst] in En. subst now'. unfold before_poll in H. rewrite (proj2 (Z.ltb_lt _ _) T) in H. rewrite reading_valid in H by exact Vn.
    pose proof (time_left_spec end_tp n Ve Vn) as L. destruct (time_left end_tp n) as [l|].
    + destruct (after_poll is_server r finish) as [e'|].
      * injection H as <- <-. destruct I as [I|[]]. injection I as <- <-. exists n, l. auto.
      * destruct (turns timeout is_server end_tp ts) as [e' l'] eqn:R. injection H as <- <-. destruct I as [I|I]; [injection I as <- <-; exists n, l; auto|].
        eapply IH; [reflexivity|exact I].
    + injection H as <- <-. destruct I.
Qed.
(** Without a limit it waits as long as it takes *)
Theorem C98_no_limit is_server timeout start ts e polls : timeout <= 0 -> valid start ->
  wait_for_connection is_server timeout (Some start) ts = (e, polls) ->
  forall now limit, In (now, limit) polls -> limit = None.
Proof.
  intros T V. unfold wait_for_connection. rewrite reading_valid by exact V. set (end_tp := mkTime _ _). clearbody end_tp.
  revert e polls. induction ts as [|[[now' r] finish] ts IH]; intros e polls H now limit I; cbn [turns] in H.
  - injection H as <- <-. destruct I.
  - unfold before_poll in H. rewrite (proj2 (Z.ltb_ge _ _) T) in H. destruct (after_poll is_server r finish) as [e'|].
    + injection H as <- <-. destruct I as [I|[]]. congruence.
    + destruct (turns timeout is_server end_tp ts) as [e' l'] eqn:R. injection H as <- <-. destruct I as [I|I]; [congruence|]. eapply IH; [reflexivity|exact I].
Qed.

(** ** The result *)
Lemma before_in_time start timeout t : valid start -> in_time start timeout t ->
  exists limit, before_poll timeout (mkTime (tv_sec start + timeout) (tv_nsec start)) (fst (fst t)) = inr limit.
Proof.
  intros V. unfold before_poll. destruct (Z.ltb_spec 0 timeout) as [T|T]; [|eauto]. intros [H|((n & En & Vn) & L)]; [lia|]. rewrite En, reading_valid by exact Vn.
  pose proof (time_left_spec (mkTime (tv_sec start + timeout) (tv_nsec start)) n V Vn) as S. destruct (time_left _ n) as [l|]; [eauto|].
  exfalso. apply L. exists n. split; [exact En|]. rewrite <- deadline_end. exact S.
Qed.
Lemma before_late start timeout t : valid start -> 0 < timeout -> late start timeout t -> clock_works t ->
  before_poll timeout (mkTime (tv_sec start + timeout) (tv_nsec start)) (fst (fst t)) = inl (Returned (-1)).
Proof.
  intros V T (n & En & L) (n' & En' & Vn). rewrite En in *. injection En' as <-. unfold before_poll. rewrite (proj2 (Z.ltb_lt _ _) T), reading_valid by exact Vn.
  pose proof (time_left_spec (mkTime (tv_sec start + timeout) (tv_nsec start)) n V Vn) as S. destruct (time_left _ n) as [l|]; [|reflexivity].
  rewrite deadline_end in S. unfold instant in S, L. destruct S as (S1 & S2 & S3). unfold valid in *. lia.
Qed.
Lemma before_unreadable timeout end_tp : 0 < timeout -> before_poll timeout end_tp None = inl (Returned (-1)).
Proof. intros T. unfold before_poll. rewrite (proj2 (Z.ltb_lt _ _) T). reflexivity. Qed.
Theorem C98_result is_server timeout start ts z : valid start -> (forall t n, In t ts -> fst (fst t) = Some n -> valid n) ->
  (fst (wait_for_connection is_server timeout (Some start) ts) = Some (Returned z) <->
   exists before t after, ts = before ++ t :: after /\ Forall (fun t => in_time start timeout t /\ idle is_server t) before /\
     ends_with is_server timeout start t z).
Proof.
  intros V. unfold wait_for_connection. rewrite reading_valid by exact V.
  induction ts as [|t ts IH]; intros C.
  - cbn [turns fst]. split; [discriminate|]. intros (b & t & a & E & _). destruct b; discriminate.
  - specialize (IH (fun t' n H => C t' n (or_intror H))). destruct t as [[now r] finish]. cbn [turns].
    assert (Cases : in_time start timeout (now, r, finish) \/
                    (0 < timeout /\ ((late start timeout (now, r, finish) /\ clock_works (now, r, finish)) \/ now = None))).
    { destruct (Z_le_gt_dec timeout 0) as [H|H]; [left; left; exact H|]. destruct now as [n|]; [|right; split; [lia|auto]].
      pose proof (C (Some n, r, finish) n (or_introl eq_refl) eq_refl) as Vn. assert (W : clock_works (Some n, r, finish)) by (exists n; auto).
      destruct (Z_lt_dec (deadline start timeout) (instant n)) as [L|L].
      - right. split; [lia|]. left. split; [exists n; split; [reflexivity|exact L]|exact W].
      - left. right. split; [exact W|]. intros (n' & E & L'). cbn [fst] in E. injection E as <-. contradiction. }
    assert (NotIn : forall t', 0 < timeout -> late start timeout t' \/ fst (fst t') = None -> ~ in_time start timeout t').
    { intros t' T [L|N] [H|((n & En & _) & H)]; [lia|exact (H L)|lia|rewrite N in En; discriminate En]. }
    destruct Cases as [I|(T & D)].
    + destruct (before_in_time start timeout _ V I) as (limit & E). cbn [fst] in E. rewrite E.
      assert (Only : forall z', ends_with is_server timeout start (now, r, finish) z' ->
                (z' = 0 /\ connected is_server (now, r, finish)) \/ (z' = -1 /\ failed is_server (now, r, finish))).
      { intros z' H. inversion H as [t' A B|t' A B|t' A B|r' f' A]; subst; [auto|auto|exfalso; exact (NotIn _ A (or_introl B) I)|].
        exfalso. eapply NotIn; [exact A| |exact I]. right. reflexivity. }
      destruct (after_poll is_server r finish) as [e|] eqn:A.
      * cbn [fst]. split.
        -- intros H. exists [], (now, r, finish), ts. split; [reflexivity|]. split; [constructor|].
           destruct (turn_cases is_server (now, r, finish)) as [Q|[Q|Q]].
           ++ apply after_idle in Q. congruence.
           ++ pose proof (after_connected _ _ _ _ Q). assert (z = 0) by congruence. subst. apply ew_connected; assumption.
           ++ pose proof (after_failed _ _ _ _ Q). assert (z = -1) by congruence. subst. apply ew_failed; assumption.
        -- intros (b & t & a & E' & F & G). destruct b as [|t' b].
           ++ cbn [app] in E'. injection E' as <- <-. destruct (Only _ G) as [(-> & Q)|(-> & Q)];
                [apply after_connected in Q|apply after_failed in Q]; congruence.
           ++ injection E' as <- _. inversion F as [|? ? [_ Q] _]; subst. apply after_idle in Q. congruence.
      * assert (Qi : idle is_server (now, r, finish)).
        { destruct (turn_cases is_server (now, r, finish)) as [Q|[Q|Q]]; [exact Q|apply after_connected in Q; congruence|apply after_failed in Q; congruence]. }
        destruct (turns timeout is_server _ ts) as [e l] eqn:R. cbn [fst] in *. rewrite IH. split.
        -- intros (b & t & a & -> & F & G). exists ((now, r, finish) :: b), t, a. split; [reflexivity|]. split; [constructor; auto|exact G].
        -- intros (b & t & a & E' & F & G). destruct b as [|t' b].
           ++ cbn [app] in E'. injection E' as <- <-. exfalso. destruct (Only _ G) as [(_ & Q)|(_ & Q)]; [apply after_connected in Q|apply after_failed in Q]; congruence.
           ++ injection E' as <- ->. inversion F; subst. exists b, t, a. auto.
    + assert (E : before_poll timeout (mkTime (tv_sec start + timeout) (tv_nsec start)) now = inl (Returned (-1))).
      { destruct D as [[L W]|N]; [exact (before_late start timeout _ V T L W)|subst now; exact (before_unreadable timeout _ T)]. }
      rewrite E. cbn [fst]. assert (Z1 : ~ in_time start timeout (now, r, finish)) by (apply NotIn; [exact T|destruct D as [[L _]|N]; auto]).
      split.
      * intros H. assert (z = -1) by congruence. subst z. exists [], (now, r, finish), ts. split; [reflexivity|]. split; [constructor|].
        destruct D as [[L _]|N]; [apply ew_late; assumption|subst now; apply ew_clock; exact T].
      * intros (b & t & a & E' & F & G). destruct b as [|t' b].
        -- cbn [app] in E'. injection E' as <- <-. inversion G; subst; try reflexivity; contradiction.
        -- injection E' as <- _. inversion F as [|? ? [Q _] _]; subst. contradiction.
Qed.
(** it does not crash *)
Theorem C98_no_abort is_server timeout start ts : valid start -> (forall t n, In t ts -> fst (fst t) = Some n -> valid n) ->
  fst (wait_for_connection is_server timeout (Some start) ts) <> Some Aborted.
Proof.
  intros V. unfold wait_for_connection. rewrite reading_valid by exact V. set (e := mkTime _ _). clearbody e.
  induction ts as [|[[now r] finish] ts IH]; intros C; cbn [turns]; [discriminate|].
  assert (B : before_poll timeout e now <> inl Aborted).
  { unfold before_poll. destruct (0 <? timeout); [|discriminate]. destruct now as [n|]; [|discriminate].
    rewrite reading_valid by (exact (C (Some n, r, finish) n (or_introl eq_refl) eq_refl)). destruct (time_left e n); discriminate. }
  destruct (before_poll timeout e now) as [x|limit]; [cbn; congruence|]. specialize (IH (fun t n H => C t n (or_intror H))).
  unfold after_poll. destruct r as [| | |input]; cbn [fst]; try discriminate.
  - destruct (turns timeout is_server e ts). exact IH.
  - destruct input; [|destruct (turns timeout is_server e ts); exact IH]. destruct is_server; [discriminate|]. destruct (finish <? 0); [discriminate|].
    destruct (finish =? 0); [discriminate|]. destruct (turns timeout false e ts). exact IH.
Qed.

(** Without a limit a descriptor that is ready, but not for reading, keeps it busy forever *)
Theorem C98_busy_refuted is_server start n : valid start ->
  wait_for_connection is_server 0 (Some start) (repeat (None, PollReady false, 0) n) = (None, repeat (None, None) n).
Proof.
  intros V. unfold wait_for_connection. rewrite reading_valid by exact V. induction n as [|n IH]; [reflexivity|]. cbn [repeat turns before_poll after_poll Z.ltb Z.compare]. rewrite IH. reflexivity.
Qed.

Definition ex_turns (last : turn) : list turn :=
  [(Some (mkTime 10 900), PollSignal, 0); (Some (mkTime 12 100), PollReady true, 1); last].
Example C98_example :
  wait_for_connection false 3 (Some (mkTime 10 500)) (ex_turns (Some (mkTime 13 400), PollReady true, 0)) =
    (Some (Returned 0), [(Some (mkTime 10 900), Some (mkTime 2 999999600)); (Some (mkTime 12 100), Some (mkTime 1 400));
                         (Some (mkTime 13 400), Some (mkTime 0 100))]) /\
  fst (wait_for_connection false 3 (Some (mkTime 10 500)) (ex_turns (Some (mkTime 13 501), PollReady true, 0))) = Some (Returned (-1)) /\
  fst (wait_for_connection false 3 (Some (mkTime 10 500)) (ex_turns (Some (mkTime 14 0), PollReady true, 0))) = Some (Returned (-1)) /\
  fst (wait_for_connection true 3 (Some (mkTime 10 500)) (ex_turns (Some (mkTime 14 0), PollReady true, 0))) = Some (Returned 0).
Proof. repeat split; reflexivity. Qed.

(** if the clock cannot be read at the start nothing is waited for; a reading that is no time ends the program *)
Theorem C98_start is_server timeout ts :
  wait_for_connection is_server timeout None ts = (Some (Returned (-1)), []) /\
  (forall t, ~ valid t -> wait_for_connection is_server timeout (Some t) ts = (Some Aborted, [])).
Proof.
  split; [reflexivity|]. intros t N. unfold wait_for_connection, reading.
  destruct ((0 <=? tv_nsec t) && (tv_nsec t <? BILLION))%bool eqn:E; [|reflexivity]. exfalso. apply N.
  apply andb_true_iff in E. destruct E as [A B]. apply Z.leb_le in A. apply Z.ltb_lt in B. split; assumption.
Qed.

(** It crashes only when the clock cannot be right: at the start, or in a later turn when there
    is a limit. *)
Theorem C98_abort is_server timeout start ts : valid start ->
  (fst (wait_for_connection is_server timeout (Some start) ts) = Some Aborted <->
   0 < timeout /\ exists before t after, ts = before ++ t :: after /\ Forall (fun t => in_time start timeout t /\ idle is_server t) before /\
     exists n, fst (fst t) = Some n /\ ~ valid n).
Proof.
  intros V. unfold wait_for_connection. rewrite reading_valid by exact V.
  assert (Bad : forall n, ~ valid n -> reading (Some n) = None).
  { intros n Hn. unfold reading, valid, BILLION in *. destruct (Z.leb_spec 0 (tv_nsec n)); [|reflexivity]. destruct (Z.ltb_spec (tv_nsec n) 1000000000); [|reflexivity]. exfalso. apply Hn. lia. }
  assert (Dec : forall n, valid n \/ ~ valid n) by (intros n; unfold valid; destruct (Z_le_dec 0 (tv_nsec n)); [destruct (Z_lt_dec (tv_nsec n) 1000000000)|]; lia).
  assert (Af : forall r f, after_poll is_server r f <> Some Aborted).
  { intros r f. destruct r as [| | |[|]]; cbn [after_poll]; try discriminate. destruct is_server; [discriminate|]. destruct (f <? 0); [discriminate|]. destruct (f =? 0); discriminate. }
  induction ts as [|t ts IH].
  - cbn [turns fst]. split; [discriminate|]. intros (_ & b & t & a & E & _). destruct b; discriminate.
  - destruct t as [[now r] finish]. cbn [turns]. destruct (Z_le_gt_dec timeout 0) as [T|T].
    + split; [|intros [H _]; lia]. intros H. exfalso. unfold before_poll in H. rewrite (proj2 (Z.ltb_ge _ _) T) in H.
      destruct (after_poll is_server r finish) as [e|] eqn:A; [cbn [fst] in H; apply (Af r finish); congruence|].
      destruct (turns timeout is_server _ ts) as [e l] eqn:R. cbn [fst] in *. apply IH in H as [H _]. lia.
    + assert (T' : 0 < timeout) by lia. destruct now as [n|].
      2: { rewrite before_unreadable by exact T'. cbn [fst]. split; [discriminate|]. intros (_ & b & t & a & E & F & n & En & _). destruct b as [|t' b].
           - cbn [app] in E. injection E as <- <-. discriminate.
           - injection E as <- _. inversion F as [|? ? [[Q|((n' & En' & _) & _)] _] _]; subst; [lia|]. discriminate. }
      destruct (Dec n) as [Vn|Vn].
      2: { unfold before_poll. rewrite (proj2 (Z.ltb_lt _ _) T'), Bad by exact Vn. cbn [fst]. split; [|reflexivity]. intros _. split; [exact T'|].
           exists [], (Some n, r, finish), ts. split; [reflexivity|]. split; [constructor|]. exists n. auto. }
      assert (W : clock_works (Some n, r, finish)) by (exists n; auto).
      destruct (Z_lt_dec (deadline start timeout) (instant n)) as [L|L].
      * assert (La : late start timeout (Some n, r, finish)) by (exists n; auto). pose proof (before_late start timeout _ V T' La W) as B. cbn [fst] in B. rewrite B. cbn [fst].
        split; [discriminate|]. intros (_ & b & t & a & E & F & n' & En & Nv). destruct b as [|t' b].
        -- cbn [app] in E. injection E as <- <-. cbn [fst] in En. injection En as <-. contradiction.
        -- injection E as <- _. inversion F as [|? ? [[Q|(_ & Q)] _] _]; subst; [lia|contradiction].
      * assert (I : in_time start timeout (Some n, r, finish)).
        { right. split; [exact W|]. intros (n' & E & L'). cbn [fst] in E. injection E as <-. contradiction. }
        destruct (before_in_time start timeout _ V I) as (limit & B). cbn [fst] in B. rewrite B.
        destruct (after_poll is_server r finish) as [e|] eqn:A.
        -- cbn [fst]. split; [intros H; exfalso; apply (Af r finish); congruence|]. intros (_ & b & t & a & E & F & n' & En & Nv). exfalso. destruct b as [|t' b].
           ++ cbn [app] in E. injection E as <- <-. cbn [fst] in En. injection En as <-. contradiction.
           ++ injection E as <- _. inversion F as [|? ? [_ Q] _]; subst. apply after_idle in Q. congruence.
        -- assert (Qi : idle is_server (Some n, r, finish)).
           { destruct (turn_cases is_server (Some n, r, finish)) as [Q|[Q|Q]]; [exact Q|apply after_connected in Q; congruence|apply after_failed in Q; congruence]. }
           destruct (turns timeout is_server _ ts) as [e l] eqn:R. cbn [fst] in *. rewrite IH. split.
           ++ intros (_ & b & t & a & -> & F & G). split; [exact T'|]. exists ((Some n, r, finish) :: b), t, a. split; [reflexivity|]. split; [constructor; auto|exact G].
           ++ intros (_ & b & t & a & E' & F & n' & En & Nv). split; [exact T'|]. destruct b as [|t' b].
              ** cbn [app] in E'. injection E' as <- <-. cbn [fst] in En. injection En as <-. contradiction.
              ** injection E' as <- ->. inversion F; subst. exists b, t, a. split; [reflexivity|]. split; [assumption|]. exists n'. auto.
Qed.
(** a clock that goes wrong in the second turn *)
Example ex_C98_abort : fst (wait_for_connection false 60 (Some (mkTime 10 0)) [(Some (mkTime 11 0), PollSignal, 0); (Some (mkTime 12 (-5)), PollSignal, 0)]) = Some Aborted.
Proof. reflexivity. Qed.
