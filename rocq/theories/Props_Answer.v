(** C16: exactly which answers are read as allow and as deny *)
From Coq Require Import String Ascii List Bool Lia.
From Verif Require Import Base SpecDaemon DaemonPolicy SpecAnswer DaemonProofs LookupProofs.
From Verif Require AgentProofs.
Import ListNotations.
Open Scope string_scope.
Open Scope list_scope.

Lemma key_starts key l k v : split1 "=" l = Some (k, v) -> has_char "=" key = false ->
  starts (key +++ "=") l = String.eqb k key /\ (k = key -> sdrop (String.length (key +++ "=")) l = v).
Proof.
  intros S K. apply split1_spec in S. destruct S as [-> N]. split.
  - destruct (String.eqb_spec k key) as [->|D].
    + change (key +++ String "=" v) with (key +++ ("=" +++ v)). rewrite <- app_assoc_s. apply starts_app.
    + destruct (starts (key +++ "=") (k +++ String "=" v)) eqn:E; [|reflexivity]. exfalso. apply D.
      apply starts_spec in E. destruct E as [r E]. rewrite app_assoc_s in E.
      assert (A : split1 "=" (k +++ String "=" v) = Some (key, r)) by (apply split1_spec; split; [exact E|exact K]).
      assert (B : split1 "=" (k +++ String "=" v) = Some (k, v)) by (apply split1_spec; auto). congruence.
  - intros ->. change (key +++ String "=" v) with (key +++ ("=" +++ v)). rewrite <- app_assoc_s. apply sdrop_app.
Qed.
Definition res_text (o : option bool) : list string := once (option_map (fun b : bool => if b then "allow" else "deny") o).
Definition auto_text (o : option bool) : list string := once (option_map (fun b : bool => if b then "True" else "False") o).
(** what the lines add to what is known *)
Definition adds (ls : list string) (res : option bool) (r : reply) (res' : option bool) (r' : reply) : Prop :=
  (forall l, In l ls -> has_char "=" l = true) /\
  res_text res ++ values "result" ls = res_text res' /\
  once (p_user r) ++ values "user" ls = once (p_user r') /\
  once (p_target r) ++ values "target" ls = once (p_target r') /\
  once (p_target_uuid r) ++ values "target_uuid" ls = once (p_target_uuid r') /\
  auto_text (p_autostart r) ++ values "autostart" ls = auto_text (p_autostart r') /\
  once (p_requested r) ++ values "requested_target" ls = once (p_requested r') /\
  once (p_service r) ++ values "service" ls = once (p_service r') /\
  once (p_source r) ++ values "policy_source" ls = once (p_source r').

Lemma once_inj {A} (a b : option A) : once a = once b -> a = b.
Proof. destruct a, b; cbn; intros E; try discriminate; [congruence|reflexivity]. Qed.
Lemma res_inj a b : res_text a = res_text b -> a = b.
Proof. destruct a as [[|]|], b as [[|]|]; cbn; intros E; try discriminate; reflexivity. Qed.
Lemma auto_inj a b : auto_text a = auto_text b -> a = b.
Proof. destruct a as [[|]|], b as [[|]|]; cbn; intros E; try discriminate; reflexivity. Qed.

Lemma line_adds l res r res' r' : parse_line l res r = Some (res', r') <-> adds [l] res r res' r'.
Proof.
  unfold parse_line, dropk. destruct r as [u tu t rt sv au ps]. unfold adds. cbn [p_user p_target p_target_uuid p_autostart p_requested p_service p_source].
  destruct (split1 "=" l) as [[k v]|] eqn:S.
  - assert (Q : has_char "=" l = true).
    { destruct (has_char "=" l) eqn:Q; [reflexivity|]. apply split1_None in Q. congruence. }
    assert (Q' : forall x, In x [l] -> has_char "=" x = true) by (intros x [<-|[]]; exact Q).
    rewrite Q.
    pose proof (key_starts "result" l k v S eq_refl) as [A1 B1]. pose proof (key_starts "user" l k v S eq_refl) as [A2 B2].
    pose proof (key_starts "target" l k v S eq_refl) as [A3 B3]. pose proof (key_starts "target_uuid" l k v S eq_refl) as [A4 B4].
    pose proof (key_starts "autostart" l k v S eq_refl) as [A5 B5]. pose proof (key_starts "requested_target" l k v S eq_refl) as [A6 B6].
    pose proof (key_starts "service" l k v S eq_refl) as [A7 B7]. pose proof (key_starts "policy_source" l k v S eq_refl) as [A8 B8].
    unfold values. cbn [flat_map]. rewrite S, !app_nil_r.
    change ("result" +++ "=") with "result=" in *. change ("user" +++ "=") with "user=" in *. change ("target" +++ "=") with "target=" in *.
    change ("target_uuid" +++ "=") with "target_uuid=" in *. change ("autostart" +++ "=") with "autostart=" in *. change ("requested_target" +++ "=") with "requested_target=" in *.
    change ("service" +++ "=") with "service=" in *. change ("policy_source" +++ "=") with "policy_source=" in *.
    change 12 with (String.length "target_uuid=").
    rewrite A1, A2, A3, A4, A5, A6, A7, A8. clear A1 A2 A3 A4 A5 A6 A7 A8.
    assert (I : forall {A} (a b : option A), once a = once b <-> a = b) by (intros A a b; split; [apply once_inj|congruence]).
    assert (Ir : forall a b, res_text a = res_text b <-> a = b) by (intros a b; split; [apply res_inj|congruence]).
    assert (Ia : forall a b, auto_text a = auto_text b <-> a = b) by (intros a b; split; [apply auto_inj|congruence]).
    assert (One : forall (a : option string) x b, once a ++ [x] = once b <-> a = None /\ b = Some x).
    { intros a x b. destruct a, b; cbn; split; intros E; try discriminate; try (destruct E; discriminate).
      - split; congruence.
      - destruct E. congruence. }
    assert (OneR : forall a x b, res_text a ++ [x] = res_text b <-> a = None /\ (x = "allow" /\ b = Some true \/ x = "deny" /\ b = Some false)).
    { intros a x b. destruct a as [[|]|], b as [[|]|]; cbn; split; intros E; try discriminate; intuition congruence. }
    assert (OneA : forall a x b, auto_text a ++ [x] = auto_text b <-> a = None /\ (x = "True" /\ b = Some true \/ x = "False" /\ b = Some false)).
    { intros a x b. destruct a as [[|]|], b as [[|]|]; cbn; split; intros E; try discriminate; intuition congruence. }
    assert (R : forall u' tu' t' rt' sv' au' ps', r' = mkReply u' tu' t' rt' sv' au' ps' <->
      u' = p_user r' /\ tu' = p_target_uuid r' /\ t' = p_target r' /\ rt' = p_requested r' /\ sv' = p_service r' /\ au' = p_autostart r' /\ ps' = p_source r').
    { intros. destruct r'; cbn. split; [intros E; repeat split; congruence|]. intros (-> & -> & -> & -> & -> & -> & ->). reflexivity. }
    assert (RR : forall a b, Some (a, b) = Some (res', r') <-> a = res' /\ r' = b) by (intros a b; split; [intros E; split; congruence|intros [-> ->]; reflexivity]).
    destruct (String.eqb_spec k "result") as [K1|K1].
    { subst k. rewrite B1 by reflexivity. cbn [String.eqb Ascii.eqb Bool.eqb]. rewrite !app_nil_r, !I, Ia, OneR.
      destruct res as [b|]; [split; [discriminate|intros (_ & [E _] & _); discriminate E]|].
      destruct (String.eqb_spec v "allow") as [->|V1].
      - rewrite RR, R. intuition congruence.
      - destruct (String.eqb_spec v "deny") as [->|V2].
        + rewrite RR, R. intuition congruence.
        + split; [discriminate|]. intros (_ & (_ & [[E _]|[E _]]) & _); contradiction. }
    destruct (String.eqb_spec k "user") as [K2|K2].
    { subst k. rewrite B2 by reflexivity. cbn [String.eqb Ascii.eqb Bool.eqb]. rewrite !app_nil_r, !I, Ir, Ia, One.
      destruct u; [split; [discriminate|intros (_ & _ & [E _] & _); discriminate E]|]. rewrite RR, R. split; [intros [<- E]; repeat split; try tauto; try exact Q'; intuition congruence|].
      intros (_ & <- & [_ E] & E'). split; [reflexivity|]. intuition congruence. }
    destruct (String.eqb_spec k "target") as [K3|K3].
    { subst k. rewrite B3 by reflexivity. cbn [String.eqb Ascii.eqb Bool.eqb]. rewrite !app_nil_r, !I, Ir, Ia, One.
      destruct t; [split; [discriminate|intros (_ & _ & _ & [E _] & _); discriminate E]|]. rewrite RR, R. intuition congruence. }
    destruct (String.eqb_spec k "target_uuid") as [K4|K4].
    { subst k. rewrite B4 by reflexivity. cbn [String.eqb Ascii.eqb Bool.eqb]. rewrite !app_nil_r, !I, Ir, Ia, One.
      destruct tu; [split; [discriminate|intros (_ & _ & _ & _ & [E _] & _); discriminate E]|]. rewrite RR, R. intuition congruence. }
    destruct (String.eqb_spec k "autostart") as [K5|K5].
    { subst k. rewrite B5 by reflexivity. cbn [String.eqb Ascii.eqb Bool.eqb]. rewrite !app_nil_r, !I, Ir, OneA.
      destruct au as [b|]; [split; [discriminate|intros (_ & _ & _ & _ & _ & [E _] & _); discriminate E]|].
      destruct (String.eqb_spec v "True") as [->|V1].
      - rewrite RR, R. intuition congruence.
      - destruct (String.eqb_spec v "False") as [->|V2].
        + rewrite RR, R. intuition congruence.
        + split; [discriminate|]. intros (_ & _ & _ & _ & _ & (_ & [[E _]|[E _]]) & _); contradiction. }
    destruct (String.eqb_spec k "requested_target") as [K6|K6].
    { subst k. rewrite B6 by reflexivity. cbn [String.eqb Ascii.eqb Bool.eqb]. rewrite !app_nil_r, !I, Ir, Ia, One.
      destruct rt; [split; [discriminate|intros (_ & _ & _ & _ & _ & _ & [E _] & _); discriminate E]|]. rewrite RR, R. intuition congruence. }
    destruct (String.eqb_spec k "service") as [K7|K7].
    { subst k. rewrite B7 by reflexivity. cbn [String.eqb Ascii.eqb Bool.eqb]. rewrite !app_nil_r, !I, Ir, Ia, One.
      destruct sv; [split; [discriminate|intros (_ & _ & _ & _ & _ & _ & _ & [E _] & _); discriminate E]|]. rewrite RR, R. intuition congruence. }
    destruct (String.eqb_spec k "policy_source") as [K8|K8].
    { subst k. rewrite B8 by reflexivity. rewrite !app_nil_r, !I, Ir, Ia, One.
      destruct ps; [split; [discriminate|intros (_ & _ & _ & _ & _ & _ & _ & _ & [E _]); discriminate E]|]. rewrite RR, R. intuition congruence. }
    rewrite !app_nil_r, !I, Ir, Ia, RR, R. intuition congruence.
  - assert (Q : has_char "=" l = false) by (apply split1_None; exact S). rewrite Q.
    assert (N : forall key, starts (key +++ "=") l = false).
    { intros key. destruct (starts (key +++ "=") l) eqn:E; [|reflexivity]. apply starts_spec in E. destruct E as [x ->].
      rewrite !has_char_app in Q. cbn in Q. rewrite orb_true_r in Q. discriminate Q. }
    pose proof (N "result") as N1. pose proof (N "user") as N2. pose proof (N "target") as N3. pose proof (N "target_uuid") as N4. pose proof (N "autostart") as N5.
    pose proof (N "requested_target") as N6. pose proof (N "service") as N7. pose proof (N "policy_source") as N8.
    change ("result" +++ "=") with "result=" in *. change ("user" +++ "=") with "user=" in *. change ("target" +++ "=") with "target=" in *.
    change ("target_uuid" +++ "=") with "target_uuid=" in *. change ("autostart" +++ "=") with "autostart=" in *. change ("requested_target" +++ "=") with "requested_target=" in *.
    change ("service" +++ "=") with "service=" in *. change ("policy_source" +++ "=") with "policy_source=" in *.
    rewrite N1, N2, N3, N4, N5, N6, N7, N8. split; [discriminate|]. intros (E & _). specialize (E l (or_introl eq_refl)). congruence.
Qed.
Lemma values_app key a b : values key (a ++ b) = values key a ++ values key b.
Proof. unfold values. apply flat_map_app. Qed.
Lemma adds_cons l ls res r res' r' : adds (l :: ls) res r res' r' <-> exists res1 r1, adds [l] res r res1 r1 /\ adds ls res1 r1 res' r'.
Proof.
  assert (V : forall key, values key (l :: ls) = values key [l] ++ values key ls) by (intros key; exact (values_app key [l] ls)).
  unfold adds. rewrite !V. split.
  - intros (E & H1 & H2 & H3 & H4 & H5 & H6 & H7 & H8).
    assert (P : forall (o : option string) x y o', once o ++ x ++ y = once o' -> exists m, once o ++ x = once m /\ once m ++ y = once o').
    { intros o x y o' H. destruct o as [w|]; cbn in *.
      - destruct x as [|a x]; [exists (Some w); cbn; auto|]. destruct o' as [z|]; cbn in H; discriminate H.
      - destruct x as [|a x]; [exists None; cbn; auto|]. destruct o' as [z|]; cbn in H; [|discriminate H].
        destruct x; [|discriminate H]. destruct y; [|discriminate H]. exists (Some a). cbn. auto. }
    assert (PR : exists m, res_text res ++ values "result" [l] = res_text m /\ res_text m ++ values "result" ls = res_text res').
    { revert H1. generalize (values "result" [l]) (values "result" ls). intros x y H.
      destruct x as [|a x]; [exists res; rewrite app_nil_r; auto|].
      destruct res as [[|]|], res' as [[|]|]; cbn in H; try discriminate H; (destruct x; [|discriminate H]); (destruct y; [|discriminate H]);
        [exists (Some true)|exists (Some false)]; cbn; auto. }
    assert (PA : exists m, auto_text (p_autostart r) ++ values "autostart" [l] = auto_text m /\ auto_text m ++ values "autostart" ls = auto_text (p_autostart r')).
    { revert H5. generalize (values "autostart" [l]) (values "autostart" ls) (p_autostart r) (p_autostart r'). intros x y o o' H.
      destruct x as [|a x]; [exists o; rewrite app_nil_r; auto|].
      destruct o as [[|]|], o' as [[|]|]; cbn in H; try discriminate H; (destruct x; [|discriminate H]); (destruct y; [|discriminate H]);
        [exists (Some true)|exists (Some false)]; cbn; auto. }
    apply P in H2, H3, H4, H6, H7, H8.
    destruct PR as (m1 & R1 & S1), H2 as (m2 & R2 & S2), H3 as (m3 & R3 & S3), H4 as (m4 & R4 & S4), PA as (m5 & R5 & S5), H6 as (m6 & R6 & S6), H7 as (m7 & R7 & S7), H8 as (m8 & R8 & S8).
    exists m1, (mkReply m2 m4 m3 m6 m7 m5 m8). cbn [p_user p_target p_target_uuid p_autostart p_requested p_service p_source].
    split; (split; [intros x Hx; apply E; cbn in *; intuition|]); auto 10.
  - intros (res1 & r1 & (E & H1 & H2 & H3 & H4 & H5 & H6 & H7 & H8) & (E' & K1 & K2 & K3 & K4 & K5 & K6 & K7 & K8)).
    split; [intros x [<-|Hx]; [apply E; left; reflexivity|apply E'; exact Hx]|].
    rewrite !app_assoc, H1, H2, H3, H4, H5, H6, H7, H8. auto 10.
Qed.
Lemma lines_adds ls : forall res r res' r', parse_lines ls res r = (Some res', r') <-> adds ls res r res' r'.
Proof.
  induction ls as [|l ls IH]; intros res r res' r'; cbn [parse_lines].
  - unfold adds. cbn [values flat_map]. rewrite !app_nil_r. split.
    + intros E. assert (res = res') by congruence. assert (r = r') by congruence. subst. split; [intros l []|auto 10].
    + intros (_ & H1 & H2 & H3 & H4 & H5 & H6 & H7 & H8). apply res_inj in H1. apply auto_inj in H5. apply once_inj in H2, H3, H4, H6, H7, H8.
      destruct r, r'; cbn in *; subst; reflexivity.
  - rewrite adds_cons. destruct (parse_line l res r) as [[res1 r1]|] eqn:E.
    + apply line_adds in E. rewrite IH. split; [intros H; exists res1, r1; auto|].
      intros (res2 & r2 & A & B). apply line_adds in A. apply line_adds in E. rewrite E in A. assert (res2 = res1) by congruence. assert (r2 = r1) by congruence. subst. exact B.
    + split; [intros H; discriminate H|]. intros (res1 & r1 & A & _). apply line_adds in A. congruence.
Qed.

Lemma strip_cases t : strip_nl t = t \/ t = strip_nl t +++ nl.
Proof.
  unfold strip_nl. destruct (String.length t) as [|n] eqn:L; [left; reflexivity|]. destruct (String.eqb_spec (sdrop n t) nl) as [E|]; [|left; reflexivity].
  right. rewrite <- E. apply AgentProofs.take_drop.
Qed.
Lemma has_char_nl_nul : has_char NUL nl = false.
Proof. reflexivity. Qed.
(** what the lines of a text are *)
Lemma written_lines t ls : written t ls -> (forall l, In l ls -> has_char "=" l = true) ->
  String.eqb t "" = false /\ has_char NUL t = false /\ split_all NL (strip_nl t) = ls.
Proof.
  intros (N & O & T) E. destruct (exists_last N) as (ls' & x & ->).
  assert (X : x <> "").
  { intros ->. assert (K : In "" (ls' ++ [""])) by (apply in_or_app; right; left; reflexivity). specialize (E "" K). discriminate E. }
  assert (Ol : forall y, In y (ls' ++ [x]) -> one_line y) by (intros y Y; apply O; exact Y).
  assert (J : join nl (ls' ++ [x]) <> "").
  { intros J. assert (S : split_all NL (join nl (ls' ++ [x])) = ls' ++ [x]) by (apply split_join; assumption). rewrite J in S. cbn in S.
    destruct ls' as [|a ls']; cbn in S; [congruence|]. destruct ls'; discriminate S. }
  assert (U : has_char NUL (join nl (ls' ++ [x])) = false) by (apply has_nul_join; intros y Y; apply O; exact Y).
  destruct T as [->| ->].
  - split; [apply String.eqb_neq; exact J|]. split; [exact U|]. rewrite strip_nl_join by assumption. apply split_join; assumption.
  - split; [apply String.eqb_neq; intros Z; apply (f_equal String.length) in Z; rewrite length_app_s in Z; cbn in Z; lia|].
    split; [rewrite has_char_app, U; reflexivity|]. rewrite strip_nl_nl. apply split_join; assumption.
Qed.
Lemma lines_written t : has_char NUL t = false -> written t (split_all NL (strip_nl t)).
Proof.
  intros U. assert (Us : has_char NUL (strip_nl t) = false).
  { destruct (strip_cases t) as [->|E]; [exact U|]. rewrite E in U. rewrite has_char_app in U. apply orb_false_iff in U. tauto. }
  split; [apply split_all_ne|]. split.
  - intros l L. split; [apply split_all_each in L; exact L|]. unfold no_nul. destruct (has_char NUL l) eqn:H; [|reflexivity]. exfalso.
    rewrite <- (join_split_all NL (strip_nl t)) in Us. revert L Us. generalize (split_all NL (strip_nl t)). intros ls L Us. induction ls as [|a ls IH]; [destruct L|].
    destruct ls as [|b ls]; [destruct L as [<-|[]]; change (join (str1 NL) [a]) with a in Us; congruence|]. change (join (str1 NL) (a :: b :: ls)) with (a +++ str1 NL +++ join (str1 NL) (b :: ls)) in Us.
    rewrite !has_char_app in Us. apply orb_false_iff in Us. destruct Us as [Ua Us]. apply orb_false_iff in Us. destruct Us as [_ Us].
    destruct L as [<-|L]; [congruence|]. apply IH; assumption.
  - assert (J : join nl (split_all NL (strip_nl t)) = strip_nl t) by apply join_split_all. rewrite J. destruct (strip_cases t) as [E|E]; [left; congruence|right; exact E].
Qed.

(** An answer means allow exactly if it consists of lines key=value, says result=allow once and nothing
    else about the result, says once each who the user is, what the target and the requested target are and
    whether to start it (True or False), and says at most once what the uuid, the service and the source
    are; it then means what it says. *)
Theorem C16_exactly_allow t ps0 r : parse_policy_response (Some t) ps0 = (RESPONSE_ALLOW, r) <->
  exists ls, written t ls /\ says ls "allow" ps0 r /\
    p_user r <> None /\ p_target r <> None /\ p_requested r <> None /\ p_autostart r <> None.
Proof.
  unfold parse_policy_response. split.
  - intros H. destruct (String.eqb t "") eqn:T; [discriminate|]. destruct (has_char NUL t) eqn:U; [discriminate|].
    destruct (parse_lines _ _ _) as [[[[|]|]|] r'] eqn:P; try discriminate.
    + apply lines_adds in P. assert (r' = r /\ p_user r' <> None /\ p_target r' <> None /\ p_requested r' <> None /\ p_autostart r' <> None) as (-> & N).
      { destruct (p_user r'), (p_target r'), (p_requested r'), (p_autostart r'); try discriminate. split; [congruence|]. repeat split; discriminate. }
      exists (split_all NL (strip_nl t)). split; [apply lines_written; exact U|]. split; [|exact N]. exact P.
    + exfalso. destruct (p_user r'), (p_target r'), (p_requested r'), (p_autostart r'); discriminate.
  - intros (ls & W & S & N1 & N2 & N3 & N4). destruct (written_lines t ls W (proj1 S)) as (T & U & L). rewrite T, U, L.
    assert (P : parse_lines ls None (mkReply None None None None None None ps0) = (Some (Some true), r)) by (apply lines_adds; exact S).
    rewrite P. destruct (p_user r), (p_target r), (p_requested r), (p_autostart r); congruence.
Qed.
(** It means deny exactly if it consists of such lines, says result=deny once, and nothing about the
    user, the target, the requested target and the start *)
Theorem C16_exactly_deny t ps0 r : parse_policy_response (Some t) ps0 = (RESPONSE_DENY, r) <->
  exists ls, written t ls /\ says ls "deny" ps0 r /\
    p_user r = None /\ p_target r = None /\ p_requested r = None /\ p_autostart r = None.
Proof.
  unfold parse_policy_response. split.
  - intros H. destruct (String.eqb t "") eqn:T; [discriminate|]. destruct (has_char NUL t) eqn:U; [discriminate|].
    destruct (parse_lines _ _ _) as [[[[|]|]|] r'] eqn:P; try discriminate.
    + exfalso. destruct (p_user r'), (p_target r'), (p_requested r'), (p_autostart r'); discriminate.
    + apply lines_adds in P. assert (r' = r /\ p_user r' = None /\ p_target r' = None /\ p_requested r' = None /\ p_autostart r' = None) as (-> & N).
      { destruct (p_user r'), (p_target r'), (p_requested r'), (p_autostart r'); try discriminate. split; [congruence|auto]. }
      exists (split_all NL (strip_nl t)). split; [apply lines_written; exact U|]. split; [|exact N]. exact P.
  - intros (ls & W & S & N1 & N2 & N3 & N4). destruct (written_lines t ls W (proj1 S)) as (T & U & L). rewrite T, U, L.
    assert (P : parse_lines ls None (mkReply None None None None None None ps0) = (Some (Some false), r)) by (apply lines_adds; exact S).
    rewrite P, N1, N2, N3, N4. reflexivity.
Qed.
(** two answers: the order does not matter and other keys are allowed; one that lacks the requested
    target is neither *)
Definition ex_answer := "autostart=True" +++ nl +++ "target=work" +++ nl +++ "result=allow" +++ nl +++ "later=x" +++ nl +++ "requested_target=@default" +++ nl +++ "user=a=b".
Example ex_allow : exists ls, written ex_answer ls /\ says ls "allow" None (mkReply (Some "a=b") None (Some "work") (Some "@default") None (Some true) None).
Proof.
  assert (P : parse_policy_response (Some ex_answer) None = (RESPONSE_ALLOW, mkReply (Some "a=b") None (Some "work") (Some "@default") None (Some true) None)) by reflexivity.
  apply C16_exactly_allow in P. destruct P as (ls & W & S & _). exists ls. auto.
Qed.
Example ex_neither : fst (parse_policy_response (Some ("autostart=True" +++ nl +++ "target=work" +++ nl +++ "result=allow" +++ nl +++ "user=x")) None) = RESPONSE_MALFORMED.
Proof. reflexivity. Qed.
