(** Proofs about the policy daemon and about the answer parser of qrexec-daemon *)
From Coq Require Import String Ascii List Bool Arith Lia.
From Verif Require Import Base SysInfo Token Rule Policy PolicyExec Sanitize PolicyDaemon DaemonPolicy
  SpecPolicy SpecDaemon TokenProofs TextProofs EvalProofs ExecProofs SanitizeProofs AdminProofs Props_Admin.
Import ListNotations.
Open Scope string_scope.
Open Scope nat_scope.
Open Scope list_scope.

Lemma ascii7_spec s : is_ascii7 s = true <-> ascii_text s.
Proof.
  unfold is_ascii7, ascii_text. induction s as [|c s IH]; cbn [sforall has_char].
  - split; auto. intros _ c H. discriminate H.
  - rewrite andb_true_iff, IH, Nat.ltb_lt. split.
    + intros [H1 H2] x Hx. apply orb_true_iff in Hx as [Hx|Hx]; auto. apply Ascii.eqb_eq in Hx. subst. auto.
    + intros H. split; [apply H; rewrite (proj2 (Ascii.eqb_eq c c) eq_refl); reflexivity|].
      intros x Hx. apply H. rewrite Hx. apply orb_true_r.
Qed.
Lemma ascii_text_app a b : ascii_text (a +++ b) <-> ascii_text a /\ ascii_text b.
Proof. rewrite <- !ascii7_spec. unfold is_ascii7. rewrite sforall_app, andb_true_iff. tauto. Qed.

(** ** The request parser *)
Definition conv (x : field) : string * argval :=
  (fst x, if smem (fst x) ["assume_yes_for_ask"; "just_evaluate"]
          then VBool (String.eqb (snd x) "yes") else VText (snd x)).

Lemma field_names_spec n : smem n ALLOWED_REQUEST_ARGUMENTS = true <-> In n field_names.
Proof. rewrite smem_In. cbn. intuition. Qed.
Lemma yes_no_spec n : smem n ["assume_yes_for_ask"; "just_evaluate"] = true <-> In n yes_no_names.
Proof. rewrite smem_In. cbn. intuition. Qed.
Lemma name_plain n : In n field_names -> has_char "=" n = false /\ one_line n /\ ascii_text n /\ n <> "".
Proof.
  intros H. rewrite <- ascii7_spec. cbn in H.
  repeat (destruct H as [H|H]; [subst; vm_compute; repeat split; discriminate|]). destruct H.
Qed.

Lemma dset_app {V} (d : list (string * V)) k v : dmem d k = false -> dset d k v = d ++ [(k, v)].
Proof.
  induction d as [|[k' v'] d IH]; simpl; auto. unfold dmem; simpl.
  destruct (String.eqb k k'); [discriminate|]. intros H. rewrite IH; auto.
Qed.
Lemma dmem_In {V} (d : list (string * V)) k : dmem d k = true <-> In k (map fst d).
Proof.
  unfold dmem. destruct (dget d k) eqn:E.
  - split; auto. intros _. apply dget_In in E. apply in_map_iff. exists (k, v). auto.
  - split; [discriminate|]. intros H. apply dget_None in E. contradiction.
Qed.
Lemma dmem_nIn {V} (d : list (string * V)) k : dmem d k = false <-> ~ In k (map fst d).
Proof. rewrite <- (dmem_In d k). destruct (dmem d k); split; intuition discriminate. Qed.
Lemma conv_fst l : map fst (map conv l) = map fst l.
Proof. rewrite map_map. reflexivity. Qed.

Lemma split1_line k v : has_char "=" k = false -> split1 "=" (k +++ "=" +++ v) = Some (k, v).
Proof. intros H. apply split1_spec. auto. Qed.

Lemma field_line_ne x : field_line x <> "".
Proof. unfold field_line. destruct (fst x); discriminate. Qed.

Lemma valid_field_line x : valid_field x -> one_line (field_line x) /\ ascii_text (field_line x).
Proof.
  intros (H1 & H2 & H3 & _). destruct (name_plain _ H1) as (_ & N1 & N2 & _).
  unfold field_line, one_line in *. rewrite !has_char_app, N1, H2. split; [reflexivity|].
  rewrite !ascii_text_app. repeat split; auto. apply ascii7_spec. reflexivity.
Qed.

(** one step of the loop *)
Lemma read_args_step line rest args args' : one_line line ->
  read_args (line :: rest) args = Some args' ->
  (line = "" /\ args' = args) \/
  exists x, line = field_line x /\ valid_field x /\ ~ In (fst x) (map fst args) /\
    read_args rest (args ++ [conv x]) = Some args'.
Proof.
  intros Hl. cbn [read_args]. destruct (is_ascii7 line) eqn:Ea; [|discriminate]. cbn [negb].
  destruct (String.eqb line "") eqn:E0.
  { apply String.eqb_eq in E0. intros H. left. split; congruence. }
  destruct (split1 "=" line) as [[k v]|] eqn:Es; [|discriminate].
  destruct (dmem args k) eqn:Ed; [discriminate|].
  destruct (smem k ALLOWED_REQUEST_ARGUMENTS) eqn:Em; [|discriminate]. cbn [negb].
  pose proof Ed as Ed'. apply dmem_nIn in Ed'.
  apply split1_spec in Es as [-> Ek].
  change (String "=" v) with ("=" +++ v) in *.
  apply ascii7_spec in Ea. apply ascii_text_app in Ea as [Ea1 Ea2]. apply ascii_text_app in Ea2 as [_ Ea2].
  unfold one_line in Hl. rewrite !has_char_app in Hl.
  apply orb_false_iff in Hl as [_ Hl]. apply orb_false_iff in Hl as [_ Hl].
  apply field_names_spec in Em.
  rewrite !dset_app by auto.
  intros H. right. exists (k, v).
  split; [reflexivity|].
  destruct (smem k ["assume_yes_for_ask"; "just_evaluate"]) eqn:Eb.
  - destruct (String.eqb v "yes") eqn:Ey.
    + apply String.eqb_eq in Ey. subst v. split; [repeat split; auto|]. split; auto.
      unfold conv. cbn [fst snd]. rewrite Eb. exact H.
    + destruct (String.eqb v "no") eqn:En; [|discriminate].
      apply String.eqb_eq in En. subst v. split; [repeat split; auto|]. split; auto.
      unfold conv. cbn [fst snd]. rewrite Eb. exact H.
  - split.
    + repeat split; auto. intros Hy. apply yes_no_spec in Hy. cbn [fst] in Hy. congruence.
    + split; auto. unfold conv. cbn [fst snd]. rewrite Eb. exact H.
Qed.

Lemma read_args_take x rest args : valid_field x -> ~ In (fst x) (map fst args) ->
  read_args (field_line x :: rest) args = read_args rest (args ++ [conv x]).
Proof.
  intros Hv Hn. pose proof Hv as (H1 & H2 & H3 & H4).
  destruct (valid_field_line _ Hv) as [L1 L2]. destruct (name_plain _ H1) as (Ek & _ & _ & _).
  cbn [read_args]. rewrite (proj2 (ascii7_spec _) L2). cbn [negb].
  destruct (String.eqb (field_line x) "") eqn:E0; [apply String.eqb_eq in E0; destruct (field_line_ne _ E0)|].
  unfold field_line at 1. rewrite split1_line by auto.
  rewrite (proj2 (dmem_nIn args (fst x)) Hn), (proj2 (field_names_spec _) H1). cbn [negb].
  rewrite !dset_app by (apply dmem_nIn; auto).
  unfold conv. destruct (smem (fst x) ["assume_yes_for_ask"; "just_evaluate"]) eqn:Eb; auto.
  destruct (H4 (proj1 (yes_no_spec _) Eb)) as [H|H]; rewrite H; reflexivity.
Qed.

Lemma line_or_more text : one_line text \/ exists a b, text = a +++ nl +++ b /\ one_line a.
Proof.
  unfold one_line. destruct (has_char NL text) eqn:E; auto. right.
  apply has_char_split in E as (a & b & -> & H). exists a, b. auto.
Qed.

Theorem read_args_spec text args args' :
  read_args (split_all NL text) args = Some args' <->
  exists l, carries text l /\ (forall x, In x l -> valid_field x) /\ NoDup (map fst l) /\
    (forall x, In x l -> ~ In (fst x) (map fst args)) /\ args' = args ++ map conv l.
Proof.
  remember (String.length text) as n eqn:Hn. revert text args args' Hn.
  induction n as [n IH] using (well_founded_induction lt_wf). intros text args args' Hn.
  split.
  - intros H. destruct (line_or_more text) as [Hl|(a & b & -> & Ha)].
    + rewrite split_all_single in H by exact Hl.
      apply read_args_step in H as [[-> ->]|(x & -> & V & N & R)]; auto.
      * exists []. rewrite app_nil_r. split; [apply car_end|]. split; [intros x []|].
        split; [constructor|]. split; [intros x []|reflexivity].
      * cbn [read_args] in R. inv R. exists [x]. split; [apply car_last|].
        split; [intros y [Hy|[]]; subst; auto|]. split; [repeat constructor; intros []|].
        split; [intros y [Hy|[]]; subst; auto|reflexivity].
    + change (nl +++ b) with (String NL b) in *. rewrite split_all_app in H.
      rewrite split_all_single in H by exact Ha. cbn [app] in H.
      apply read_args_step in H as [[-> ->]|(x & -> & V & N & R)]; auto.
      * exists []. rewrite app_nil_r. split; [apply (car_blank b)|].
        split; [intros x []|]. split; [constructor|]. split; [intros x []|reflexivity].
      * apply (IH (String.length b)) in R; [|subst n; rewrite length_app_s; simpl; lia|reflexivity].
        destruct R as (l & C & Vl & ND & NA & ->). exists (x :: l).
        split; [apply (car_more x b l C)|]. split; [intros y [Hy|Hy]; subst; auto|].
        split.
        { cbn [map]. constructor; auto. intros Hx. apply in_map_iff in Hx as (y & Hy & Hin).
          apply (NA y Hin). rewrite Hy, map_app. apply in_or_app. right. left. reflexivity. }
        split.
        { intros y [Hy|Hy]; subst; auto. intros Hin. apply (NA y Hy). rewrite map_app. apply in_or_app. auto. }
        rewrite <- app_assoc. reflexivity.
  - intros (l & C & Vl & ND & NA & ->). inversion C; subst.
    + cbn [split_all read_args]. rewrite app_nil_r. reflexivity.
    + cbn. rewrite app_nil_r. reflexivity.
    + assert (V : valid_field x) by (apply Vl; left; reflexivity).
      rewrite split_all_single by apply (proj1 (valid_field_line _ V)).
      rewrite read_args_take; auto. apply NA. left; reflexivity.
    + assert (V : valid_field x) by (apply Vl; left; reflexivity).
      change (nl +++ text0) with (String NL text0). rewrite split_all_app.
      rewrite split_all_single by apply (proj1 (valid_field_line _ V)). cbn [app].
      rewrite read_args_take; [|auto|apply NA; left; reflexivity].
      apply (IH (String.length text0)); [rewrite length_app_s; simpl; lia|reflexivity|].
      exists l0. split; [assumption|]. inversion ND; subst.
      split; [intros y Hy; apply Vl; right; auto|]. split; [assumption|].
      split; [|rewrite <- app_assoc; reflexivity].
      intros y Hy. rewrite map_app. intros Hin. apply in_app_or in Hin as [Hin|[Hin|[]]].
      * apply (NA y); auto. right; auto.
      * apply H2. cbn in Hin. rewrite Hin. apply in_map. auto.
Qed.

Lemma conv_inj x y : valid_field x -> valid_field y -> conv x = conv y -> x = y.
Proof.
  intros (_ & _ & _ & Hx) (_ & _ & _ & Hy). destruct x as [k v], y as [k' v']. unfold conv. cbn [fst snd] in *.
  intros H. inversion H; subst k'. f_equal.
  destruct (smem k ["assume_yes_for_ask"; "just_evaluate"]) eqn:E; [|congruence].
  apply yes_no_spec in E. destruct (Hx E), (Hy E); subst; auto; discriminate.
Qed.

Lemma carries_unique text l l' :
  carries text l -> valid_request l -> carries text l' -> valid_request l' -> l = l'.
Proof.
  intros C (N & V & _) C' (N' & V' & _).
  assert (R : read_args (split_all NL text) [] = Some ([] ++ map conv l)) by (apply read_args_spec; exists l; repeat (split; [assumption|]); split; [intros x _ []|reflexivity]).
  assert (R' : read_args (split_all NL text) [] = Some ([] ++ map conv l')) by (apply read_args_spec; exists l'; repeat (split; [assumption|]); split; [intros x _ []|reflexivity]).
  rewrite R in R'. cbn [app] in R'. inversion R' as [E]. clear R R' C C' N N'. revert l' V' E.
  induction l as [|x l IH]; intros [|y l'] V' E; try discriminate; auto.
  cbn [map] in E. assert (E1 : conv x = conv y) by congruence. assert (E2 : map conv l = map conv l') by congruence. f_equal.
  - apply conv_inj; [apply V; left; reflexivity|apply V'; left; reflexivity|exact E1].
  - apply IH; auto; intros z Hz; [apply V|apply V']; right; auto.
Qed.

(** lookups in the parsed arguments *)
Lemma conv_text l n v : NoDup (map fst l) -> In n field_names -> ~ In n yes_no_names ->
  has_field l n v -> dget (map conv l) n = Some (VText v).
Proof.
  intros N _ Y H. apply In_dget; [rewrite conv_fst; auto|]. apply in_map_iff. exists (n, v). split; auto.
  unfold conv. cbn [fst snd]. destruct (smem n ["assume_yes_for_ask"; "just_evaluate"]) eqn:E; auto.
  apply yes_no_spec in E. contradiction.
Qed.
Lemma conv_missing l n : ~ In n (map fst l) -> dget (map conv l) n = None.
Proof. intros H. apply dget_None. rewrite conv_fst. auto. Qed.
Lemma conv_flag l n : NoDup (map fst l) -> (forall x, In x l -> valid_field x) -> In n yes_no_names ->
  bool_of (dget (map conv l) n) = switched_on l n.
Proof.
  intros N V Y. unfold switched_on. induction l as [|[k v] l IH]; [reflexivity|].
  cbn [map] in N. inversion N; subst.
  assert (V0 : valid_field (k, v)) by (apply V; left; reflexivity).
  assert (IH' := IH H2 (fun x Hx => V x (or_intror Hx))). clear IH.
  cbn [map existsb]. unfold conv at 1. cbn [fst snd dget].
  rewrite (String.eqb_sym k n).
  destruct (String.eqb n k) eqn:E.
  - apply String.eqb_eq in E. subst k. rewrite (proj2 (yes_no_spec n) Y). cbn [bool_of andb].
    assert (F : existsb (fun x => String.eqb (fst x) n && String.eqb (snd x) "yes") l = false).
    { apply not_true_is_false. intros Hx. apply existsb_exists in Hx as ([k' v'] & Hin & Hx).
      apply andb_true_iff in Hx as [Hx _]. apply String.eqb_eq in Hx. cbn in Hx. subst k'.
      apply H1. apply in_map_iff. exists (n, v'). auto. }
    rewrite F, orb_false_r. reflexivity.
  - cbn [andb orb]. exact IH'.
Qed.

(** ** The shape of answers *)
Lemma join_cons_s a b l : join nl (a :: b :: l) = a +++ nl +++ join nl (b :: l).
Proof. reflexivity. Qed.

Definition allow_text (s : string) : Prop :=
  exists u rest, s = "user=" +++ u +++ nl +++ "result=allow" +++ nl +++ rest.

Lemma join_allow u c l : allow_text (join nl (("user=" +++ u) :: "result=allow" :: c :: l)).
Proof.
  rewrite !join_cons_s. exists u, (join nl (c :: l)). rewrite app_assoc_s. reflexivity.
Qed.

Lemma ok_inj {A} (a b : A) : Ok a = Ok b -> a = b.
Proof. congruence. Qed.
Lemma allow_execute_shape q a s : allow_execute q a = Ok s -> allow_text s.
Proof.
  unfold allow_execute. intros H.
  destruct (String.eqb (q_source q) (a_target a)); [discriminate|].
  destruct (is_dom0 (a_target a)).
  { apply ok_inj in H; rewrite <- H; clear H. apply join_allow. }
  destruct (starts "@dispvm:" (a_target a)).
  { apply bind_ok in H as (d & _ & H). apply bind_ok in H as (u & _ & H). apply ok_inj in H; rewrite <- H; clear H. apply join_allow. }
  apply bind_ok in H as (d & _ & H).
  destruct (String.eqb (d_type d) "RemoteVM").
  - destruct (falsy (d_relay d)); [discriminate|]. destruct (falsy (d_transport d)); [discriminate|].
    apply bind_ok in H as (rd & _ & H). apply bind_ok in H as (u & _ & H). apply ok_inj in H; rewrite <- H; clear H. 
    apply (join_allow "DEFAULT").
  - apply bind_ok in H as (u & _ & H). apply ok_inj in H; rewrite <- H; clear H. apply join_allow.
Qed.

Definition answer_text (je : bool) (s : string) : Prop :=
  s = "result=deny" \/ (if je then s = "result=allow" else allow_text s).

Lemma run_allow_shape je q a s evs : run_allow (allow_type je) q a = (Ok s, evs) -> answer_text je s.
Proof.
  unfold run_allow, allow_type, answer_text. destruct je; intros H.
  - inv H. auto.
  - assert (H' : allow_execute q a = Ok s) by congruence. right. eapply allow_execute_shape; eauto.
Qed.
Lemma run_response_shape je q k b t s evs : run_response (allow_type je) q k b t = (Ok s, evs) -> answer_text je s.
Proof.
  unfold run_response. destruct (handle_user_response k b t) as [a|e]; [apply run_allow_shape|discriminate].
Qed.
Lemma run_resolution_shape je ay agent q r s evs :
  run_resolution (ask_type je ay) (allow_type je) agent q r = (Ok s, evs) -> answer_text je s.
Proof.
  destruct r as [a|k]; cbn [run_resolution]; [apply run_allow_shape|].
  unfold run_ask. destruct (ask_type je ay).
  - destruct (dget (q_info q) (q_source q)) as [d|]; [|discriminate].
    destruct (falsy (d_guivm d)); [apply run_response_shape|].
    destruct agent as [ans|]; [|discriminate].
    destruct (String.eqb ans "deny").
    + destruct (run_response (allow_type je) q k false "") as [r e] eqn:E. intros H.
      assert (r = Ok s) by congruence. subst. eapply run_response_shape; eauto.
    + destruct (starts "allow:" ans).
      * destruct (run_response (allow_type je) q k true (sdrop 6 ans)) as [r e] eqn:E. intros H.
        assert (r = Ok s) by congruence. subst. eapply run_response_shape; eauto.
      * discriminate.
  - intros H. inv H. left. reflexivity.
  - apply run_response_shape.
Qed.

Theorem answer_shape policy sysinfo agent source target service je ay reqsrc s evs :
  handle_request policy sysinfo agent source target service je ay reqsrc = (Ok s, evs) -> answer_text je s.
Proof.
  unfold handle_request. destruct sysinfo as [i|]; [|intros H; inv H; left; reflexivity].
  destruct (split_service service) as [sv ar].
  set (x := match policy with Ok rules => _ | Err e => _ end). 
  assert (Hx : forall s0, fst x = Ok s0 -> answer_text je s0).
  { unfold x. destruct policy as [rules|e]; [|discriminate].
    destruct (make_request i sv ar source target reqsrc) as [q|e]; [|discriminate].
    destruct (evaluate rules q) as [r|e]; [|discriminate].
    destruct (run_resolution (ask_type je ay) (allow_type je) agent q r) as [r' e'] eqn:E. cbn [fst].
    intros s0 ->. eapply run_resolution_shape; eauto. }
  clearbody x. destruct x as [[s0|e] evs0]; cbn [fst] in Hx.
  - intros H. inv H. auto.
  - intros H. assert (D : s = "result=deny").
    { destruct e; try discriminate; cbn [is_access_denied exn_notify] in H;
        try (destruct (_ && _); [destruct (dget i source)|]); congruence. }
    left. exact D.
Qed.

Lemma answer_ne je s : answer_text je s -> s <> "".
Proof. intros [H|H]; [subst; discriminate|]. destruct je; [subst; discriminate|]. destruct H as (u & r & ->). discriminate. Qed.

(** ** The policy socket *)
Theorem policy_socket policy sysinfo agent text w evs :
  handle_client_connection policy sysinfo agent text = (Some w, evs) <->
  exists l source target service reqsrc,
    carries text l /\ valid_request l /\
    has_field l "source" source /\ has_field l "intended_target" target /\
    has_field l "service_and_arg" service /\ optional_field l "requested_source" reqsrc /\
    handle_request policy sysinfo agent source target service
      (switched_on l "just_evaluate") (switched_on l "assume_yes_for_ask") reqsrc = (Ok w, evs) /\
    ascii_text w.
Proof.
  unfold handle_client_connection.
  assert (Opt : forall l n, In n field_names -> ~ In n yes_no_names -> NoDup (map fst l) ->
            optional_field l n (text_of (dget (map conv l) n))).
  { intros l n Hn Hy N. destruct (dmem (map conv l) n) eqn:E.
    - apply dmem_In in E. rewrite conv_fst in E. apply in_map_iff in E as ([k v] & Hk & Hin). cbn in Hk. subst k.
      left. rewrite (conv_text l n v); auto.
    - apply dmem_nIn in E. rewrite conv_fst in E. right. split; auto. rewrite conv_missing; auto. }
  assert (Req : forall l n, In n field_names -> ~ In n yes_no_names -> NoDup (map fst l) -> In n (map fst l) ->
            has_field l n (text_of (dget (map conv l) n))).
  { intros l n Hn Hy N Hin. destruct (Opt l n Hn Hy N) as [H|[H _]]; [auto|contradiction]. }
  split.
  - destruct (read_args (split_all NL text) []) as [args|] eqn:R; [|discriminate].
    apply read_args_spec in R as (l & C & V & N & _ & E). cbn [app] in E. subst args.
    destruct (forallb (fun a => dmem (map conv l) a) REQUIRED_REQUEST_ARGUMENTS) eqn:F; [|discriminate]. cbn [negb].
    assert (P : forall n, In n required_names -> In n (map fst l)).
    { intros n Hn. apply (proj1 (forallb_forall _ _) F) in Hn. apply dmem_In in Hn. rewrite conv_fst in Hn. auto. }
    destruct (handle_request _ _ _ _ _ _ _ _ _) as [[s|e] evs0] eqn:HR; [|discriminate].
    assert (Hs : s <> "") by (eapply answer_ne, answer_shape; eauto).
    destruct (String.eqb s "") eqn:Es; [apply String.eqb_eq in Es; contradiction|].
    destruct (is_ascii7 s) eqn:Ea; [|discriminate]. intros H. inv H.
    exists l, (text_of (dget (map conv l) "source")), (text_of (dget (map conv l) "intended_target")),
      (text_of (dget (map conv l) "service_and_arg")), (text_of (dget (map conv l) "requested_source")).
    rewrite <- (conv_flag l "just_evaluate"), <- (conv_flag l "assume_yes_for_ask") by (auto; cbn; auto).
    split; [exact C|]. split; [split; auto|].
    split; [apply Req; cbn; auto 10; [intuition discriminate|apply P; cbn; auto]|].
    split; [apply Req; cbn; auto 10; [intuition discriminate|apply P; cbn; auto]|].
    split; [apply Req; cbn; auto 10; [intuition discriminate|apply P; cbn; auto]|].
    split; [apply Opt; cbn; auto 10; intuition discriminate|].
    split; [exact HR|]. apply ascii7_spec; auto.
  - intros (l & source & target & service & reqsrc & C & (N & V & P) & H1 & H2 & H3 & H4 & HR & A).
    assert (R : read_args (split_all NL text) [] = Some ([] ++ map conv l)) by (apply read_args_spec; exists l; repeat (split; [assumption|]); split; [intros x _ []|reflexivity]).
    rewrite R. cbn [app].
    assert (F : forallb (fun a => dmem (map conv l) a) REQUIRED_REQUEST_ARGUMENTS = true).
    { apply forallb_forall. intros n Hn. apply dmem_In. rewrite conv_fst. apply P. exact Hn. }
    rewrite F. cbn [negb].
    rewrite (conv_text l "source" source), (conv_text l "intended_target" target), (conv_text l "service_and_arg" service)
      by (auto; cbn; intuition discriminate).
    rewrite (conv_flag l "just_evaluate"), (conv_flag l "assume_yes_for_ask") by (auto; cbn; auto).
    cbn [text_of].
    assert (HS : text_of (dget (map conv l) "requested_source") = reqsrc).
    { destruct H4 as [H4|[H4 ->]].
      - rewrite (conv_text l "requested_source" reqsrc) by (auto; cbn; intuition discriminate). reflexivity.
      - rewrite conv_missing by auto. reflexivity. }
    rewrite HS, HR.
    assert (Hs : w <> "") by (eapply answer_ne, answer_shape; eauto).
    destruct (String.eqb w "") eqn:Es; [apply String.eqb_eq in Es; contradiction|].
    rewrite (proj2 (ascii7_spec w) A). reflexivity.
Qed.

Theorem policy_socket_invalid policy sysinfo agent text :
  (forall l, carries text l -> ~ valid_request l) ->
  handle_client_connection policy sysinfo agent text = (None, []).
Proof.
  intros H. unfold handle_client_connection.
  destruct (read_args (split_all NL text) []) as [args|] eqn:R; auto.
  apply read_args_spec in R as (l & C & V & N & _ & E). cbn [app] in E. subst args.
  destruct (forallb (fun a => dmem (map conv l) a) REQUIRED_REQUEST_ARGUMENTS) eqn:F; auto.
  exfalso. apply (H l C). split; auto. split; auto.
  intros n Hn. apply (proj1 (forallb_forall _ _) F) in Hn. apply dmem_In in Hn. rewrite conv_fst in Hn. auto.
Qed.

(** ** Exit status *)
Lemma contains_starts sub s : starts sub s = true -> contains sub s = true.
Proof. intros H. destruct s; cbn [contains]; rewrite H; reflexivity. Qed.
Lemma contains_app sub a b : contains sub (a +++ sub +++ b) = true.
Proof.
  induction a as [|c a IH].
  - apply contains_starts, (starts_app sub b).
  - cbn [String.append contains]. rewrite IH. apply orb_true_r.
Qed.

Lemma status_spec je s : answer_text je s -> main_status s = 0 <-> s <> "result=deny".
Proof.
  intros [H|H].
  - subst. vm_compute. split; [discriminate|congruence].
  - destruct je.
    + subst. vm_compute. split; [discriminate|reflexivity].
    + destruct H as (u & r & ->).
      unfold main_status. split; [intros _ H|intros _].
      * assert (D : "user=" +++ (u +++ nl +++ "result=allow" +++ nl +++ r) <> "result=deny") by discriminate.
        contradiction.
      * replace ("user=" +++ u +++ nl +++ "result=allow" +++ nl +++ r)
          with (("user=" +++ u) +++ (nl +++ "result=allow" +++ nl) +++ r) by (rewrite !app_assoc_s; reflexivity).
        rewrite contains_app. reflexivity.
Qed.

(** ** Lines of a text *)
Lemma split_join l : l <> [] -> (forall x, In x l -> one_line x) -> split_all NL (join nl l) = l.
Proof.
  induction l as [|a l IH]; [congruence|]. intros _ H. destruct l as [|b l].
  - cbn [join]. apply split_all_single. apply H. left; reflexivity.
  - rewrite join_cons_s. change (nl +++ join nl (b :: l)) with (String NL (join nl (b :: l))).
    rewrite split_all_app, IH; [|discriminate|intros x Hx; apply H; right; exact Hx].
    rewrite split_all_single; [reflexivity|]. apply H. left; reflexivity.
Qed.

Lemma sdrop_len_app a b : sdrop (String.length a) (a +++ b) = b.
Proof. apply sdrop_app. Qed.
Lemma stake_len_app a b : stake (String.length a) (a +++ b) = a.
Proof. induction a; simpl; congruence. Qed.

Lemma strip_nl_nl s : strip_nl (s +++ nl) = s.
Proof.
  unfold strip_nl. rewrite length_app_s. cbn [String.length nl str1].
  replace (String.length s + 1) with (S (String.length s)) by lia.
  rewrite sdrop_len_app, eqb_refl_s, stake_len_app. reflexivity.
Qed.

Lemma strip_nl_other s c : c <> NL -> strip_nl (s +++ str1 c) = s +++ str1 c.
Proof.
  intros Hc. unfold strip_nl. rewrite length_app_s. cbn [String.length str1].
  replace (String.length s + 1) with (S (String.length s)) by lia.
  rewrite sdrop_len_app. destruct (String.eqb (str1 c) nl) eqn:E; auto.
  apply String.eqb_eq in E. unfold nl, str1 in E. congruence.
Qed.

Lemma last_char s : s <> "" -> exists a c, s = a +++ str1 c.
Proof.
  induction s as [|c s IH]; [congruence|]. intros _. destruct s as [|d s].
  - exists "", c. reflexivity.
  - destruct IH as (a & x & E); [discriminate|]. exists (String c a), x. cbn [String.append]. rewrite <- E. reflexivity.
Qed.

Lemma strip_nl_one s : s <> "" -> one_line s -> forall a, strip_nl (a +++ s) = a +++ s.
Proof.
  intros Hs Hl a. destruct (last_char s Hs) as (b & c & ->).
  rewrite <- app_assoc_s. apply strip_nl_other. intros ->.
  unfold one_line in Hl. rewrite has_char_app in Hl. apply orb_false_iff in Hl as [_ Hl]. discriminate Hl.
Qed.

Lemma strip_nl_join l x : (forall y, In y (l ++ [x]) -> one_line y) -> x <> "" ->
  strip_nl (join nl (l ++ [x])) = join nl (l ++ [x]).
Proof.
  intros H Hx. assert (E : exists a, join nl (l ++ [x]) = a +++ x).
  { clear H. induction l as [|a l IH]; [exists ""; reflexivity|]. destruct IH as (p & IH).
    destruct l as [|b l]; cbn [app] in *.
    - exists (a +++ nl). cbn. rewrite app_assoc_s. reflexivity.
    - rewrite join_cons_s, IH. exists (a +++ nl +++ p). rewrite !app_assoc_s. reflexivity. }
  destruct E as (a & ->). apply strip_nl_one; auto. apply H. apply in_or_app. right. left. reflexivity.
Qed.

Lemma has_nul_join l : (forall x, In x l -> no_nul x) -> has_char NUL (join nl l) = false.
Proof.
  induction l as [|a l IH]; [reflexivity|]. intros H. destruct l as [|b l].
  - apply H. left; reflexivity.
  - rewrite join_cons_s, !has_char_app, IH by (intros x Hx; apply H; right; exact Hx).
    rewrite (H a) by (left; reflexivity). reflexivity.
Qed.

(** ** The allow answer as read by qrexec-daemon *)
Definition reply_of (g : granted_call) : reply :=
  mkReply (Some (gc_user g)) (gc_uuid g) (Some (gc_target g)) (Some (gc_requested g)) (gc_service g)
          (Some (gc_autostart g)) (gc_source g).

Definition opt_line (key : string) (o : option string) : list string :=
  match o with Some s => [key +++ s] | None => [] end.
Definition gc_lines (g : granted_call) : list string :=
  ["user=" +++ gc_user g; "result=allow"; "target=" +++ gc_target g]
  ++ opt_line "target_uuid=" (gc_uuid g)
  ++ ["autostart=" +++ bool_field (gc_autostart g); "requested_target=" +++ gc_requested g]
  ++ opt_line "service=" (gc_service g) ++ opt_line "policy_source=" (gc_source g).

Lemma line_ok key s : one_line key -> no_nul key -> one_line s /\ no_nul s -> one_line (key +++ s) /\ no_nul (key +++ s).
Proof. unfold one_line, no_nul. rewrite !has_char_app. intros -> -> [-> ->]. auto. Qed.

Lemma gc_lines_ok g : tidy g -> forall x, In x (gc_lines g) -> (one_line x /\ no_nul x) /\ x <> "".
Proof.
  unfold tidy, gc_lines. intros (H1 & H2 & H3 & H4 & H5 & H6) x Hx.
  rewrite !in_app_iff in Hx. cbn [In] in Hx.
  assert (O : forall key o, one_line key -> no_nul key -> key <> "" ->
     match o with Some s => one_line s /\ no_nul s | None => True end ->
     In x (opt_line key o) -> (one_line x /\ no_nul x) /\ x <> "").
  { intros key [s|] K1 K2 K3 Ks Hin; cbn [opt_line In] in Hin; [|contradiction].
    destruct Hin as [<-|[]]. split; [apply line_ok; auto|]. destruct key; [congruence|discriminate]. }
  destruct Hx as [[Hx|[Hx|[Hx|[]]]]|[Hx|[[Hx|[Hx|[]]]|[Hx|Hx]]]].
  - subst x. split; [apply line_ok; auto; reflexivity|discriminate].
  - subst x. split; [split; reflexivity|discriminate].
  - subst x. split; [apply line_ok; auto; reflexivity|discriminate].
  - eapply O; [| | |exact H3|exact Hx]; [reflexivity|reflexivity|discriminate].
  - subst x. destruct (gc_autostart g); (split; [split; reflexivity|discriminate]).
  - subst x. split; [apply line_ok; auto; reflexivity|discriminate].
  - eapply O; [| | |exact H5|exact Hx]; [reflexivity|reflexivity|discriminate].
  - eapply O; [| | |exact H6|exact Hx]; [reflexivity|reflexivity|discriminate].
Qed.

Lemma gc_parse g : parse_lines (gc_lines g) None (mkReply None None None None None None None) = (Some (Some true), reply_of g).
Proof.
  destruct g as [u t [uu|] rt [|] [sv|] [ps|]]; reflexivity.
Qed.

Lemma gc_lines_last g : exists l x, gc_lines g = l ++ [x].
Proof.
  destruct (exists_last (l := gc_lines g)) as (l & x & E); [discriminate|]. exists l, x. exact E.
Qed.

Theorem parse_granted g : tidy g ->
  parse_policy_response (Some (join nl (gc_lines g))) None = (RESPONSE_ALLOW, reply_of g) /\
  parse_policy_response (Some (join nl (gc_lines g) +++ nl)) None = (RESPONSE_ALLOW, reply_of g).
Proof.
  intros T. pose proof (gc_lines_ok g T) as L.
  assert (N : has_char NUL (join nl (gc_lines g)) = false) by (apply has_nul_join; intros x Hx; apply L; exact Hx).
  assert (Sp : split_all NL (join nl (gc_lines g)) = gc_lines g).
  { apply split_join; [discriminate|]. intros x Hx. apply L; exact Hx. }
  assert (St : strip_nl (join nl (gc_lines g)) = join nl (gc_lines g)).
  { destruct (gc_lines_last g) as (l & x & E). rewrite E in *. apply strip_nl_join.
    - intros y Hy. apply L; exact Hy.
    - apply L. apply in_or_app. right. left. reflexivity. }
  assert (E0 : forall s, String.eqb (join nl (gc_lines g) +++ s) "" = false) by reflexivity.
  unfold parse_policy_response. split.
  - rewrite <- (app_nil_s (join nl (gc_lines g))), E0, app_nil_s, N, St, Sp, gc_parse. reflexivity.
  - rewrite E0, has_char_app, N, strip_nl_nl, Sp, gc_parse. reflexivity.
Qed.

Theorem allow_execute_granted q a s : wf_info (q_info q) -> allow_execute q a = Ok s ->
  exists g, granted q (a_user a) (a_target a) (a_autostart a) g /\ s = join nl (gc_lines g).
Proof.
  intros W H. apply allow_execute_sound in H as (_ & lines & A & ->); auto.
  assert (PS : source_lines q = opt_line "policy_source=" (if String.eqb (q_reqsrc q) "" then None else Some (q_source q))).
  { unfold source_lines. destruct (String.eqb (q_reqsrc q) ""); reflexivity. }
  inversion A; subst; clear A; rewrite ?PS.
  - eexists. split; [apply gd_dom0; auto|]. reflexivity.
  - eexists. split; [eapply gd_disp; eauto|]. rewrite H. reflexivity.
  - eexists. split; [eapply gd_qube; eauto|]. reflexivity.
  - eexists. split; [eapply gd_remote; eauto|]. reflexivity.
Qed.
