(** C97: the question reaches the user as it was asked, and the answer comes back as given *)
From Coq Require Import String Ascii List Bool Arith NArith ZArith Lia.
From Verif Require Import Base SysInfo Token Rule Policy Json SpecJson JsonProofs Dialog SpecDialog Props_Dialog Server SpecServer LookupProofs.
From Verif Require PolicyExec SpecExec Exec Spawn SpecSpawn SpecLookup Toml Props_Spawn SpawnProofs.
Import ListNotations.
Open Scope string_scope.
Open Scope list_scope.

(** ** JSON *)

(** a text is read as the value that it says, and only such texts are *)
Theorem C97_json t v : loads t = Some v <-> json_text t v.
Proof. apply loads_iff. Qed.
Theorem C97_unambiguous t v v' : json_text t v -> json_text t v' -> v = v'.
Proof. intros A B. apply loads_iff in A, B. congruence. Qed.
(** what is sent is received, whatever characters are in it, as printable ASCII text *)
Theorem C97_roundtrip v : proper v -> loads (dumps v) = Some v /\
  forall c, has_char c (dumps v) = true -> (32 <= N_of_ascii c <= 126)%N.
Proof.
  intros P. split; [apply loads_iff, json_text_dumps, P|]. pose proof (dumps_printable v P) as Q. unfold printable in Q.
  induction (dumps v) as [|d s IH]; intros c H; [discriminate H|]. cbn [sforall has_char] in *.
  apply andb_true_iff in Q. destruct Q as [Q1 Q2]. apply orb_true_iff in H. destruct H as [E|H]; [|exact (IH Q2 c H)].
  apply Ascii.eqb_eq in E. subst d. apply andb_true_iff in Q1. destruct Q1 as [A B]. apply N.leb_le in A, B. lia.
Qed.

(** ** Lemmas *)
Lemma to_u_says s : says (to_u s) s.
Proof. unfold says. induction s; cbn; congruence. Qed.
Lemma says_to_u u s : says u s <-> u = to_u s.
Proof. rewrite (to_u_says s). reflexivity. Qed.
Lemma of_u_iff u s : of_u u = Some s <-> says u s.
Proof.
  rewrite says_to_u. revert s. induction u as [|c u IH]; intros s; cbn [of_u].
  - split; [intros H; injection H as <-; reflexivity|]. destruct s; [reflexivity|discriminate].
  - destruct (N.ltb_spec c 256) as [B|B].
    + destruct (of_u u) as [s'|] eqn:E.
      * pose proof (proj1 (IH s') eq_refl) as ->. split.
        -- intros H. injection H as <-. cbn [to_u]. rewrite N_back by exact B. reflexivity.
        -- destruct s as [|d s]; [discriminate|]. cbn [to_u]. intros H. injection H as -> H. rewrite ascii_back. do 2 f_equal.
           apply IH in H. congruence.
      * split; [discriminate|]. destruct s as [|d s]; [discriminate|]. cbn [to_u]. intros H. injection H as -> H. apply IH in H. discriminate.
    + split; [discriminate|]. destruct s as [|d s]; [discriminate|]. cbn [to_u]. intros H. injection H as -> H.
      pose proof (ascii_bound d). lia.
Qed.
Lemma of_to_u s : of_u (to_u s) = Some s.
Proof. apply of_u_iff, to_u_says. Qed.
Lemma to_u_inj a b : to_u a = to_u b -> a = b.
Proof. intros H. pose proof (of_to_u a). pose proof (of_to_u b). congruence. Qed.
Lemma ustr_eqb_eq a b : ustr_eqb a b = true <-> a = b.
Proof.
  revert b. induction a as [|x a IH]; intros [|y b]; cbn [ustr_eqb]; try (split; [discriminate|discriminate]); [split; reflexivity|].
  rewrite andb_true_iff, N.eqb_eq, IH. split; [intros [-> ->]; reflexivity|intros H; injection H; auto].
Qed.
Lemma ustr_eqb_neq a b : ustr_eqb a b = false <-> a <> b.
Proof. rewrite <- ustr_eqb_eq. destruct (ustr_eqb a b); split; congruence. Qed.
Lemma last_value_none l k : last_value l k = None <-> forall k' x', In (k', x') l -> k' <> k.
Proof.
  induction l as [|[k' v] l IH]; cbn [last_value In]; [split; [intros _ k' x' []|reflexivity]|]. split.
  - destruct (last_value l k); [discriminate|]. destruct (ustr_eqb k' k) eqn:E; [discriminate|]. intros _ k2 x2 [H|H].
    + injection H as <- <-. apply ustr_eqb_neq. exact E.
    + exact (proj1 IH eq_refl k2 x2 H).
  - intros H. rewrite (proj2 IH) by (intros; eapply H; eauto). destruct (ustr_eqb k' k) eqn:E; [|reflexivity].
    apply ustr_eqb_eq in E. exfalso. exact (H k' v (or_introl eq_refl) E).
Qed.
Lemma last_value_iff l k x : last_value l k = Some x <-> exists a b, l = (a ++ (k, x) :: b)%list /\ forall k' x', In (k', x') b -> k' <> k.
Proof.
  induction l as [|[k' v] l IH]; cbn [last_value].
  - split; [discriminate|]. intros (a & b & E & _). destruct a; discriminate.
  - destruct (last_value l k) as [y|] eqn:L.
    + split.
      * intros H. injection H as ->. destruct (proj1 IH eq_refl) as (a & b & -> & H). exists ((k', v) :: a), b. split; [reflexivity|exact H].
      * intros (a & b & E & H). destruct a as [|e a].
        -- cbn [app] in E. injection E as -> -> ->. rewrite (proj2 (last_value_none b k) H) in L. discriminate.
        -- injection E as _ ->. apply IH. eauto.
    + destruct (ustr_eqb k' k) eqn:K.
      * apply ustr_eqb_eq in K. subst k'. split.
        -- intros H. injection H as ->. exists [], l. split; [reflexivity|]. apply last_value_none. exact L.
        -- intros (a & b & E & H). destruct a as [|e a]; [cbn [app] in E; congruence|]. injection E as _ ->. assert (Q : None = Some x) by (apply IH; eauto). discriminate Q.
      * apply ustr_eqb_neq in K. split; [discriminate|]. intros (a & b & E & H). destruct a as [|e a]; [cbn [app] in E; congruence|].
        injection E as _ ->. assert (Q : None = Some x) by (apply IH; eauto). discriminate Q.
Qed.
Lemma field_iff v key x : field v key = Some x <-> gives v key x.
Proof.
  unfold field, gives. split.
  - destruct v as [| | | | | |l]; try discriminate. intros H. apply last_value_iff in H. destruct H as (a & b & -> & H).
    exists a, (to_u key), b. split; [reflexivity|]. split; [apply to_u_says|]. intros k' x' I S. apply says_to_u in S. exact (H k' x' I S).
  - intros (a & k & b & -> & S & H). apply says_to_u in S. subst k. apply last_value_iff. exists a, b. split; [reflexivity|].
    intros k' x' I E. apply (H k' x' I). apply says_to_u. exact E.
Qed.
Lemma text_field_iff v key s : text_field v key = Some s <-> gives_text v key s.
Proof.
  unfold text_field, gives_text. split.
  - destruct (field v key) as [x|] eqn:E; [|discriminate]. destruct x; try discriminate. intros H. apply field_iff in E. apply of_u_iff in H. eauto.
  - intros (u & G & S). apply field_iff in G. rewrite G. apply of_u_iff. exact S.
Qed.
Lemma all_some_iff {A} (l : list (option A)) r : all_some l = Some r <-> l = map Some r.
Proof.
  revert r. induction l as [|x l IH]; intros r; cbn [all_some].
  - destruct r as [|y r]; [split; reflexivity|split; discriminate].
  - destruct x as [x|].
    + destruct (all_some l) as [r'|].
      * pose proof (proj1 (IH r') eq_refl) as ->. split; [intros H; injection H as <-; reflexivity|].
        destruct r as [|y r]; [discriminate|]. cbn [map]. intros H. injection H as -> H. apply IH in H. congruence.
      * split; [discriminate|]. destruct r as [|y r]; [discriminate|]. cbn [map]. intros H. injection H as -> H. apply IH in H. discriminate.
    + split; [discriminate|]. destruct r; discriminate.
Qed.
Lemma keys_spec l : forall seen, NoDup (keys seen l) /\ (forall k, In k (keys seen l) <-> (exists x, In (k, x) l) /\ ~ In k seen).
Proof.
  induction l as [|[k v] l IH]; intros seen; cbn [keys].
  - split; [constructor|]. intros k. split; [intros []|intros [[x []] _]].
  - destruct (existsb (ustr_eqb k) seen) eqn:E.
    + destruct (IH seen) as [N H]. split; [exact N|]. intros k'. rewrite H. apply existsb_exists in E. destruct E as (y & Y & E). apply ustr_eqb_eq in E. subst y.
      split; [intros [[x X] Z]; split; [exists x; right; exact X|exact Z]|]. intros [[x [X|X]] Z]; [injection X as -> ->; contradiction|]. eauto.
    + destruct (IH (k :: seen)) as [N H]. split.
      * constructor; [|exact N]. rewrite H. intros [_ Z]. apply Z. left. reflexivity.
      * intros k'. cbn [In]. rewrite H. cbn [In]. split.
        -- intros [<-|[[x X] Z]]; [|split; [eauto|tauto]]. split; [exists v; auto|]. intros I. 
           assert (existsb (ustr_eqb k) seen = true) by (apply existsb_exists; exists k; split; [exact I|apply ustr_eqb_eq; reflexivity]). congruence.
        -- intros [[x [X|X]] Z]; [injection X as -> ->; left; reflexivity|].
           destruct (ustr_eqb k k') eqn:Ek; [left; apply ustr_eqb_eq; exact Ek|]. apply ustr_eqb_neq in Ek. right. split; [eauto|]. intros [Q|Q]; [congruence|contradiction].
Qed.
Lemma keys_distinct l : NoDup (map fst l) -> forall seen, (forall k, In k seen -> ~ In k (map fst l)) -> keys seen l = map fst l.
Proof.
  induction l as [|[k v] l IH]; intros N seen S; cbn [keys map fst]; [reflexivity|]. inversion N as [|? ? N1 N2]; subst.
  destruct (existsb (ustr_eqb k) seen) eqn:E.
  - apply existsb_exists in E. destruct E as (y & Y & E). apply ustr_eqb_eq in E. subst y. exfalso. apply (S k Y). left. reflexivity.
  - f_equal. apply IH; [exact N2|]. intros k' [<-|I] J; [contradiction|]. apply (S k' I). right. exact J.
Qed.
Lemma NoDup_back (f : string -> ustr) l : (forall a b, f a = f b -> a = b) -> NoDup (map f l) <-> NoDup l.
Proof.
  intros Inj. induction l as [|a l IH]; cbn [map]; [split; constructor|]. split; intros H; inversion H as [|? ? H1 H2]; subst.
  - constructor; [|apply IH; exact H2]. intros I. apply H1. apply in_map. exact I.
  - constructor; [|apply IH; exact H2]. intros I. apply in_map_iff in I. destruct I as (b & E & I). apply Inj in E. subst. contradiction.
Qed.
Lemma map_of_u l r : map of_u l = map Some r <-> l = map to_u r.
Proof.
  revert r. induction l as [|u l IH]; intros [|s r]; cbn [map]; try (split; discriminate); [split; reflexivity|]. split.
  - intros H. injection H as A B. apply of_u_iff, says_to_u in A. apply IH in B. congruence.
  - intros H. injection H as -> H. rewrite of_to_u. apply IH in H. congruence.
Qed.

Lemma ascii_app a b : is_ascii (a +++ b) = is_ascii a && is_ascii b.
Proof. apply sforall_app. Qed.
Lemma printable_ascii t : printable t -> is_ascii t = true /\ has_char NUL t = false.
Proof.
  unfold printable, is_ascii. induction t as [|c t IH]; [split; reflexivity|]. cbn [sforall has_char]. intros H.
  apply andb_true_iff in H. destruct H as [A B]. apply andb_true_iff in A. destruct A as [A1 A2]. apply N.leb_le in A1, A2.
  destruct (IH B) as [I1 I2]. rewrite I1, I2. rewrite (proj2 (N.ltb_lt _ 128)) by lia. split; [reflexivity|].
  destruct (Ascii.eqb_spec NUL c) as [<-|N]; [exfalso; cbn in A1; lia|reflexivity].
Qed.
Lemma to_u_characters s : Forall character (to_u s).
Proof.
  induction s as [|c s IH]; cbn [to_u]; constructor; [|exact IH]. left. pose proof (ascii_bound c). lia.
Qed.
Lemma ask_proper p icons : proper (ask_message p icons).
Proof.
  unfold ask_message. constructor.
  assert (T : forall s, proper (JStr (to_u s))) by (intros s; constructor; apply to_u_characters).
  repeat (constructor; [cbn [fst snd]; split; [apply to_u_characters|]|]); [apply T|apply T|apply T| |apply T| |constructor].
  - constructor. apply Forall_forall. intros x I. apply in_map_iff in I. destruct I as (t & <- & _). apply T.
  - constructor. apply Forall_forall. intros x I. apply in_map_iff in I. destruct I as (t & <- & _). cbn [fst snd]. split; [apply to_u_characters|apply T].
Qed.
Lemma notify_proper r s a src dst : proper (notify_message r s a src dst).
Proof.
  unfold notify_message. constructor.
  assert (T : forall s, proper (JStr (to_u s))) by (intros x; constructor; apply to_u_characters).
  repeat (constructor; [cbn [fst snd]; split; [apply to_u_characters|apply T]|]). constructor.
Qed.
(** a request with any header *)
Lemma parse_sent service source rest v : is_ascii (service +++ " " +++ source +++ rest) = true -> proper v ->
  has_char " " service = false -> has_char " " source = false -> has_char NUL (service +++ " " +++ source +++ rest) = false -> SpecExec.end_of_word rest ->
  parse_request ((service +++ " " +++ source +++ rest) +++ str1 NUL +++ dumps v) = Some (service, source, v).
Proof.
  intros A P S1 S2 N R. unfold parse_request. destruct (printable_ascii _ (dumps_printable v P)) as [D _].
  rewrite !ascii_app, D. rewrite <- !ascii_app, A. change (is_ascii (str1 NUL)) with true. cbn [andb negb].
  remember (service +++ " " +++ source +++ rest) as h eqn:Eh.
  replace (split1 NUL (h +++ str1 NUL +++ dumps v)) with (Some (h, dumps v)) by (symmetry; apply split1_spec; split; [reflexivity|exact N]).
  assert (W : exists l, split_all " " h = service :: source :: l).
  { rewrite Eh. change (" " +++ source +++ rest) with (String " " (source +++ rest)). rewrite split_all_cons by exact S1.
    destruct R as [->|(r & ->)]; [rewrite app_nil_s, split_all_lacks by exact S2; eauto|].
    change (" " +++ r) with (String " " r). rewrite split_all_cons by exact S2. eauto. }
  destruct W as (l & ->). rewrite (proj2 (loads_iff _ _) (json_text_dumps v P)). reflexivity.
Qed.

(** ** The question *)
Lemma ask_params_sent p icons : NoDup (map fst icons) -> p_icons p = map fst icons -> ask_params (ask_message p icons) = Some p.
Proof.
  intros N E. unfold ask_params, text_field. unfold ask_message.
  repeat match goal with |- context [field (JDict ?l) ?k] =>
    match l with (_, ?x1) :: (_, ?x2) :: (_, ?x3) :: (_, ?x4) :: (_, ?x5) :: (_, ?x6) :: nil =>
      first [ change (field (JDict l) k) with (Some x1) | change (field (JDict l) k) with (Some x2) | change (field (JDict l) k) with (Some x3)
            | change (field (JDict l) k) with (Some x4) | change (field (JDict l) k) with (Some x5) | change (field (JDict l) k) with (Some x6) ] end end.
  cbv iota beta. rewrite !of_to_u. rewrite !map_map.
  replace (all_some (map (fun x => of_u (to_u x)) (p_targets p))) with (Some (p_targets p)) by (symmetry; apply all_some_iff, map_ext; intros; apply of_to_u).
  rewrite keys_distinct; [|rewrite map_map; cbn [fst]; rewrite <- (map_map fst to_u); apply NoDup_back; [apply to_u_inj|exact N]|intros ? []].
  replace (all_some (map of_u (map fst (map (fun e : string * string => (to_u (fst e), JStr (to_u (snd e)))) icons)))) with (Some (p_icons p)).
  - destruct p; reflexivity.
  - symmetry. apply all_some_iff, map_of_u. rewrite map_map. cbn [fst]. rewrite E, map_map. reflexivity.
Qed.
(** the two ways of a request of the policy daemon: to an agent in dom0, and over qrexec, where
    the header is from qrexec (see C97_header) *)
Definition ascii_chars (s : string) : Prop := forall c, has_char c s = true -> (N_of_ascii c < 128)%N.
Definition sent_to_agent (service : string) (v : json) (data : string) : Prop :=
  data = local_request service "dom0" v \/ data = (service +++ " dom0" +++ str1 NUL) +++ remote_input v.
Lemma sent_parsed service v data : is_ascii service = true -> has_char " " service = false -> has_char NUL service = false ->
  proper v -> sent_to_agent service v data -> parse_request data = Some (service, "dom0", v).
Proof.
  intros A S N P [->| ->].
  - unfold local_request. change (String.eqb "dom0" "dom0") with true. cbv iota.
    change (" dom0 name dom0") with (" " +++ "dom0" +++ " name dom0"). apply parse_sent; auto.
    + rewrite ascii_app, A. reflexivity.
    + rewrite has_char_app, N. reflexivity.
    + right. exists "name dom0". reflexivity.
  - unfold remote_input.
    replace ((service +++ " dom0" +++ str1 NUL) +++ dumps v) with ((service +++ " " +++ "dom0" +++ "") +++ str1 NUL +++ dumps v) by (rewrite !app_assoc_s; reflexivity).
    apply parse_sent; auto.
    + rewrite ascii_app, A. reflexivity.
    + rewrite has_char_app, N. reflexivity.
    + left. reflexivity.
Qed.
(** a service in dom0 that is called by socket learns which service was called, by whom, and with
    which parameters *)
Theorem C97_local service source v : ascii_chars service -> ascii_chars source -> has_char " " service = false -> has_char " " source = false ->
  has_char NUL service = false -> has_char NUL source = false -> proper v ->
  parse_request (local_request service source v) = Some (service, source, v).
Proof.
  intros A A' S S' N N' P. assert (B : forall s, ascii_chars s -> is_ascii s = true).
  { clear. intros s H. unfold is_ascii. induction s as [|c s IH]; [reflexivity|]. cbn [sforall]. rewrite (proj2 (N.ltb_lt _ _) (H c ltac:(cbn; rewrite Ascii.eqb_refl; reflexivity))).
    apply IH. intros d D. apply H. cbn. rewrite D. apply orb_true_r. }
  apply B in A. apply B in A'. unfold local_request. destruct (String.eqb_spec source "dom0") as [->|].
  - change (" dom0 name dom0") with (" " +++ "dom0" +++ " name dom0"). apply parse_sent; auto.
    + rewrite ascii_app, A. reflexivity.
    + rewrite has_char_app, N. reflexivity.
    + right. exists "name dom0". reflexivity.
  - replace (service +++ " " +++ source) with (service +++ " " +++ source +++ "") by (rewrite app_nil_s; reflexivity). apply parse_sent; auto.
    + rewrite !ascii_app, A, A'. reflexivity.
    + rewrite !has_char_app, N, N'. reflexivity.
    + left. reflexivity.
Qed.
(** the agent asks exactly what the policy daemon wants to know *)
Theorem C97_asked p icons data : NoDup (map fst icons) -> p_icons p = map fst icons ->
  sent_to_agent "policy.Ask" (ask_message p icons) data -> agent_action data = AskUser p.
Proof.
  intros N E D. unfold agent_action. rewrite (sent_parsed "policy.Ask" (ask_message p icons)); [|reflexivity|reflexivity|reflexivity|apply ask_proper|exact D].
  unfold handle_request. change (String.eqb "policy.Ask" "policy.Ask") with true. cbv iota. rewrite ask_params_sent by assumption. reflexivity.
Qed.
(** and shows exactly what it wants to be shown *)
Theorem C97_shown r s a src dst body data : notify_body r s a src dst = Some body ->
  sent_to_agent "policy.Notify" (notify_message r s a src dst) data -> agent_action data = Show body.
Proof.
  intros B D. unfold agent_action. rewrite (sent_parsed "policy.Notify" (notify_message r s a src dst)); [|reflexivity|reflexivity|reflexivity|apply notify_proper|exact D].
  unfold handle_request. change (String.eqb "policy.Notify" "policy.Ask") with false. change (String.eqb "policy.Notify" "policy.Notify") with true. cbv iota.
  unfold text_field, notify_message.
  repeat match goal with |- context [field (JDict ?l) ?k] =>
    match l with (_, ?x1) :: (_, ?x2) :: (_, ?x3) :: (_, ?x4) :: (_, ?x5) :: nil =>
      first [ change (field (JDict l) k) with (Some x1) | change (field (JDict l) k) with (Some x2) | change (field (JDict l) k) with (Some x3)
            | change (field (JDict l) k) with (Some x4) | change (field (JDict l) k) with (Some x5) ] end end.
  cbv iota beta. rewrite !of_to_u, B. reflexivity.
Qed.
(** the header, if qrexec-agent runs in the qube *)
Theorem C97_header m dirs k user path first p : SpecSpawn.services_in m dirs -> SpecSpawn.works k -> has_char ":" user = false ->
  Spawn.agent_serve m k 512 (user +++ ":QUBESRPC policy.Ask dom0") = Spawn.Serves (Spawn.OnSocket (Exec.ConnectSocket path first)) p ->
  first = Some ("policy.Ask dom0" +++ str1 NUL) \/
  (first = None /\ exists c u cf u', SpecExec.c_name c = "policy.Ask" /\ SpecSpawn.configured m c u cf u' /\ Toml.cf_send_service_descriptor cf = false).
Proof.
  intros HP K U E. apply (proj1 (Props_Spawn.C95_started m dirs k _ HP K)) in E. destruct E as (command & c & greet & u' & A & S).
  assert (L : SpecExec.line_means true (user +++ ":QUBESRPC policy.Ask dom0") (Some user) false "policy.Ask dom0"
                (Some (SpecExec.mkCall "policy.Ask+" "policy.Ask" None "dom0"))).
  { apply (SpecExec.lm_call true _ (Some user) false "QUBESRPC policy.Ask dom0").
    - apply (SpecExec.up_user user "QUBESRPC policy.Ask dom0"). exact U.
    - apply SpecExec.gp_with. intros (r & H). discriminate H.
    - apply (SpecExec.ct "policy.Ask" "policy.Ask" None "policy.Ask+" "dom0" "").
      + apply SpecExec.sp_plain. reflexivity.
      + reflexivity.
      + vm_compute. discriminate.
      + split; vm_compute; discriminate.
      + reflexivity.
      + discriminate.
      + left. reflexivity. }
  assert (F : forall u n cmd c', SpecExec.line_means true (user +++ ":QUBESRPC policy.Ask dom0") u n cmd c' ->
               cmd = "policy.Ask dom0" /\ forall c2, c' = Some c2 -> SpecExec.c_name c2 = "policy.Ask").
  { intros u n cmd c' L'. destruct (Props_Exec.C49_unambiguous _ _ _ _ _ _ _ _ _ _ L L') as (_ & _ & -> & <-).
    split; [reflexivity|]. intros c2 Hc. injection Hc as <-. reflexivity. }
  inversion A; subst.
  - destruct (F _ _ _ _ H) as [-> F2]. inversion S; subst. destruct (Toml.cf_send_service_descriptor cf) eqn:G; [left; reflexivity|]. right. split; [reflexivity|].
    exists c0, user0, cf, u'. split; [apply F2; reflexivity|]. split; [assumption|exact G].
  - discriminate.
  - destruct (F _ _ _ _ H) as [-> _]. inversion S.
Qed.

(** whatever the agent is sent: it asks only what a request for policy.Ask says, *)
Lemma join_two c a b l : join (str1 c) (a :: b :: l) = a +++ str1 c +++ join (str1 c) (b :: l).
Proof. reflexivity. Qed.
Lemma parse_request_sound data service source v : parse_request data = Some (service, source, v) -> request_for service v data.
Proof.
  unfold parse_request. destruct (negb (is_ascii data)); [discriminate|]. destruct (split1 NUL data) as [[h text]|] eqn:E; [|discriminate].
  apply split1_spec in E. destruct E as [-> N]. destruct (split_all " " h) as [|a [|b l]] eqn:W; try discriminate.
  destruct (loads text) as [v'|] eqn:L; [|discriminate]. intros H. injection H as -> -> ->. apply loads_iff in L.
  pose proof (join_split_all " " h) as J. rewrite W, join_two in J.
  exists (join (str1 " ") (source :: l)), text. rewrite <- J in N. rewrite !has_char_app in N. apply orb_false_iff in N. destruct N as [_ N]. apply orb_false_iff in N. destruct N as [_ N].
  split; [rewrite <- J, !app_assoc_s; reflexivity|]. split; [exact N|exact L].
Qed.
Theorem C97_only data p : agent_action data = AskUser p -> exists v, request_for "policy.Ask" v data /\ question v p.
Proof.
  unfold agent_action. destruct (parse_request data) as [[[service source] v]|] eqn:E; [|discriminate]. apply parse_request_sound in E.
  unfold handle_request. destruct (String.eqb_spec service "policy.Ask") as [->|].
  2: { destruct (String.eqb service "policy.Notify"); [|discriminate].
       destruct (text_field v "resolution"), (text_field v "service"), (text_field v "argument"), (text_field v "source"), (text_field v "target"); try discriminate.
       destruct (notify_body _ _ _ _ _); discriminate. }
  destruct (ask_params v) as [p'|] eqn:A; [|discriminate]. intros H. injection H as ->. exists v. split; [exact E|].
  unfold ask_params in A.
  destruct (text_field v "source") as [src|] eqn:F1; [|discriminate]. destruct (text_field v "service") as [svc|] eqn:F2; [|discriminate].
  destruct (text_field v "argument") as [arg|] eqn:F3; [|discriminate]. destruct (field v "targets") as [[| | | | |l|]|] eqn:F4; try discriminate.
  destruct (field v "default_target") as [d|] eqn:F5; [|discriminate]. destruct (field v "icons") as [[| | | | | |ic]|] eqn:F6; try discriminate.
  destruct (all_some (map (fun t => match t with JStr u => of_u u | _ => None end) l)) as [targets|] eqn:T; [|discriminate].
  destruct (match d with JStr u => of_u u | JNull => Some "" | _ => None end) as [def|] eqn:D; [|discriminate].
  destruct (all_some (map of_u (keys [] ic))) as [ns|] eqn:K; [|discriminate]. injection A as <-.
  apply text_field_iff in F1, F2, F3. apply field_iff in F4, F5, F6. apply all_some_iff in T, K. apply map_of_u in K.
  split; cbn [p_source p_service p_argument p_targets p_default p_icons]; auto.
  - exists l. split; [exact F4|]. clear - T. revert targets T. induction l as [|x l IH]; intros [|t ts] T; try discriminate; constructor.
    + cbn [map] in T. apply (f_equal (fun o => hd None o)) in T. cbn [hd] in T. destruct x; try discriminate. exists u. split; [reflexivity|apply of_u_iff; exact T].
    + apply IH. cbn [map] in T. congruence.
  - destruct d; try discriminate; [right; split; [exact F5|congruence]|]. left. exists u. split; [exact F5|apply of_u_iff; exact D].
  - exists ic. split; [exact F6|]. destruct (keys_spec ic []) as [N S]. rewrite K in N, S. unfold names. split; [|split].
    + apply (NoDup_back to_u ns to_u_inj). exact N.
    + intros n I. assert (J : In (to_u n) (map to_u ns)) by (apply in_map; exact I). apply S in J. destruct J as [[x J] _]. exists (to_u n), x. split; [exact J|apply to_u_says].
    + intros k x I. assert (J : In k (map to_u ns)) by (apply S; split; [eauto|intros []]). apply in_map_iff in J. destruct J as (n & <- & J). exists n. split; [exact J|apply to_u_says].
Qed.
(** and it asks whatever such a request says, as far as it is in ASCII *)
Theorem C97_understood data v p : is_ascii data = true -> request_for "policy.Ask" v data -> question v p ->
  exists names, agent_action data = AskUser (mkParams (p_source p) (p_service p) (p_argument p) (p_targets p) (p_default p) names) /\
    forall n, In n names <-> In n (p_icons p).
Proof.
  intros A (rest & text & -> & N & J) [Q1 Q2 Q3 (l & Q4 & T) Q5 (ic & Q6 & (N1 & N2 & N3))].
  assert (K : exists ns, keys [] ic = map to_u ns /\ forall n, In n ns <-> In n (p_icons p)).
  { destruct (keys_spec ic []) as [_ S].
    assert (H : forall ks, (forall k, In k ks -> exists n, In n (p_icons p) /\ says k n) -> exists ns, ks = map to_u ns).
    { induction ks as [|k ks IH]; intros H; [exists []; reflexivity|]. destruct (H k (or_introl eq_refl)) as (n & _ & Sn).
      destruct IH as (ns & ->); [intros; apply H; right; assumption|]. exists (n :: ns). cbn [map]. f_equal. apply says_to_u. exact Sn. }
    destruct (H (keys [] ic)) as (ns & E).
    { intros k I. apply S in I. destruct I as [[x I] _]. exact (N3 k x I). }
    exists ns. split; [exact E|]. rewrite E in S. intros n. split; intros I.
    - assert (I' : In (to_u n) (map to_u ns)) by (apply in_map; exact I). apply S in I'. destruct I' as [[x I'] _].
      destruct (N3 _ _ I') as (n' & I2 & Sn). apply says_to_u, to_u_inj in Sn. subst. exact I2.
    - destruct (N2 n I) as (k & x & I2 & Sn). apply says_to_u in Sn. subst k.
      assert (I3 : In (to_u n) (map to_u ns)) by (apply S; split; [exists x; exact I2|intros []]). apply in_map_iff in I3. destruct I3 as (n' & En & I3). apply to_u_inj in En. subst n'. exact I3. }
  destruct K as (ns & K1 & K2). exists ns. split; [|exact K2].
  unfold agent_action, parse_request. rewrite A. cbn [negb].
  replace (split1 NUL ("policy.Ask" +++ " " +++ rest +++ str1 NUL +++ text)) with (Some ("policy.Ask " +++ rest, text)).
  2: { symmetry. apply split1_spec. split; [reflexivity|]. rewrite has_char_app. rewrite N. reflexivity. }
  change ("policy.Ask " +++ rest) with ("policy.Ask" +++ String " " rest). rewrite split_all_cons by reflexivity.
  destruct (split_all " " rest) as [|w ws] eqn:W; [exfalso; exact (split_all_ne _ _ W)|].
  rewrite (proj2 (loads_iff _ _) J). unfold handle_request. change (String.eqb "policy.Ask" "policy.Ask") with true. cbv iota.
  unfold ask_params. apply text_field_iff in Q1, Q2, Q3. apply field_iff in Q4, Q6. rewrite Q1, Q2, Q3, Q4, Q6.
  assert (D : exists d, field v "default_target" = Some d /\ match d with JStr u => of_u u | JNull => Some "" | _ => None end = Some (p_default p)).
  { destruct Q5 as [(u & G & S)|[G E]]; apply field_iff in G; eexists; (split; [exact G|]); [apply of_u_iff; exact S|congruence]. }
  destruct D as (d & D1 & D2). rewrite D1, D2.
  replace (all_some (map (fun t => match t with JStr u => of_u u | _ => None end) l)) with (Some (p_targets p)).
  2: { clear - T. symmetry. apply all_some_iff. induction T as [|x t l' ts (u & -> & S) _ IH]; [reflexivity|]. cbn [map]. apply of_u_iff in S. rewrite S, IH. reflexivity. }
  replace (all_some (map of_u (keys [] ic))) with (Some ns) by (symmetry; apply all_some_iff, map_of_u; exact K1). reflexivity.
Qed.

(** ** The answer *)
Definition ascii_name (s : string) : Prop := forall c, has_char c s = true -> (N_of_ascii c < 128)%N.
Lemma ascii_name_iff s : is_ascii s = true <-> ascii_name s.
Proof.
  unfold is_ascii, ascii_name. induction s as [|c s IH]; cbn [sforall has_char]; [split; [intros _ c H; discriminate H|reflexivity]|].
  rewrite andb_true_iff, N.ltb_lt, IH. split.
  - intros [A B] d H. apply orb_true_iff in H. destruct H as [H|H]; [apply Ascii.eqb_eq in H; subst; exact A|exact (B d H)].
  - intros H. split; [apply H; rewrite Ascii.eqb_refl; reflexivity|]. intros d D. apply H. rewrite D. apply orb_true_r.
Qed.
Lemma answer_cases w : answer w = "deny" \/ exists x, answer w = "allow:" +++ x.
Proof. unfold answer. destruct (w_confirmed w) as [[|]|]; auto. destruct (w_target w) as [x|]; auto. destruct (String.eqb x ""); eauto. Qed.
Theorem C97_answer p entries h t w : history p entries h t w -> (forall x, In x (p_targets p) -> ascii_name x) ->
  written (AskUser p) (Some (answer w)) = answer w /\ local_answer (answer w) = Some (answer w) /\ remote_answer 0 (answer w) = Some (answer w).
Proof.
  intros H T. assert (A : is_ascii (answer w) = true).
  { destruct (answer_cases w) as [->|(x & E)]; [reflexivity|]. destruct (C54_listed _ _ _ _ _ _ H E) as [I _]. rewrite E.
    change (is_ascii ("allow:" +++ x)) with (is_ascii x). apply ascii_name_iff, T, I. }
  unfold written, local_answer, remote_answer. change (Nat.eqb 0 0) with true. rewrite A. auto.
Qed.
(** a failure is never taken for consent *)
Theorem C97_no_answer a result ak q k : (forall p r, a = AskUser p -> result = Some r -> ~ ascii_name r) ->
  written a result = "" /\
  (forall agent, agent = local_answer "" \/ agent = remote_answer 0 "" \/ agent = None -> exists e, fst (PolicyExec.run_ask PolicyExec.KK_Agent ak agent q k) = Err e) /\
  (forall status output, status <> O -> remote_answer status output = None).
Proof.
  intros H. split; [|split].
  - unfold written. destruct a as [p| |], result as [r|]; auto. destruct (is_ascii r) eqn:E; [|reflexivity]. exfalso. apply (H p r eq_refl eq_refl). apply ascii_name_iff. exact E.
  - intros agent A. unfold PolicyExec.run_ask. destruct (dget (q_info q) (q_source q)) as [d|]; [|eexists; reflexivity].
    destruct (falsy (d_guivm d)); [eexists; reflexivity|].
    assert (E : agent = Some "" \/ agent = None) by (destruct A as [->|[->| ->]]; auto).
    destruct E as [->| ->]; eexists; reflexivity.
  - intros status output N. unfold remote_answer. destruct (Nat.eqb_spec status 0); [contradiction|reflexivity].
Qed.

(** ** Both *)
Lemma icon_names_distinct i : wf_info i -> NoDup (icon_names i).
Proof.
  intros W. unfold icon_names. pose proof (wf_nodup i W) as N.
  assert (F : forall f : string * dom -> bool, NoDup (map fst (filter f i))).
  { intros f. clear W. induction i as [|e i IH]; [constructor|]. cbn [map filter] in *. inversion N as [|? ? N1 N2]; subst.
    destruct (f e); [|auto]. cbn [map]. constructor; [|auto]. intros I. apply N1. apply in_map_iff in I. destruct I as (e' & E & I). apply filter_In in I. rewrite <- E. apply in_map. tauto. }
  assert (D : forall a b : list string, NoDup a -> NoDup b -> (forall x, In x a -> ~ In x b) -> NoDup (a ++ b)).
  { induction a as [|x a IH]; intros b Na Nb H; [exact Nb|]. inversion Na; subst. cbn [app]. constructor.
    - intros I. apply in_app_or in I. destruct I as [I|I]; [contradiction|]. exact (H x (or_introl eq_refl) I).
    - apply IH; auto. intros y Y. apply H. right. exact Y. }
  apply D.
  - apply F.
  - rewrite <- (map_map fst (fun n => "@dispvm:" +++ n)). specialize (F (fun e => negb (starts "uuid:" (fst e) || negb (d_tmpl (snd e))))).
    induction (map fst (filter _ i)) as [|x l IH]; [constructor|]. inversion F; subst. cbn [map]. constructor; [|auto].
    intros I. apply in_map_iff in I. destruct I as (y & E & I). apply (f_equal (sdrop 8)) in E. cbn in E. subst. contradiction.
  - intros x A B. apply in_map_iff in A. destruct A as (e & <- & A). apply filter_In in A. destruct A as [A U]. destruct e as [k d]. cbn [fst] in *.
    apply in_map_iff in B. destruct B as (e' & E & _).
    assert (G : dget i k = Some d) by (apply In_dget; assumption).
    destruct (wf_keys i W k d G) as (P & _ & [K|(u & _ & K)]).
    + unfold plain_name in P. assert (Q : starts "@" (d_name d) = true) by (rewrite <- K, <- E; reflexivity). rewrite Q in P. cbn [negb] in P. rewrite andb_false_r in P. discriminate P.
    + rewrite K in E. discriminate E.
Qed.
(** the call is allowed exactly if the user has chosen so in the dialog for this very call *)
Theorem C97_both q k je icons data entries h t w r evs :
  wf_info (q_info q) -> map fst icons = icon_names (q_info q) -> (forall x, In x (k_targets k) -> ascii_name x) ->
  (exists d g, dget (q_info q) (q_source q) = Some d /\ d_guivm d = Some g /\ g <> "") ->
  sent_to_agent "policy.Ask" (ask_message (asked q k) icons) data ->
  agent_action data = AskUser (asked q k) /\
  (history (asked q k) entries h t w ->
   PolicyExec.run_ask PolicyExec.KK_Agent (PolicyExec.allow_type je) (local_answer (written (agent_action data) (Some (answer w)))) q k = (r, evs) ->
   (answer w = "deny" -> r = Err (EAccessDenied (k_notify k))) /\
   (forall x, answer w = "allow:" +++ x -> In x (k_targets k) /\
      r = fst (PolicyExec.run_allow (PolicyExec.allow_type je) q (mkAllow (k_user k) x (k_autostart k) (k_notify k))))).
Proof.
  intros W I T G D.
  assert (A : agent_action data = AskUser (asked q k)).
  { apply (C97_asked (asked q k) icons); [rewrite I; apply icon_names_distinct; exact W|symmetry; exact I|exact D]. }
  split; [exact A|]. intros H R. rewrite A in R. destruct (C97_answer (asked q k) entries h t w H T) as (E1 & E2 & _). rewrite E1, E2 in R.
  exact (C54_obeyed je q k entries h t w r evs W H R G).
Qed.

(** ** Examples *)
Definition ex_ask : params := mkParams "work" "qubes.Open" "+a ""b\" ["vault"; "@dispvm:dvm"] "vault" ["work"; "vault"; "@dispvm:dvm"].
Definition ex_icons : list (string * string) := [("work", "appvm-green"); ("vault", "appvm-black"); ("@dispvm:dvm", "dispvm-red")].
Example C97_example :
  agent_action (local_request "policy.Ask" "dom0" (ask_message ex_ask ex_icons)) = AskUser ex_ask /\
  agent_action (("policy.Ask dom0" +++ str1 NUL) +++ remote_input (ask_message ex_ask ex_icons)) = AskUser ex_ask /\
  agent_action (local_request "policy.Notify" "dom0" (notify_message "deny" "qubes.A" "+" "work" "a<b")) =
    Show "Denied <b>qubes.A</b> from <b>work</b> to <b>a&lt;b</b>" /\
  agent_action "policy.Ask dom0 {}" = Nothing /\
  loads " [ ""\u00e9\ud83d\ude00\/\n"" , -1.5e+3, {""a"": null, ""a"": true } ] " =
    Some (JList [JStr [233; 128512; 47; 10]; JNum "-1.5e+3"; JDict [([97], JNull); ([97], JTrue)]])%N /\
  loads "[1,]" = None /\ loads "01" = None /\ loads "[""a	b""]" = None /\
  dumps (JStr [233; 128512; 34; 127]%N) = """\u00e9\ud83d\ude00\""\u007f""".
Proof. vm_compute. repeat split; reflexivity. Qed.
