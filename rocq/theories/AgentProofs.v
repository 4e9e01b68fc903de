(** Proofs about messages from the agent *)
From Coq Require Import String Ascii List Bool Arith ZArith Lia.
From Verif Require Import Base Sanitize DaemonAgent SpecDaemon SpecAgent TokenProofs SanitizeProofs Props_Admin EvalSvc.
Import ListNotations.
Open Scope string_scope.
Open Scope list_scope.

Theorem header_spec v type len :
  sanitize_message_from_agent v type len = true <-> header_allowed v type len.
Proof.
  unfold sanitize_message_from_agent, MSG_TRIGGER_SERVICE, MSG_TRIGGER_SERVICE3, MSG_TRIGGER_SERVICE4,
    MSG_CONNECTION_TERMINATED, QREXEC_PROTOCOL_V3, QREXEC_PROTOCOL_V4, sizeof_trigger_service_params,
    sizeof_trigger_service_params3, sizeof_trigger_service_params4, sizeof_exec_params, MAX_SERVICE_NAME_LEN.
  split.
  - destruct (Z.eqb_spec type 528).
    { subst. destruct (Z.geb_spec v 3); [discriminate|]. intros H'. apply Z.eqb_eq in H'. subst. apply ha_trigger2; lia. }
    destruct (Z.eqb_spec type 530).
    { subst. destruct (Z.ltb_spec v 3); [discriminate|]. destruct (Z.leb_spec len 96); [discriminate|].
      intros H'. apply negb_true_iff in H'. rewrite Z.gtb_ltb in H'. apply Z.ltb_ge in H'. apply ha_trigger3; lia. }
    destruct (Z.eqb_spec type 531).
    { subst. destruct (Z.ltb_spec v 4); [discriminate|]. destruct (Z.leb_spec len 160); [discriminate|].
      intros H'. apply negb_true_iff in H'. rewrite Z.gtb_ltb in H'. apply Z.ltb_ge in H'. apply ha_trigger4; lia. }
    destruct (Z.eqb_spec type 529); [|discriminate]. intros H'. apply Z.eqb_eq in H'. subst. apply ha_terminated.
  - intros H. inversion H; subst; simpl.
    + destruct (Z.geb_spec v 3); [lia|reflexivity].
    + destruct (Z.ltb_spec v 3); [lia|]. destruct (Z.leb_spec len 96); [lia|].
      rewrite Z.gtb_ltb. destruct (Z.ltb_spec 65000 (len - 96)); [lia|reflexivity].
    + destruct (Z.ltb_spec v 4); [lia|]. destruct (Z.leb_spec len 160); [lia|].
      rewrite Z.gtb_ltb. destruct (Z.ltb_spec 65000 (len - 160)); [lia|reflexivity].
    + reflexivity.
Qed.

Theorem hello_spec type len theirs a :
  handle_agent_hello type len theirs = Some a <-> type = 768%Z /\ len = 4%Z /\ agreed theirs a.
Proof.
  unfold handle_agent_hello, MSG_HELLO, sizeof_peer_info, QREXEC_PROTOCOL_VERSION, QREXEC_AGENT_MIN_VERSION,
    QREXEC_PROTOCOL_V2, agreed.
  destruct (Z.eqb_spec type 768), (Z.eqb_spec len 4); cbn [andb negb];
    try (split; [discriminate|intros (? & ? & _); contradiction]).
  destruct (Z.ltb_spec theirs 4); cbn [Z.ltb].
  - destruct (Z.ltb_spec theirs 2).
    + split; [discriminate|lia].
    + split; [intros H'; inversion H'; subst; repeat split; lia|]. intros (_ & _ & _ & ->). f_equal. lia.
  - destruct (Z.ltb_spec 4 2); [lia|].
    split; [intros H'; inversion H'; subst; repeat split; lia|]. intros (_ & _ & _ & ->). f_equal. lia.
Qed.

Lemma all_nul_spec s : all_nul s = true <-> exists k, s = nuls k.
Proof.
  induction s as [|c s IH]; cbn [all_nul].
  - split; auto. exists 0. reflexivity.
  - destruct (Ascii.eqb c NUL) eqn:E.
    + apply Ascii.eqb_eq in E. subst. rewrite IH. split.
      * intros (k & ->). exists (S k). reflexivity.
      * intros ([|k] & H); [discriminate|]. cbn [nuls] in H. exists k. congruence.
    + split; [discriminate|]. intros ([|k] & H); [discriminate|]. cbn [nuls] in H.
      assert (c = NUL) by congruence. subst. discriminate E.
Qed.

Lemma ident_char_spec c : ident_char c = has_char c (name_alphabet +++ " ").
Proof. destruct c as [[] [] [] [] [] [] [] []]; vm_compute; reflexivity. Qed.

Theorem ident_spec raw : validate_request_id raw = true <-> exists ident, request_ident raw ident.
Proof.
  induction raw as [|c raw IH]; cbn [validate_request_id].
  - split; [discriminate|]. intros (w & _ & k & H). destruct w; discriminate.
  - destruct (ident_char c) eqn:Ec.
    + rewrite ident_char_spec in Ec. rewrite IH. split.
      * intros (w & Hw & k & ->). exists (String c w). split; [apply spelled_cons; auto|]. exists k. reflexivity.
      * intros (w & Hw & k & E). destruct w as [|d w].
        -- change (String c raw = String NUL (nuls k)) in E. assert (c = NUL) by congruence. subst. discriminate Ec.
        -- cbn [String.append] in E. inversion E; subst. apply (proj1 (spelled_cons _ _ _)) in Hw as [_ Hw].
           exists w. split; auto. exists k. reflexivity.
    + destruct (Ascii.eqb c NUL) eqn:En.
      * apply Ascii.eqb_eq in En. subst. rewrite all_nul_spec. split.
        -- intros (k & ->). exists "". split; [intros x Hx; discriminate Hx|]. exists k. reflexivity.
        -- intros (w & Hw & k & E). destruct w as [|d w].
           ++ change (String NUL raw = String NUL (nuls k)) in E. exists k. congruence.
           ++ cbn [String.append] in E. assert (d = NUL) by congruence. subst d.
              apply (proj1 (spelled_cons _ _ _)) in Hw as [Hw _]. discriminate Hw.
      * split; [discriminate|]. intros (w & Hw & k & E). destruct w as [|d w].
        -- change (String c raw = String NUL (nuls k)) in E. assert (c = NUL) by congruence. subst. discriminate En.
        -- cbn [String.append] in E. assert (d = c) by congruence. subst d.
           apply (proj1 (spelled_cons _ _ _)) in Hw as [Hw _]. rewrite <- ident_char_spec in Hw. congruence.
Qed.

Lemma cstr_app a b : no_nul a -> cstr (a +++ b) = a +++ cstr b.
Proof.
  unfold no_nul. induction a as [|c a IH]; [reflexivity|]. cbn [has_char String.append cstr]. intros H.
  apply orb_false_iff in H as [H1 H2]. rewrite Ascii.eqb_sym, H1, IH; auto.
Qed.
Lemma cstr_nul b : cstr (String NUL b) = "".
Proof. reflexivity. Qed.
Lemma cstr_prefix s : exists rest, s = cstr s +++ rest /\ (rest = "" \/ exists r, rest = String NUL r).
Proof.
  induction s as [|c s (rest & E & H)]; [exists ""; auto|]. cbn [cstr].
  destruct (Ascii.eqb c NUL) eqn:En.
  - apply Ascii.eqb_eq in En. subst. exists (String NUL s). split; [reflexivity|]. eauto.
  - exists rest. cbn [String.append]. split; [congruence|auto].
Qed.
Lemma nuls_cstr k : cstr (nuls (S k)) = "".
Proof. reflexivity. Qed.

Lemma request_ident_cstr raw ident : request_ident raw ident -> ident = cstr raw.
Proof.
  intros (Hs & k & ->). rewrite cstr_app; [|eapply spelled_no_nul; [|exact Hs]; reflexivity].
  rewrite nuls_cstr, app_nil_s. reflexivity.
Qed.

Lemma split_last s : s <> "" -> exists a c, s = a +++ str1 c /\ String.length a = String.length s - 1.
Proof.
  intros H. destruct (DaemonProofs.last_char s H) as (a & c & ->). exists a, c. split; auto.
  rewrite length_app_s. cbn. lia.
Qed.

Lemma ensure_nul_last a c : ensure_nul (a +++ str1 c) = a +++ str1 NUL.
Proof.
  unfold ensure_nul. rewrite length_app_s. cbn [String.length str1].
  replace (String.length a + 1 - 1) with (String.length a) by lia.
  rewrite DaemonProofs.stake_len_app. reflexivity.
Qed.

Theorem field_spec raw : raw <> "" -> text_in raw (cstr (ensure_nul raw)).
Proof.
  intros H. destruct (split_last raw H) as (a & c & -> & _). rewrite ensure_nul_last.
  destruct (cstr_prefix a) as (rest & E & Hr).
  assert (X : cstr (a +++ str1 NUL) = cstr a).
  { rewrite E at 1. rewrite app_assoc_s, cstr_app by apply cstr_no_nul.
    destruct Hr as [->|(r & ->)]; [change (cstr ("" +++ str1 NUL)) with ""|change (cstr (String NUL r +++ str1 NUL)) with ""]; rewrite app_nil_s; reflexivity. }
  rewrite X. exists (rest +++ str1 c). rewrite <- app_assoc_s, <- E. split; [reflexivity|].
  split; [apply cstr_no_nul|]. destruct Hr as [->|(r & ->)]; [right; reflexivity|left; reflexivity].
Qed.

Lemma starts_nul s : starts (str1 NUL) s = true <-> exists r, s = String NUL r.
Proof.
  split.
  - intros H. apply starts_spec in H as (r & ->). exists r. reflexivity.
  - intros (r & ->). reflexivity.
Qed.

Lemma text_in_fun raw a b : text_in raw a -> text_in raw b -> a = b.
Proof.
  intros (ra & Ea & Na & Ha) (rb & Eb & Nb & Hb). rewrite Ea in Eb. clear Ea raw.
  revert b Eb Nb. induction a as [|c a IH]; intros b Eb Nb.
  - destruct b as [|d b]; auto. cbn [String.append] in Eb.
    destruct Ha as [Ha|Ha].
    + apply starts_nul in Ha as (r & ->). inversion Eb; subst d. discriminate Nb.
    + assert (L : String.length ra = String.length (String d (b +++ rb))) by congruence.
      cbn [String.length] in L. rewrite length_app_s in L.
      destruct Hb as [Hb|Hb]; [apply starts_nul in Hb as (r & ->); cbn [String.length] in L|]; lia.
  - destruct b as [|d b].
    + cbn [String.append] in Eb. destruct Hb as [Hb|Hb].
      * apply starts_nul in Hb as (r & ->). inversion Eb; subst c. discriminate Na.
      * assert (L : String.length (String c (a +++ ra)) = String.length rb) by congruence.
        cbn [String.length] in L. rewrite length_app_s in L.
        destruct Ha as [Ha|Ha]; [apply starts_nul in Ha as (r & ->); cbn [String.length] in L|]; lia.
    + cbn [String.append] in Eb. inversion Eb; subst. f_equal. unfold no_nul in *. cbn [has_char] in *.
      apply orb_false_iff in Na as [_ Na]. apply orb_false_iff in Nb as [_ Nb]. apply IH; auto.
Qed.

Lemma field_clean raw extra : raw <> "" ->
  exists t, text_in raw t /\ cleaned extra t (cstr (c_sanitize_name (ensure_nul raw) extra)).
Proof.
  intros H. exists (cstr (ensure_nul raw)). split; [apply field_spec; auto|]. apply c_sanitize_cleaned.
Qed.
Lemma field_clean_iff raw extra t0 t : raw <> "" -> text_in raw t0 -> cleaned extra t0 t ->
  t = cstr (c_sanitize_name (ensure_nul raw) extra).
Proof.
  intros H T C. destruct (field_clean raw extra H) as (t' & T' & C').
  rewrite (text_in_fun _ _ _ T T') in C. eapply cleaned_fun; eauto.
Qed.

Theorem service_name_spec raw used :
  validate_service_name raw = Some used <-> service_name (cstr raw) used.
Proof.
  unfold validate_service_name, service_name. pose proof (c_sanitize_cleaned "+" raw) as C.
  destruct (cstr raw) as [|c s] eqn:E.
  - split; [discriminate|]. intros (H & _). congruence.
  - cbn [starts]. change ("+" : string) with (String "+" "").
    destruct (Ascii.eqb c "+") eqn:Ep.
    + split; [discriminate|]. intros (_ & H & _). cbn [starts] in H. rewrite Ascii.eqb_sym, Ep in H. destruct s; discriminate H.
    + split.
      * intros H. inversion H; subst. repeat split; [discriminate| |exact C].
        cbn [starts]. rewrite Ascii.eqb_sym, Ep. reflexivity.
      * intros (_ & _ & H). f_equal. eapply cleaned_fun; eauto.
Qed.

Lemma take_drop n s : s = stake n s +++ sdrop n s.
Proof. revert n. induction s as [|c s IH]; intros [|n]; cbn; auto. rewrite <- IH. reflexivity. Qed.
Lemma sdrop_length n s : String.length (sdrop n s) = String.length s - n.
Proof. revert n. induction s as [|c s IH]; intros [|n]; cbn; auto. Qed.
Lemma stake_exact n s : n <= String.length s -> String.length (stake n s) = n.
Proof. intros H. rewrite stake_length. lia. Qed.
Lemma len_ne n s : String.length s = S n -> s <> "".
Proof. intros H ->. discriminate. Qed.
Lemma stake_app_eq a b n : String.length a = n -> stake n (a +++ b) = a.
Proof. intros <-. apply DaemonProofs.stake_len_app. Qed.
Lemma sdrop_app_eq a b n : String.length a = n -> sdrop n (a +++ b) = b.
Proof. intros <-. apply sdrop_app. Qed.
Lemma sdrop_sdrop a b s : sdrop a (sdrop b s) = sdrop (b + a) s.
Proof. revert a b. induction s as [|c s IH]; intros a [|b]; cbn [sdrop Nat.add]; auto; destruct a; reflexivity. Qed.

Lemma app_len_inj a b x y : String.length a = String.length b -> a +++ x = b +++ y -> a = b.
Proof.
  revert b. induction a as [|c a IH]; intros [|d b] L E; try discriminate; auto.
  cbn [String.append] in E. inversion E. f_equal. apply IH; auto.
Qed.

Lemma nul_name name : name <> "" ->
  String.eqb (sdrop (String.length name - 1) name) (str1 NUL) = true /\
  Nat.eqb (String.length (cstr name)) (String.length name - 1) = true <->
  exists nm, name = nm +++ str1 NUL /\ no_nul nm.
Proof.
  intros Hn. destruct (split_last name Hn) as (a & c & -> & L).
  rewrite <- L, sdrop_app. rewrite String.eqb_eq, Nat.eqb_eq. split.
  - intros [H1 H2]. assert (c = NUL) by (unfold str1 in H1; congruence). subst. exists a. split; auto.
    destruct (cstr_prefix (a +++ str1 NUL)) as (rest & E & _).
    assert (X : a = cstr (a +++ str1 NUL)) by (eapply app_len_inj; [symmetry; exact H2|exact E]).
    unfold no_nul. rewrite X. apply cstr_no_nul.
  - intros (nm & E & N). assert (nm = a /\ c = NUL) as [-> ->].
    { assert (LL : String.length nm = String.length a).
      { apply (f_equal String.length) in E. rewrite !length_app_s in E. cbn in E. lia. }
      pose proof (app_len_inj _ _ _ _ (eq_sym LL) E) as X. subst nm. apply app_inj_l_s in E. unfold str1 in E. split; congruence. }
    rewrite cstr_app by exact N. change (cstr (str1 NUL)) with "". rewrite app_nil_s. auto.
Qed.

Lemma trigger_spec src tgt raw name rs target service ident :
  tgt <> "" -> name <> "" -> (forall s, src = Some s -> s <> "") ->
  trigger src tgt raw name = ServiceCall rs target service ident <->
  exists nm t0, name = nm +++ str1 NUL /\ no_nul nm /\ request_ident raw ident /\ service_name nm service /\
    text_in tgt t0 /\ cleaned "@:" t0 target /\
    match src, rs with
    | None, None => True
    | Some s, Some source => exists s0, text_in s s0 /\ cleaned "@:" s0 source
    | _, _ => False
    end.
Proof.
  intros Ht Hn Hs. unfold trigger. pose proof (nul_name name Hn) as NN.
  split.
  - destruct (validate_request_id raw) eqn:Ei; [|discriminate]. cbn [negb].
    destruct (String.eqb (sdrop (String.length name - 1) name) (str1 NUL)); [|discriminate]. cbn [negb].
    destruct (Nat.eqb (String.length (cstr name)) (String.length name - 1)); [|discriminate]. cbn [negb].
    destruct (proj1 NN (conj eq_refl eq_refl)) as (nm & En & Nn).
    destruct (validate_service_name name) as [sv|] eqn:Ev; [|discriminate]. intros H. inversion H; subst.
    apply service_name_spec in Ev.
    assert (C : cstr (nm +++ str1 NUL) = nm) by (rewrite cstr_app by exact Nn; apply app_nil_s).
    rewrite C in Ev. apply ident_spec in Ei as (w & Hw). pose proof (request_ident_cstr _ _ Hw). subst w.
    destruct (field_clean tgt "@:" Ht) as (t0 & T & CT).
    exists nm, t0. repeat (split; [assumption || reflexivity|]).
    destruct src as [s|]; cbn [option_map]; auto. apply field_clean. apply Hs. reflexivity.
  - intros (nm & t0 & E & N & Hi & Hv & T & CT & Hsrc).
    assert (V : validate_request_id raw = true) by (apply ident_spec; eauto). rewrite V. cbn [negb].
    destruct (proj2 NN (ex_intro _ nm (conj E N))) as [H1 H2]. rewrite H1, H2. cbn [negb].
    assert (C : cstr name = nm) by (rewrite E, cstr_app by exact N; apply app_nil_s).
    assert (Ev : validate_service_name name = Some service) by (apply service_name_spec; rewrite C; exact Hv).
    rewrite Ev, (request_ident_cstr _ _ Hi), (field_clean_iff tgt "@:" t0 target) by auto.
    f_equal. destruct src as [s|], rs as [r|]; try contradiction; auto. cbn [option_map]. f_equal.
    destruct Hsrc as (s0 & S1 & S2). symmetry. eapply field_clean_iff; eauto.
Qed.

Lemma clean_again n0 m used : cleaned "+" n0 m -> service_name m used <-> service_name n0 used.
Proof.
  intros C. unfold service_name. pose proof (cleaned_spelled _ _ _ C) as Sp.
  assert (E0 : m = "" <-> n0 = "") by (inversion C; subst; split; congruence || discriminate).
  assert (E1 : starts "+" m = starts "+" n0).
  { inversion C; subst; auto. cbn [starts].
    assert (Ascii.eqb "+" c = false). { destruct (Ascii.eqb "+" c) eqn:E; auto. apply Ascii.eqb_eq in E. subst c. discriminate H. }
    change ("+":string) with (String "+" ""). cbn [starts]. rewrite H1. reflexivity. }
  rewrite E1. assert (E2 : cleaned "+" m used <-> cleaned "+" n0 used).
  { split; intros H.
    - assert (used = m) by (eapply cleaned_fun; [exact H|apply cleaned_self; exact Sp]). subst. exact C.
    - assert (used = m) by (eapply cleaned_fun; eauto). subst. apply cleaned_self. exact Sp. }
  rewrite E2. tauto.
Qed.

Theorem service_message_spec v type len body rs target service ident :
  handle_message_from_agent v type len body = ServiceCall rs target service ident <->
  len = Z.of_nat (String.length body) /\ service_message v type body rs target service ident.
Proof.
  unfold handle_message_from_agent. split.
  - destruct (sanitize_message_from_agent v type len) eqn:Eh; [|discriminate]. cbn [negb].
    destruct (Z.eqb_spec (Z.of_nat (String.length body)) len) as [El|]; [|discriminate]. cbn [negb].
    apply header_spec in Eh. intros H. split; [congruence|].
    inversion Eh; subst type; cbn [Z.eqb Pos.eqb MSG_TRIGGER_SERVICE MSG_TRIGGER_SERVICE3 MSG_TRIGGER_SERVICE4] in H.
    + assert (LB : String.length body = 128) by lia.
      assert (L1 : String.length (stake 64 body) = 64) by (apply stake_exact; lia).
      assert (L2 : String.length (stake 32 (sdrop 64 body)) = 32) by (apply stake_exact; rewrite sdrop_length; lia).
      assert (L3 : String.length (sdrop 96 body) = 32) by (rewrite sdrop_length; lia).
      assert (L4 : stake 32 (sdrop 96 body) = sdrop 96 body) by (apply stake_all; lia).
      change MSG_TRIGGER_SERVICE with 528%Z in H. cbn [Z.eqb Pos.eqb] in H. rewrite L4 in H.
      destruct (validate_request_id (sdrop 96 body)) eqn:Ei; [|discriminate]. cbn [negb] in H.
      destruct (validate_service_name _) as [sv|] eqn:Ev; [|discriminate]. inversion H; subst. clear H.
      apply service_name_spec in Ev. apply ident_spec in Ei as (w & Hw).
      destruct (field_clean (stake 64 body) "+" (len_ne _ _ L1)) as (n0 & T1 & C1).
      destruct (field_clean (stake 32 (sdrop 64 body)) "@:" (len_ne _ _ L2)) as (t0 & T2 & C2).
      apply (clean_again _ _ _ C1) in Ev.
      pose proof (request_ident_cstr _ _ Hw). subst w.
      replace body with (stake 64 body +++ stake 32 (sdrop 64 body) +++ sdrop 96 body) at 1.
      2:{ change 96 with (64 + 32). rewrite <- sdrop_sdrop, <- take_drop, <- take_drop. reflexivity. }
      eapply sm_2; eauto.
    + change MSG_TRIGGER_SERVICE with 528%Z in H. change MSG_TRIGGER_SERVICE3 with 530%Z in H. cbn [Z.eqb Pos.eqb] in H.
      assert (LB : (96 < Z.of_nat (String.length body) <= 96 + 65000)%Z) by lia.
      assert (L1 : String.length (stake 64 body) = 64) by (apply stake_exact; lia).
      assert (L2 : String.length (stake 32 (sdrop 64 body)) = 32) by (apply stake_exact; rewrite sdrop_length; lia).
      assert (L3 : String.length (sdrop 96 body) = String.length body - 96) by apply sdrop_length.
      apply trigger_spec in H.
      2:{ eapply len_ne; eauto. }
      2:{ intros E. rewrite E in L3. cbn in L3. lia. }
      2:{ intros s E; discriminate. }
      destruct H as (nm & t0 & E & N & Hi & Hv & T & CT & Hs). destruct rs; [contradiction|].
      replace body with (stake 64 body +++ stake 32 (sdrop 64 body) +++ sdrop 96 body) at 1.
      2:{ change 96 with (64 + 32). rewrite <- sdrop_sdrop, <- take_drop, <- take_drop. reflexivity. }
      rewrite E in *. eapply sm_3; eauto. rewrite length_app_s in L3. cbn [String.length str1] in L3. lia.
    + change MSG_TRIGGER_SERVICE with 528%Z in H. change MSG_TRIGGER_SERVICE3 with 530%Z in H.
      change MSG_TRIGGER_SERVICE4 with 531%Z in H. cbn [Z.eqb Pos.eqb] in H.
      assert (LB : (160 < Z.of_nat (String.length body) <= 160 + 65000)%Z) by lia.
      assert (L0 : String.length (stake 64 body) = 64) by (apply stake_exact; lia).
      assert (L1 : String.length (stake 64 (sdrop 64 body)) = 64) by (apply stake_exact; rewrite sdrop_length; lia).
      assert (L2 : String.length (stake 32 (sdrop 128 body)) = 32) by (apply stake_exact; rewrite sdrop_length; lia).
      assert (L3 : String.length (sdrop 160 body) = String.length body - 160) by apply sdrop_length.
      apply trigger_spec in H.
      2:{ eapply len_ne; eauto. }
      2:{ intros E. rewrite E in L3. cbn in L3. lia. }
      2:{ intros s E. assert (s = stake 64 body) by congruence. subst s. eapply len_ne; eauto. }
      destruct H as (nm & t0 & E & N & Hi & Hv & T & CT & Hs). destruct rs as [r|]; [|contradiction].
      destruct Hs as (s0 & S1 & S2).
      replace body with (stake 64 body +++ stake 64 (sdrop 64 body) +++ stake 32 (sdrop 128 body) +++ sdrop 160 body) at 1.
      2:{ change 160 with (128 + 32). rewrite <- (sdrop_sdrop 32 128), <- take_drop. change 128 with (64 + 64).
          rewrite <- sdrop_sdrop, <- take_drop, <- take_drop. reflexivity. }
      rewrite E in *. eapply sm_4; eauto. rewrite length_app_s in L3. cbn [String.length str1] in L3. lia.
    + change MSG_TRIGGER_SERVICE with 528%Z in H. change MSG_TRIGGER_SERVICE3 with 530%Z in H.
      change MSG_TRIGGER_SERVICE4 with 531%Z in H. cbn [Z.eqb Pos.eqb] in H.
      unfold handle_connection_terminated in H. destruct (_ || _)%bool; discriminate.
  - intros [-> M]. rewrite Z.eqb_refl. cbn [negb].
    inversion M; subst.
    + rewrite (proj2 (header_spec v 528 _)) by
        (replace (Z.of_nat _) with 128%Z by (rewrite !length_app_s; lia); apply ha_trigger2; auto).
      cbn [negb]. change MSG_TRIGGER_SERVICE with 528%Z. cbn [Z.eqb Pos.eqb].
      rewrite (stake_app_eq name _ 64) by auto. rewrite (sdrop_app_eq name _ 64) by auto.
      rewrite (stake_app_eq tgt _ 32) by auto.
      replace (sdrop 96 (name +++ tgt +++ raw)) with raw.
      2:{ rewrite <- app_assoc_s. rewrite (sdrop_app_eq (name +++ tgt) raw 96); auto. rewrite length_app_s. lia. }
      rewrite stake_all by lia.
      rewrite (proj2 (ident_spec raw)) by eauto. cbn [negb].
      assert (Nn : name <> "") by (eapply len_ne; eauto). assert (Nt : tgt <> "") by (eapply len_ne; eauto).
      destruct (field_clean name "+" Nn) as (n1 & T1 & C1).
      rewrite (text_in_fun _ _ _ T1 H4) in C1.
      rewrite (proj2 (service_name_spec _ service)) by (apply (clean_again _ _ _ C1); auto).
      rewrite (request_ident_cstr _ _ H3), <- (field_clean_iff tgt "@:" t0 target) by auto. reflexivity.
    + rewrite (proj2 (header_spec v 530 _)) by (rewrite !length_app_s; cbn [String.length str1]; apply ha_trigger3; lia).
      cbn [negb]. change MSG_TRIGGER_SERVICE with 528%Z. change MSG_TRIGGER_SERVICE3 with 530%Z. cbn [Z.eqb Pos.eqb].
      rewrite (stake_app_eq tgt _ 64), (sdrop_app_eq tgt _ 64), (stake_app_eq raw _ 32) by auto.
      replace (sdrop 96 (tgt +++ raw +++ name +++ str1 NUL)) with (name +++ str1 NUL).
      2:{ rewrite <- (app_assoc_s tgt raw). rewrite (sdrop_app_eq (tgt +++ raw) _ 96); auto. rewrite length_app_s. lia. }
      apply trigger_spec; [eapply len_ne; eauto|destruct name; discriminate|intros s E; discriminate|].
      exists name, t0. repeat (split; [assumption || reflexivity|]). split; auto.
    + rewrite (proj2 (header_spec v 531 _)) by (rewrite !length_app_s; cbn [String.length str1]; apply ha_trigger4; lia).
      cbn [negb]. change MSG_TRIGGER_SERVICE with 528%Z. change MSG_TRIGGER_SERVICE3 with 530%Z.
      change MSG_TRIGGER_SERVICE4 with 531%Z. cbn [Z.eqb Pos.eqb].
      rewrite (stake_app_eq src _ 64), (sdrop_app_eq src _ 64), (stake_app_eq tgt _ 64) by auto.
      replace (sdrop 128 (src +++ tgt +++ raw +++ name +++ str1 NUL)) with (raw +++ name +++ str1 NUL).
      2:{ rewrite <- (app_assoc_s src tgt). rewrite (sdrop_app_eq (src +++ tgt) _ 128); auto. rewrite length_app_s. lia. }
      replace (sdrop 160 (src +++ tgt +++ raw +++ name +++ str1 NUL)) with (name +++ str1 NUL).
      2:{ rewrite <- (app_assoc_s tgt raw), <- (app_assoc_s src). rewrite (sdrop_app_eq (src +++ tgt +++ raw) _ 160); auto.
          rewrite !length_app_s. lia. }
      rewrite (stake_app_eq raw _ 32) by auto.
      apply trigger_spec; [eapply len_ne; eauto|destruct name; discriminate| |].
      { intros s E. assert (s = src) by congruence. subst s. eapply len_ne; eauto. }
      exists name, t0. repeat (split; [assumption || reflexivity|]). exists s0. split; assumption.
Qed.
