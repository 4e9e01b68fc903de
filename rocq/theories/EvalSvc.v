(** Proofs about policy.EvalSimple and policy.EvalGUI *)
From Coq Require Import String Ascii List Bool Arith Lia.
From Verif Require Import Base SysInfo Token Rule Policy PolicyExec Sanitize PolicyDaemon
  SpecPolicy SpecDaemon TokenProofs SanitizeProofs Props_Admin DaemonProofs.
Import ListNotations.
Open Scope string_scope.
Open Scope nat_scope.
Open Scope list_scope.

Lemma stake_app_long n a b : n <= String.length a -> stake n (a +++ b) = stake n a.
Proof.
  revert n. induction a as [|c a IH]; intros [|n] H; cbn [String.append stake]; auto; simpl in H; [lia|].
  rewrite IH by lia. reflexivity.
Qed.
Lemma stake_app_short n a b : String.length a <= n -> stake n (a +++ b) = a +++ stake (n - String.length a) b.
Proof.
  revert n. induction a as [|c a IH]; intros n H.
  - cbn. rewrite Nat.sub_0_r. reflexivity.
  - destruct n as [|n]; simpl in H; [lia|]. cbn [String.append stake String.length]. rewrite IH by lia. reflexivity.
Qed.
Lemma stake_all n a : String.length a <= n -> stake n a = a.
Proof. intros H. rewrite <- (app_nil_s a) at 1. rewrite stake_app_short by auto. destruct (n - String.length a); rewrite app_nil_s; reflexivity. Qed.
Lemma stake_zero s : stake 0 s = "".
Proof. destruct s; reflexivity. Qed.
Lemma stake_length n s : String.length (stake n s) = Nat.min n (String.length s).
Proof. revert n. induction s as [|c s IH]; intros [|n]; cbn [stake String.length]; auto. rewrite IH. lia. Qed.

Theorem read_up_to chunks n : Forall (fun c => c <> "") chunks ->
  read_all_up_to_limit chunks n = stake n (concat_text chunks).
Proof.
  intros H. revert n. induction H as [|c l Hc Hl IH]; intros n; cbn [read_all_up_to_limit concat_text].
  - destruct n; reflexivity.
  - destruct (n =? 0) eqn:E0.
    { apply Nat.eqb_eq in E0. subst. rewrite stake_zero. reflexivity. }
    destruct (String.eqb c "") eqn:Ec; [apply String.eqb_eq in Ec; contradiction|].
    rewrite IH. destruct (le_lt_dec (String.length c) n) as [L|L].
    + rewrite stake_app_short by auto. rewrite stake_all by auto. reflexivity.
    + rewrite stake_app_long by lia. replace (n - String.length c) with 0 by lia.
      rewrite stake_zero, app_nil_s. reflexivity.
Qed.

Lemma has_tag_spec i n t : has_tag i n t = true <-> tagged i n t.
Proof.
  unfold has_tag, tagged. destruct (dget i n) as [d|].
  - rewrite smem_In. split; [eauto|]. intros (d' & E & H). congruence.
  - split; [discriminate|]. intros (d' & E & _). discriminate.
Qed.

Lemma strict_domain s : (exists r, sanitize_domain_name s true = Ok r) <-> spelled "@" s.
Proof.
  unfold sanitize_domain_name, py_sanitize_name. cbn [andb].
  pose proof (py_map_cleaned "" s) as C.
  destruct (String.eqb s (smap (py_sanitize_char "") s)) eqn:E; cbn [negb].
  - apply String.eqb_eq in E. rewrite <- E in C. split; [|eauto]. intros _. apply cleaned_self. exact C.
  - split; [intros (r & H); discriminate|]. intros H. apply (proj2 (cleaned_self "@" s)) in H.
    assert (X := cleaned_fun _ _ _ _ C H). rewrite X, eqb_refl_s in E. discriminate.
Qed.

(** a just-evaluate request sends no message *)
Lemma run_allow_quiet q a : snd (run_allow AK_JustEvaluate q a) = [].
Proof. reflexivity. Qed.
Theorem evaluation_quiet policy sysinfo agent source target service reqsrc :
  snd (handle_request policy sysinfo agent source target service true true reqsrc) = [].
Proof.
  unfold handle_request. destruct sysinfo as [i|]; [|reflexivity].
  destruct (split_service service) as [sv ar].
  set (x := match policy with Ok rules => _ | Err e => _ end).
  assert (Hx : snd x = []).
  { unfold x. destruct policy as [rules|e]; [|reflexivity].
    destruct (make_request i sv ar source target reqsrc) as [q|e]; [|reflexivity].
    destruct (evaluate rules q) as [[a|k]|e]; [reflexivity| |reflexivity].
    cbn [run_resolution ask_type allow_type run_ask]. unfold run_response.
    destruct (handle_user_response k true (tok_str (q_target q))); reflexivity. }
  clearbody x. destruct x as [[s0|e] evs0]; cbn [snd] in Hx; subst.
  - reflexivity.
  - destruct e; cbn [is_access_denied exn_notify andb negb]; rewrite ?andb_false_r; reflexivity.
Qed.

Lemma split1_none c s : has_char c s = false -> split1 c s = None.
Proof. apply split1_None. Qed.
Lemma split1_some c a b : has_char c a = false -> split1 c (a +++ String c b) = Some (a, b).
Proof. intros H. apply split1_spec. auto. Qed.

Lemma has_char_first c a b x y : has_char c a = false -> has_char c x = false ->
  a +++ String c b = x +++ String c y -> a = x /\ b = y.
Proof.
  intros Ha Hx E. assert (H := split1_some c a b Ha). rewrite E, (split1_some c x y Hx) in H.
  inversion H. auto.
Qed.

(** the payload parser *)
Lemma payload_spec data source target :
  (split1 NUL (stake 96 data) = Some (source, target) /\ String.length target <= 63 /\ String.length source <= 31 /\
   has_char NUL target = false) <->
  (data = source +++ str1 NUL +++ target /\ has_char NUL source = false /\ has_char NUL target = false /\
   String.length target <= 63 /\ String.length source <= 31).
Proof.
  split.
  - intros (H & L1 & L2 & N). apply split1_spec in H as [E Hs].
    assert (LL : String.length (stake 96 data) <= 95).
    { rewrite E, length_app_s. cbn [String.length]. lia. }
    rewrite stake_length in LL.
    rewrite stake_all in E by lia. rewrite E. repeat split; auto.
  - intros (E & Hs & Ht & L1 & L2).
    assert (LL : String.length data <= 96).
    { rewrite E, !length_app_s. cbn [String.length str1]. lia. }
    rewrite stake_all by exact LL. repeat split; auto. rewrite E. apply split1_some. auto.
Qed.

Theorem policy_eval policy sysinfo agent gui remote queried data w evs :
  qrexec_policy_eval policy sysinfo agent gui remote queried (stake 96 data) = (Some w, evs) <->
  exists i service source target s,
    sysinfo = Some i /\ queried = Some service /\ service <> "" /\ starts "+" service = false /\ ascii_text service /\
    data = source +++ str1 NUL +++ target /\
    (spelled "@" source /\ 1 <= String.length source <= 31) /\
    (spelled "@" target /\ 1 <= String.length target <= 63) /\
    (gui = true -> tagged i source ("guivm-" +++ remote) /\ tagged i target ("guivm-" +++ remote)) /\
    handle_request policy (Some i) agent source target service true true "" = (Ok s, evs) /\ w = s +++ nl.
Proof.
  unfold qrexec_policy_eval. split.
  - destruct queried as [service|]; [|discriminate].
    destruct (String.eqb service "") eqn:E0; [discriminate|].
    destruct (starts "+" service) eqn:E1; [discriminate|]. cbn [orb].
    destruct (split1 NUL (stake 96 data)) as [[source target]|] eqn:Es; [|discriminate].
    destruct ((1 <=? String.length target) && (String.length target <=? 63)) eqn:L1; [|discriminate].
    destruct ((1 <=? String.length source) && (String.length source <=? 31)) eqn:L2; [|discriminate].
    cbn [negb].
    destruct (is_ascii7 source && is_ascii7 target); [|discriminate]. cbn [negb].
    destruct (sanitize_domain_name source true) as [r1|] eqn:D1; [|discriminate].
    destruct (sanitize_domain_name target true) as [r2|] eqn:D2; [|discriminate].
    destruct sysinfo as [i|]; [|discriminate].
    destruct (gui && _) eqn:G; [discriminate|].
    destruct (is_ascii7 service) eqn:A; [|discriminate]. cbn [negb].
    destruct (handle_request _ _ _ _ _ _ _ _ _) as [[s|e] evs0] eqn:HR; [|discriminate].
    destruct (is_ascii7 s); [|discriminate]. intros H. inversion H; subst.
    apply andb_true_iff in L1 as [L1 L1']. apply andb_true_iff in L2 as [L2 L2'].
    apply Nat.leb_le in L1, L1', L2, L2'.
    assert (S1 : spelled "@" source) by (apply strict_domain; eauto).
    assert (S2 : spelled "@" target) by (apply strict_domain; eauto).
    assert (N2 : has_char NUL target = false) by (eapply spelled_no_nul; [|exact S2]; reflexivity).
    exists i, service, source, target, s.
    apply String.eqb_neq in E0.
    refine (conj eq_refl (conj eq_refl (conj E0 (conj E1 (conj _ (conj _ (conj (conj S1 (conj L2 L2'))
      (conj (conj S2 (conj L1 L1')) (conj _ (conj HR eq_refl)))))))))).
    + apply ascii7_spec; auto.
    + apply (proj1 (payload_spec data source target)). auto.
    + intros Hg. subst gui. cbn [andb] in G. apply negb_false_iff in G. apply andb_true_iff in G as [G1 G2].
      split; apply has_tag_spec; auto.
  - intros (i & service & source & target & s & -> & -> & E0 & E1 & A & E & (S1 & L1 & L1') & (S2 & L2 & L2') & G & HR & ->).
    assert (N1 : has_char NUL source = false) by (eapply spelled_no_nul; [|exact S1]; reflexivity).
    assert (N2 : has_char NUL target = false) by (eapply spelled_no_nul; [|exact S2]; reflexivity).
    rewrite (proj2 (String.eqb_neq service "") E0), E1. cbn [orb].
    destruct (proj2 (payload_spec data source target)) as (-> & _); auto.
    rewrite !(proj2 (Nat.leb_le _ _)) by auto. cbn [andb negb].
    assert (A1 : ascii_text source) by (eapply spelled_ascii; [|exact S1]; apply ascii7_spec; reflexivity).
    assert (A2 : ascii_text target) by (eapply spelled_ascii; [|exact S2]; apply ascii7_spec; reflexivity).
    rewrite (proj2 (ascii7_spec _) A1), (proj2 (ascii7_spec _) A2). cbn [andb negb].
    destruct (proj2 (strict_domain source) S1) as (r1 & ->). destruct (proj2 (strict_domain target) S2) as (r2 & ->).
    assert (G' : gui && negb (has_tag i source ("guivm-" +++ remote) && has_tag i target ("guivm-" +++ remote)) = false).
    { destruct gui; auto. destruct (G eq_refl) as [G1 G2].
      rewrite (proj2 (has_tag_spec _ _ _) G1), (proj2 (has_tag_spec _ _ _) G2). reflexivity. }
    rewrite G', (proj2 (ascii7_spec _) A). cbn [negb]. rewrite HR.
    assert (Hs := answer_shape _ _ _ _ _ _ _ _ _ _ _ HR).
    destruct Hs as [->| ->]; reflexivity.
Qed.

Lemma read_buffered buffered pieces : Forall (fun c => c <> "") pieces ->
  read_all_up_to_limit (if String.eqb buffered "" then pieces else buffered :: pieces) 96 =
  stake 96 (buffered +++ concat_text pieces).
Proof.
  intros H. destruct (String.eqb buffered "") eqn:E.
  - apply String.eqb_eq in E. subst. apply read_up_to. auto.
  - apply String.eqb_neq in E. rewrite read_up_to by (constructor; auto). reflexivity.
Qed.

Theorem eval_connection policy sysinfo agent gui svc first pieces w evs :
  has_char " " svc = false -> has_char "+" svc = false ->
  header_complete first -> Forall (fun c => c <> "") pieces ->
  handle_qrexec_connection policy sysinfo agent gui svc first pieces = (Some w, evs) <->
  exists i remote queried source target s,
    sysinfo = Some i /\ eval_request svc first pieces remote queried source target /\
    (gui = true -> tagged i source ("guivm-" +++ remote) /\ tagged i target ("guivm-" +++ remote)) /\
    handle_request policy (Some i) agent source target queried true true "" = (Ok s, evs) /\ w = s +++ nl.
Proof.
  intros V1 V2 (cmd & b & Ef & Hcmd & Hb) Hp. unfold handle_qrexec_connection, extract_parameters.
  apply has_char_split in Hb as (meta & buffered & -> & Hm).
  change (" " +++ (meta +++ String NUL buffered)) with (String " " (meta +++ String NUL buffered)) in Ef.
  rewrite Ef, (split1_some " " cmd _ Hcmd).
  split.
  - destruct (split1 "+" cmd) as [[sv a]|] eqn:Ep.
    2:{ rewrite (split1_some NUL meta buffered Hm). 
        destruct (is_ascii7 _); [|discriminate]. destruct (String.eqb cmd svc); cbn [negb qrexec_policy_eval]; discriminate. }
    apply split1_spec in Ep as [-> Hsv]. rewrite (split1_some NUL meta buffered Hm).
    set (remote := match split1 " " meta with Some (r, _) => r | None => meta end).
    destruct (is_ascii7 remote) eqn:Ar; [|discriminate].
    destruct (String.eqb sv svc) eqn:Esv; [|discriminate]. cbn [negb]. apply String.eqb_eq in Esv. subst sv.
    rewrite read_buffered by auto. intros H. apply policy_eval in H as
      (i & q & source & target & s & -> & Eq & Q1 & Q2 & Q3 & Ed & S1 & S2 & G & HR & ->).
    inversion Eq; subst q. exists i, remote, a, source, target, s.
    rewrite has_char_app in Hcmd. apply orb_false_iff in Hcmd as [_ Hcmd]. cbn [has_char] in Hcmd.
    apply orb_false_iff in Hcmd as [_ Hcmd].
    assert (M : exists more, (more = "" \/ exists m, more = " " +++ m) /\ meta = remote +++ more /\ has_char " " remote = false).
    { unfold remote. destruct (split1 " " meta) as [[r m]|] eqn:E.
      - apply split1_spec in E as [-> Er]. exists (" " +++ m). eauto.
      - apply (proj1 (split1_None _ _)) in E. exists "". rewrite app_nil_s. auto. }
    destruct M as (more & M1 & M2 & M3). rewrite M2, has_char_app in Hm. apply orb_false_iff in Hm as [Hm1 Hm2].
    refine (conj eq_refl (conj _ (conj G (conj HR eq_refl)))). constructor; auto.
    + exists more. repeat split; auto. rewrite M2.
      change (String "+" a) with ("+" +++ a).
      change (String " " ((remote +++ more) +++ String NUL buffered)) with (" " +++ ((remote +++ more) +++ (str1 NUL +++ buffered))).
      rewrite !app_assoc_s, Ed. reflexivity.
    + repeat split; auto. apply ascii7_spec; auto.
  - intros (i & remote & queried & source & target & s & -> & [(more & M1 & M2 & M3) (Q1 & Q2 & Q3 & Q4) (R1 & R2 & R3) S1 S2] & G & HR & ->).
    assert (X : cmd +++ String " " ((meta +++ String NUL buffered) +++ concat_text pieces) =
      (svc +++ "+" +++ queried) +++ String " " (remote +++ more +++ str1 NUL +++ source +++ str1 NUL +++ target)).
    { rewrite app_assoc_s in M3. etransitivity; [exact M3|]. rewrite !app_assoc_s. reflexivity. }
    apply has_char_first in X as [X1 X2]; auto.
    2:{ rewrite !has_char_app, V1, Q3. reflexivity. }
    assert (Y : meta +++ String NUL (buffered +++ concat_text pieces) =
      (remote +++ more) +++ String NUL (source +++ str1 NUL +++ target)).
    { rewrite app_assoc_s in X2. etransitivity; [exact X2|]. rewrite !app_assoc_s. reflexivity. }
    apply has_char_first in Y as [Y1 Y2]; auto.
    2:{ rewrite has_char_app, R2, M2. reflexivity. }
    subst cmd meta. change ("+" +++ queried) with (String "+" queried). rewrite (split1_some "+" svc queried V2).
    rewrite (split1_some NUL _ buffered Hm).
    assert (R : match split1 " " (remote +++ more) with Some (r, _) => r | None => remote +++ more end = remote).
    { destruct M1 as [->|(m & ->)].
      - rewrite app_nil_s, split1_none by auto. reflexivity.
      - change (" " +++ m) with (String " " m). rewrite split1_some by auto. reflexivity. }
    rewrite R, (proj2 (ascii7_spec remote) R3), eqb_refl_s. cbn [negb].
    rewrite read_buffered by auto. apply policy_eval.
    exists i, queried, source, target, s.
    refine (conj eq_refl (conj eq_refl (conj Q1 (conj Q2 (conj Q4 (conj Y2 (conj S1 (conj S2 (conj G (conj HR eq_refl)))))))))).
Qed.
