(** Proofs about libqrexec/exec.c: the environment of services *)
From Coq Require Import String Ascii List Bool Arith ZArith Lia.
From Verif Require Import Base Sanitize DaemonAgent Exec SpecExec ExecCProofs LookupProofs.
Import ListNotations.
Open Scope string_scope.
Open Scope list_scope.
Open Scope Z_scope.

(** ** Words *)
Lemma tokens_blank s : tokens (String " " s) = tokens s.
Proof. unfold tokens. simpl. reflexivity. Qed.
Lemma tokens_blanks b s : blanks b -> tokens (b +++ s) = tokens s.
Proof.
  induction b as [|c b IH]; intros H; [reflexivity|].
  assert (c = " "%char) as -> by (apply H; simpl; rewrite Ascii.eqb_refl; reflexivity).
  cbn [append]. rewrite tokens_blank. apply IH. intros x Hx. apply H. simpl. rewrite Hx. apply orb_true_r.
Qed.
Lemma tokens_word w s : w <> "" -> lacks " " w -> end_of_word s -> tokens (w +++ s) = w :: tokens s.
Proof.
  intros Hn Hw [->|[r ->]].
  - rewrite app_nil_s. unfold tokens. rewrite split_all_lacks by exact Hw. cbn [filter].
    destruct (String.eqb_spec w ""); [contradiction|]. reflexivity.
  - change (" " +++ r) with (String " " r). rewrite tokens_blank. unfold tokens.
    rewrite split_all_cons by exact Hw. cbn [filter].
    destruct (String.eqb_spec w ""); [contradiction|]. reflexivity.
Qed.
Lemma words_tokens s l : words s l -> tokens s = l.
Proof.
  induction 1 as [s H|b w s l Hb Hn Hw He Hs IH].
  - rewrite <- (app_nil_s s), tokens_blanks; auto.
  - rewrite tokens_blanks by exact Hb. rewrite tokens_word by assumption. rewrite IH. reflexivity.
Qed.
Lemma words_blank s l : words s l -> words (String " " s) l.
Proof.
  intros H. destruct H as [s H|b w s l Hb Hn Hw He Hs].
  - constructor. intros c Hc. simpl in Hc. destruct (Ascii.eqb_spec c " "); [auto|]. simpl in Hc. auto.
  - change (String " " (b +++ w +++ s)) with (String " " b +++ w +++ s). constructor; auto.
    intros c Hc. simpl in Hc. destruct (Ascii.eqb_spec c " "); [auto|]. simpl in Hc. auto.
Qed.
Lemma tokens_words_n n : forall s, (String.length s <= n)%nat -> words s (tokens s).
Proof.
  induction n as [|n IH]; intros s Hs.
  - destruct s; [|simpl in Hs; lia]. constructor. intros c Hc. discriminate.
  - destruct s as [|c s]; [constructor; intros c Hc; discriminate|].
    simpl in Hs. destruct (Ascii.eqb_spec c " ") as [->|Hc].
    + rewrite tokens_blank. apply words_blank. apply IH. lia.
    + destruct (end_of_word_split (String c s)) as (w & t & E & Hw & Ht & Ew).
      assert (Hn : w <> "").
      { intros ->. simpl in E. subst t. destruct Ht as [Ht|[r Ht]]; [discriminate|].
        injection Ht as -> _. contradiction. }
      rewrite E, tokens_word by assumption.
      change (w +++ t) with ("" +++ (w +++ t)). constructor; auto.
      { intros x Hx. discriminate. }
      apply IH. apply (f_equal String.length) in E. rewrite length_app_s in E. simpl in E.
      assert (String.length w <> 0)%nat by (destruct w; [contradiction|discriminate]). lia.
Qed.
Lemma tokens_iff s l : words s l <-> tokens s = l.
Proof.
  split; [apply words_tokens|]. intros <-. apply (tokens_words_n (String.length s)). lia.
Qed.

(** ** Stripping *)
Lemma begins_app p q s : begins (p +++ q) s <-> starts p s = true /\ starts q (sdrop (String.length p) s) = true.
Proof.
  split.
  - intros [r ->]. rewrite app_assoc_s. split; [apply starts_app|]. rewrite sdrop_app. apply starts_app.
  - intros [H1 H2]. apply sdrop_starts in H1. apply starts_spec in H2 as [r H2].
    exists r. rewrite H1, H2, app_assoc_s. reflexivity.
Qed.
Lemma strip_iff e : should_strip_env_var e = true <-> reserved e.
Proof.
  unfold should_strip_env_var, reserved, is_var.
  change ("QREXEC_SERVICE_PATH" +++ "=") with ("QREXEC" +++ "_SERVICE_PATH=").
  change ("QREXEC_AGENT_PID" +++ "=") with ("QREXEC" +++ "_AGENT_PID=").
  rewrite !begins_app. rewrite <- starts_true. change (String.length "QREXEC") with 6%nat.
  destruct (starts "QREXEC" e); cbn [negb]; [|split; [discriminate|intros [H _]; discriminate]].
  rewrite andb_true_iff, !negb_true_iff.
  destruct (starts "_SERVICE_PATH=" (sdrop 6 e)), (starts "_AGENT_PID=" (sdrop 6 e)); intuition congruence.
Qed.
Lemma strip_false e : should_strip_env_var e = false <-> ~ reserved e.
Proof. rewrite <- strip_iff. destruct (should_strip_env_var e); split; congruence. Qed.

Definition kept (envp : list string) := filter (fun e => negb (should_strip_env_var e)) envp.
Lemma kept_without envp : without reserved envp (kept envp).
Proof.
  unfold kept. induction envp as [|e l IH]; cbn [filter]; [constructor|].
  destruct (should_strip_env_var e) eqn:E; cbn [negb].
  - apply wo_drop; auto. apply strip_iff. exact E.
  - apply wo_keep; auto. apply strip_false. exact E.
Qed.
Lemma kept_len envp : (List.length (kept envp) <= List.length envp)%nat.
Proof. unfold kept. induction envp as [|e l IH]; simpl; auto. destruct (should_strip_env_var e); simpl; lia. Qed.
Lemma kept_not e envp : In e (kept envp) -> ~ reserved e.
Proof. unfold kept. rewrite filter_In, negb_true_iff, strip_false. tauto. Qed.

Lemma fold_kept cap envp : forall acc, (List.length acc + List.length envp < cap)%nat ->
  fold_left (fun b e => if should_strip_env_var e then b else extend cap b e) envp (Some acc)
  = Some (acc ++ kept envp).
Proof.
  induction envp as [|e l IH]; intros acc H; cbn [fold_left].
  - unfold kept. simpl. rewrite app_nil_r. reflexivity.
  - simpl in H. unfold kept. cbn [filter]. fold (kept l).
    destruct (should_strip_env_var e); cbn [negb].
    + apply IH. lia.
    + unfold extend at 2. destruct (Nat.leb_spec cap (List.length acc)); [lia|].
      rewrite IH.
      * rewrite <- app_assoc. reflexivity.
      * rewrite app_length. simpl. lia.
Qed.

(** what is added, in order *)
Definition added (full remote : string) (arg : option string) (a : asked) : list string :=
  match a with
  | AskedNothing => ["QREXEC_REQUESTED_TARGET_TYPE="]
  | AskedName t => ["QREXEC_REQUESTED_TARGET_TYPE=name"; "QREXEC_REQUESTED_TARGET=" +++ t]
  | AskedKeyword t => ["QREXEC_REQUESTED_TARGET_TYPE=keyword"; "QREXEC_REQUESTED_TARGET_KEYWORD=" +++ t]
  end ++ ["QREXEC_SERVICE_FULL_NAME=" +++ full; "QREXEC_REMOTE_DOMAIN=" +++ remote]
  ++ match arg with Some x => ["QREXEC_SERVICE_ARGUMENT=" +++ x] | None => [] end.

Lemma argument_split full arg : argument_of full arg ->
  match split1 "+" full with Some (_, x) => Some x | None => None end = arg.
Proof.
  intros H. destruct H as [full H|n x H].
  - rewrite split1_lacks; auto.
  - change (n +++ "+" +++ x) with (n +++ String "+" x). rewrite split1_at; auto.
Qed.
Lemma argument_split' full arg : argument_of full arg ->
  exists n, split1 "+" full = match arg with Some x => Some (n, x) | None => None end.
Proof.
  intros H. destruct H as [full H|n x H].
  - exists "". rewrite split1_lacks; auto.
  - exists n. change (n +++ "+" +++ x) with (n +++ String "+" x). rewrite split1_at; auto.
Qed.
Lemma argument_ex full : exists arg, argument_of full arg.
Proof.
  destruct (split1 "+" full) as [[n x]|] eqn:E.
  - apply split1_spec in E as [-> H]. exists (Some x). change (String "+" x) with ("+" +++ x).
    constructor. exact H.
  - apply split1_None in E. exists None. constructor. exact E.
Qed.

Lemma extend_some cap l v : (List.length l < cap)%nat -> extend cap (Some l) v = Some (l ++ [v]).
Proof. intros H. unfold extend. destruct (Nat.leb_spec cap (List.length l)); [lia|]. reflexivity. Qed.

Definition target_of (a : asked) : option (string * string) :=
  match a with AskedNothing => None | AskedName t => Some ("name", t) | AskedKeyword t => Some ("keyword", t) end.

Ltac ext := rewrite extend_some; [|repeat rewrite app_length; simpl List.length; lia].

Lemma exec_direct program cmd envp full remote a arg :
  begins "/" program -> call_words cmd full remote a -> argument_of full arg ->
  exec_qubes_rpc2 program cmd envp false =
    Execve program (program :: service_args arg) (kept envp ++ added full remote arg a).
Proof.
  intros Hp Hc Ha. unfold exec_qubes_rpc2. cbv zeta.
  apply starts_true in Hp. rewrite Hp. cbn [negb].
  rewrite fold_kept by (simpl; lia). cbn [app].
  pose proof (kept_len envp) as HK.
  destruct (argument_split' _ _ Ha) as [n Hs].
  destruct Hc as [cmd full remote H|cmd full remote t H|cmd full remote t H];
    apply words_tokens in H; rewrite H; cbn [List.length Nat.ltb Nat.leb]; rewrite Hs;
    unfold added, service_args; destruct arg as [x|].
  all: try change (String.eqb "name" "name") with true; try change (String.eqb "keyword" "name") with false;
       try change (String.eqb "keyword" "keyword") with true; cbv iota; repeat ext;
       repeat rewrite <- app_assoc; reflexivity.
Qed.

Lemma value_some env name x : In (name +++ "=" +++ x) env ->
  (forall e, In e env -> is_var name e -> e = name +++ "=" +++ x) -> value env name (Some x).
Proof. intros; split; auto. Qed.

Lemma reserved_var name e : In name reserved_names -> is_var name e -> reserved e.
Proof.
  intros H [r ->]. apply strip_iff.
  repeat (destruct H as [<-|H]; [reflexivity|]). destruct H.
Qed.

Ltac novar H := let E := fresh in assert (E := proj2 (starts_true _ _) H); cbn in E; discriminate E.

Lemma added_env envp full remote arg a : call_env (kept envp ++ added full remote arg a) full remote arg a.
Proof.
  assert (K : forall name v, In name reserved_names ->
    value (added full remote arg a) name v -> value (kept envp ++ added full remote arg a) name v).
  { intros name v Hn Hv. destruct v as [x|].
    - destruct Hv as [H1 H2]. apply value_some.
      + apply in_or_app. right. exact H1.
      + intros e He Hi. apply in_app_or in He as [He|He]; auto.
        exfalso. apply kept_not in He. apply He. eapply reserved_var; eauto.
    - intros e He Hi. apply in_app_or in He as [He|He].
      + apply kept_not in He. apply He. eapply reserved_var; eauto.
      + exact (Hv e He Hi). }
  assert (N : forall n, In n reserved_names -> In n reserved_names) by auto.
  split; apply K; try (unfold reserved_names; simpl; tauto);
    unfold added; destruct a as [|t|t], arg as [x|]; cbn [app];
    try (apply value_some; [cbn [In append]; tauto|]);
    try (intros e He Hi; cbn [In] in He;
         repeat (destruct He as [<-|He]; [first [reflexivity|exfalso; novar Hi]|]); contradiction).
Qed.

Lemma added_reserved full remote arg a e : In e (added full remote arg a) -> reserved e.
Proof.
  intros H. apply strip_iff. unfold added in H.
  destruct a as [|t|t], arg as [x|]; cbn [app In] in H;
    repeat (destruct H as [<-|H]; [reflexivity|]); contradiction.
Qed.

(** ** Through a login shell *)
Lemma exec_shell program cmd envp full remote a arg :
  begins "/" program -> call_words cmd full remote a -> argument_of full arg ->
  exec_qubes_rpc2 program cmd envp true =
    Execve "/bin/sh"
      (["/bin/sh"; "-lc";
        shell_script (match a with AskedKeyword _ => true | _ => false end)
          (match a with AskedName _ => true | _ => false end)
          (match arg with Some _ => true | None => false end)
          (match arg with Some x => negb (String.eqb x "") | None => false end);
        "sh"; program; full; remote; match arg with Some x => x | None => "" end]
       ++ match a with AskedNothing => [] | AskedName t => [t] | AskedKeyword t => [t] end) (kept envp).
Proof.
  intros Hp Hc Ha. unfold exec_qubes_rpc2. cbv zeta.
  apply starts_true in Hp. rewrite Hp. cbn [negb].
  rewrite fold_kept by (simpl; lia). cbn [app].
  destruct (argument_split' _ _ Ha) as [n Hs].
  destruct Hc as [cmd full remote H|cmd full remote t H|cmd full remote t H];
    apply words_tokens in H; rewrite H; cbn [List.length Nat.ltb Nat.leb]; rewrite Hs;
    destruct arg as [x|]; reflexivity.
Qed.

Definition exported (full remote : string) (arg : option string) (a : asked) : list string :=
  ["QREXEC_SERVICE_FULL_NAME=" +++ full; "QREXEC_REMOTE_DOMAIN=" +++ remote]
  ++ match a with
     | AskedNothing => ["QREXEC_REQUESTED_TARGET_TYPE="]
     | AskedName t => ["QREXEC_REQUESTED_TARGET_TYPE=name"; "QREXEC_REQUESTED_TARGET=" +++ t]
     | AskedKeyword t => ["QREXEC_REQUESTED_TARGET_TYPE=keyword"; "QREXEC_REQUESTED_TARGET_KEYWORD=" +++ t]
     end
  ++ match arg with Some x => ["QREXEC_SERVICE_ARGUMENT=" +++ x] | None => [] end.

Lemma run_script program full remote arg a env :
  sh_login
    (["/bin/sh"; "-lc";
        shell_script (match a with AskedKeyword _ => true | _ => false end)
          (match a with AskedName _ => true | _ => false end)
          (match arg with Some _ => true | None => false end)
          (match arg with Some x => negb (String.eqb x "") | None => false end);
        "sh"; program; full; remote; match arg with Some x => x | None => "" end]
       ++ match a with AskedNothing => [] | AskedName t => [t] | AskedKeyword t => [t] end) env
  = Some (program, program :: service_args arg,
          fold_left sh_export (exported full remote arg a) (sh_unset reserved_names env)).
Proof.
  destruct a as [|t|t], arg as [x|]; try (destruct x as [|c x]); vm_compute; reflexivity.
Qed.

Lemma In_export e env a n v : split1 "=" a = Some (n, v) ->
  (In e (sh_export env a) <-> e = a \/ (In e env /\ entry_of n e = false)).
Proof.
  intros H. unfold sh_export. rewrite H, in_app_iff. unfold sh_unset. rewrite filter_In.
  cbn [existsb In]. rewrite orb_false_r, negb_true_iff. intuition congruence.
Qed.
Lemma In_unset e env : In e (sh_unset reserved_names env) <->
  In e env /\ forall n, In n reserved_names -> ~ is_var n e.
Proof.
  unfold sh_unset. rewrite filter_In, negb_true_iff. split; intros [H1 H2]; split; auto.
  - intros n Hn Hv. apply starts_true in Hv. fold (entry_of n e) in Hv.
    assert (T : existsb (fun n => entry_of n e) reserved_names = true) by (apply existsb_exists; eauto). congruence.
  - destruct (existsb (fun n => entry_of n e) reserved_names) eqn:E; auto.
    apply existsb_exists in E as (n & Hn & Hv). apply starts_true in Hv. destruct (H2 n Hn Hv).
Qed.

Lemma some_fst {A B} (a n : A) (b v : B) : Some (a, b) = Some (n, v) -> n = a.
Proof. congruence. Qed.
(** the names in a list of assignments are pairwise different *)
Fixpoint fresh_names (l : list string) : Prop :=
  match l with
  | [] => True
  | a :: l' => (exists n v, split1 "=" a = Some (n, v) /\ forall b, In b l' -> entry_of n b = false) /\
               (forall b n v, In b l' -> split1 "=" b = Some (n, v) -> entry_of n a = false) /\ fresh_names l'
  end.
Lemma fold_export l : forall env, fresh_names l -> forall e,
  In e (fold_left sh_export l env) <->
  In e l \/ (In e env /\ forall a n v, In a l -> split1 "=" a = Some (n, v) -> entry_of n e = false).
Proof.
  induction l as [|a l IH]; intros env F e; cbn [fold_left].
  - cbn [In]. intuition.
  - destruct F as ((n & v & Hs & Hb) & Hr & F). rewrite IH by exact F.
    rewrite (In_export e env a n v Hs). cbn [In]. split.
    + intros [H|[[->|[H1 H2]] H3]]; auto.
      right. split; auto. intros a' n' v' [<-|Ha]; [|eauto]. intros E. rewrite Hs in E. injection E as <- <-. exact H2.
    + intros [[<-|H]|[H1 H2]].
      * right. split; [left; reflexivity|]. intros a' n' v' Ha E. eapply Hr; eauto.
      * left. exact H.
      * right. split; [right; split; eauto|]. intros a' n' v' Ha E. eapply H2; eauto.
Qed.

Lemma exported_fresh full remote arg a : fresh_names (exported full remote arg a).
Proof.
  unfold exported. destruct a as [|t|t], arg as [x|]; cbn [app fresh_names].
  all: repeat split; try (do 2 eexists; split; [vm_compute; reflexivity|]);
    try (intros b Hb; cbn [In] in Hb; repeat (destruct Hb as [<-|Hb]; [vm_compute; reflexivity|]); contradiction);
    try (intros b n v Hb; cbn [In] in Hb;
         repeat (destruct Hb as [<-|Hb]; [vm_compute; intros E; apply some_fst in E; subst n; vm_compute; reflexivity|]); contradiction).
Qed.

Lemma exported_names full remote arg a b n v : In b (exported full remote arg a) ->
  split1 "=" b = Some (n, v) -> In n reserved_names.
Proof.
  unfold exported. intros H.
  destruct a as [|t|t], arg as [x|]; cbn [app In] in H;
    repeat (destruct H as [<-|H]; [vm_compute; intros E; apply some_fst in E; subst n; tauto|]); contradiction.
Qed.

Lemma shell_env full remote arg a env :
  let env' := fold_left sh_export (exported full remote arg a) (sh_unset reserved_names env) in
  call_env env' full remote arg a /\
  forall e, (forall n, In n reserved_names -> ~ is_var n e) -> (In e env' <-> In e env).
Proof.
  cbv zeta. set (env' := fold_left sh_export (exported full remote arg a) (sh_unset reserved_names env)).
  assert (I : forall e, In e env' <-> In e (exported full remote arg a) \/
                (In e env /\ forall n, In n reserved_names -> ~ is_var n e)).
  { intros e. unfold env'. rewrite (fold_export _ _ (exported_fresh full remote arg a)), In_unset.
    split; [tauto|]. intros [H|H]; auto. right. split; auto.
    intros b n v Hb Hs. destruct (entry_of n e) eqn:E; auto. apply starts_true in E.
    exfalso. destruct H as [_ H]. exact (H n (exported_names _ _ _ _ _ _ _ Hb Hs) E). }
  clearbody env'. split.
  - assert (K : forall name v, In name reserved_names ->
      value (exported full remote arg a) name v -> value env' name v).
    { intros name v Hn Hv. destruct v as [x|].
      - destruct Hv as [H1 H2]. apply value_some.
        + apply I. left. exact H1.
        + intros e He Hi. apply I in He as [He|[_ He]]; auto. exfalso. exact (He name Hn Hi).
      - intros e He Hi. apply I in He as [He|[_ He]]; [exact (Hv e He Hi)|exact (He name Hn Hi)]. }
    split; apply K; try (unfold reserved_names; simpl; tauto);
      unfold exported; destruct a as [|t|t], arg as [x|]; cbn [app];
      try (apply value_some; [cbn [In append]; tauto|]);
      try (intros e He Hi; cbn [In] in He;
         repeat (destruct He as [<-|He]; [first [reflexivity|exfalso; novar Hi]|]); contradiction).
  - intros e He. rewrite I. split; [|auto]. intros [H|[H _]]; auto. exfalso.
    assert (R : exists n, In n reserved_names /\ is_var n e).
    { unfold exported in H. destruct a as [|t|t], arg as [x|]; cbn [app In] in H;
      repeat (destruct H as [<-|H];
        [first [exists "QREXEC_SERVICE_FULL_NAME"; split; [simpl; tauto|apply starts_true; reflexivity]
               |exists "QREXEC_REMOTE_DOMAIN"; split; [simpl; tauto|apply starts_true; reflexivity]
               |exists "QREXEC_REQUESTED_TARGET_TYPE"; split; [simpl; tauto|apply starts_true; reflexivity]
               |exists "QREXEC_SERVICE_ARGUMENT"; split; [simpl; tauto|apply starts_true; reflexivity]
               |exists "QREXEC_REQUESTED_TARGET"; split; [simpl; tauto|apply starts_true; reflexivity]
               |exists "QREXEC_REQUESTED_TARGET_KEYWORD"; split; [simpl; tauto|apply starts_true; reflexivity]]|]); contradiction. }
    destruct R as (n & Hn & Hv). exact (He n Hn Hv).
Qed.

(** anything else is refused *)
Lemma exec_refused program cmd envp sh path argv env :
  exec_qubes_rpc2 program cmd envp sh = Execve path argv env ->
  begins "/" program /\ ((exists f r, words cmd [f; r]) \/ exists f r ty t, words cmd [f; r; ty; t]).
Proof.
  unfold exec_qubes_rpc2. cbv zeta.
  destruct (9 <? List.length (tokens cmd))%nat; [discriminate|].
  destruct (starts "/" program) eqn:E; [|discriminate]. apply starts_true in E. cbn [negb].
  destruct (tokens cmd) as [|f [|r [|ty [|t [|z l]]]]] eqn:T; try discriminate; apply tokens_iff in T;
    intros _; (split; [exact E|]); eauto 6.
Qed.
Lemma exec_never_aborts program cmd envp sh : exec_qubes_rpc2 program cmd envp sh <> ExecAbort.
Proof.
  unfold exec_qubes_rpc2. cbv zeta. rewrite fold_kept by (simpl; lia). cbn [app].
  pose proof (kept_len envp) as HK.
  destruct (9 <? List.length (tokens cmd))%nat; [discriminate|].
  destruct (negb (starts "/" program)); [discriminate|].
  destruct (tokens cmd) as [|f [|r [|ty [|t [|z l]]]]]; try discriminate; destruct sh; cbn [negb]; try discriminate.
  - ext. ext. ext. destruct (split1 "+" f) as [[n x]|]; [ext|]; discriminate.
  - ext. destruct (String.eqb ty "name"); [ext|destruct (String.eqb ty "keyword"); [ext|]]; ext; ext;
      (destruct (split1 "+" f) as [[n x]|]; [ext|]; discriminate).
Qed.
