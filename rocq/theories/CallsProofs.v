(** Proofs about service calls in the histories of the daemon *)
From Coq Require Import String Ascii List Bool Arith ZArith Lia.
From Verif Require Import Base Sanitize DaemonAgent DaemonState SpecDaemon SpecAgent SpecState AgentProofs StateProofs.
Import ListNotations.
Open Scope string_scope.
Open Scope list_scope.
Open Scope Z_scope.

(** ** Counting *)
Definition b2n (b : bool) : nat := if b then 1%nat else 0%nat.
Lemma number_cons {A} (f : A -> bool) a l : number_of f (a :: l) = (b2n (f a) + number_of f l)%nat.
Proof. unfold number_of. cbn [filter]. destruct (f a); reflexivity. Qed.
Lemma number_app {A} (f : A -> bool) a l : number_of f (a ++ l) = (number_of f a + number_of f l)%nat.
Proof. unfold number_of. rewrite filter_app, app_length. reflexivity. Qed.
Lemma number_set_nth {A} (f : A -> bool) i y d l : (i < length l)%nat ->
  (number_of f (set_nth i y l) + b2n (f (nth i l d)) = number_of f l + b2n (f y))%nat.
Proof.
  revert i; induction l as [|a l IH]; intros i Hi; [cbn in Hi; lia|]. destruct i as [|i]; cbn [set_nth nth].
  - rewrite !number_cons. lia.
  - rewrite !number_cons. specialize (IH i ltac:(cbn in Hi; lia)). lia.
Qed.
Lemma number_zero {A} (f : A -> bool) l : (forall a, In a l -> f a = false) -> number_of f l = 0%nat.
Proof.
  induction l as [|a l IH]; intros H; [reflexivity|]. rewrite number_cons, (H a) by now left. rewrite IH; [reflexivity|].
  intros b Hb. apply H. now right.
Qed.

Definition is_pending (r : response) : bool := match r with R_PENDING => true | _ => false end.
Definition waiting (x : string) (s : slot) : bool :=
  negb (s_pid s =? 0) && is_pending (s_resp s) && String.eqb (s_ident s) x.

Lemma find_request_some l limit x i : find_request l limit x = Some i ->
  (i < length l)%nat /\ (i < limit)%nat /\ waiting x (nth i l no_slot) = true.
Proof.
  revert limit i; induction l as [|a l IH]; intros limit i; cbn [find_request]; [destruct limit; discriminate|].
  destruct limit as [|limit]; [discriminate|].
  destruct (negb _ && _ && _) eqn:E.
  - intros H; inversion H; subst. cbn [nth length]. split; [lia|]. split; [lia|]. exact E.
  - destruct (find_request l limit x) as [j|] eqn:F; [|discriminate]. cbn [option_map]. intros H; inversion H; subst.
    destruct (IH _ _ F) as (A & B & C). cbn [nth length]. split; [lia|]. split; [lia|]. exact C.
Qed.
Lemma find_request_none l limit x : find_request l limit x = None ->
  forall i, (i < limit)%nat -> (i < length l)%nat -> waiting x (nth i l no_slot) = false.
Proof.
  revert limit; induction l as [|a l IH]; intros limit; [cbn; intros; lia|].
  destruct limit as [|limit]; [intros; lia|]. cbn [find_request].
  destruct (negb _ && _ && _) eqn:E; [discriminate|].
  destruct (find_request l limit x) as [j|] eqn:F; [discriminate|]. intros _ [|i] Hi Hl; cbn [nth length] in *.
  - exact E.
  - apply (IH limit F); lia.
Qed.
Lemma find_pid_some l limit pid i : find_pid l limit pid = Some i ->
  (i < length l)%nat /\ (i < limit)%nat /\ s_pid (nth i l no_slot) = pid /\
  (forall j, (j < i)%nat -> s_pid (nth j l no_slot) <> pid).
Proof.
  revert limit i; induction l as [|a l IH]; intros limit i; cbn [find_pid]; [destruct limit; discriminate|].
  destruct limit as [|limit]; [discriminate|].
  destruct (Z.eqb_spec (s_pid a) pid) as [E|E].
  - intros H; inversion H; subst. cbn [nth length]. split; [lia|]. split; [lia|]. split; [auto|]. intros; lia.
  - destruct (find_pid l limit pid) as [j|] eqn:F; [|discriminate]. cbn [option_map]. intros H; inversion H; subst.
    destruct (IH _ _ F) as (A & B & C & D). cbn [nth length]. split; [lia|]. split; [lia|]. split; [exact C|].
    intros [|k] Hk; [exact E|]. apply D. lia.
Qed.
Lemma find_pid_none l limit pid : find_pid l limit pid = None ->
  forall i, (i < limit)%nat -> (i < length l)%nat -> s_pid (nth i l no_slot) <> pid.
Proof.
  revert limit; induction l as [|a l IH]; intros limit; [cbn; intros; lia|].
  destruct limit as [|limit]; [intros; lia|]. cbn [find_pid].
  destruct (Z.eqb_spec (s_pid a) pid) as [E|E]; [discriminate|].
  destruct (find_pid l limit pid) as [j|] eqn:F; [discriminate|]. intros _ [|i] Hi Hl; cbn [nth length] in *.
  - exact E.
  - apply (IH limit F); lia.
Qed.
Lemma free_slot_some l i : free_slot l = Some i -> (i < length l)%nat /\ s_pid (nth i l no_slot) = 0.
Proof.
  revert i; induction l as [|a l IH]; intros i; cbn [free_slot]; [discriminate|].
  destruct (Z.eqb_spec (s_pid a) 0) as [E|E].
  - intros H; inversion H; subst. cbn [nth length]. split; [lia|auto].
  - destruct (free_slot l) as [j|] eqn:F; [|discriminate]. cbn [option_map]. intros H; inversion H; subst.
    destruct (IH _ eq_refl) as (A & B). cbn [nth length]. split; [lia|auto].
Qed.
Lemma free_slot_none l : free_slot l = None -> forall x, In x l -> s_pid x <> 0.
Proof.
  induction l as [|a l IH]; cbn [free_slot]; [intros _ x []|].
  destruct (Z.eqb_spec (s_pid a) 0) as [E|E]; [discriminate|].
  destruct (free_slot l) as [j|] eqn:F; [discriminate|]. intros _ x [<-|Hx]; auto.
Qed.
Lemma waiting_free x s : s_pid s = 0 -> waiting x s = false.
Proof. intros E. unfold waiting. rewrite E. reflexivity. Qed.

(** ** What an event does to the table of requests *)
Inductive call_step (s : daemon) (ev : devent) (outs : list output) (s' : daemon) : Prop :=
| cs_none : asks ev = None -> d_pending s' = d_pending s -> d_limit s' = d_limit s ->
    (forall x, number_of (answer_of x) outs = 0%nat) -> (forall v, ev <> AgentRestarted v) ->
    (forall q code i, ev = ChildEnded q (Exited code) -> 0 < q -> (i < d_limit s)%nat -> (i < length (d_pending s))%nat ->
       s_pid (nth i (d_pending s) no_slot) <> q) ->
    call_step s ev outs s'
| cs_refuse x : asks ev = Some x -> d_pending s' = d_pending s -> d_limit s' = d_limit s ->
    outs = [Refused x] ->
    (free_slot (d_pending s) = None \/
     exists type len body pid raw, ev = FromAgent type len body pid /\
       handle_message_from_agent (d_version s) type len body = RefuseCall raw) ->
    call_step s ev outs s'
| cs_new x type len body pid i : asks ev = Some x -> ev = FromAgent type len body pid -> outs = [] ->
    free_slot (d_pending s) = Some i ->
    d_pending s' = set_nth i (mkSlot pid x R_PENDING) (d_pending s) -> d_limit s' = Nat.max (d_limit s) (S i) ->
    call_step s ev outs s'
| cs_take x i : asks ev = None -> (forall v, ev <> AgentRestarted v) -> (forall q k, ev <> ChildEnded q k) ->
    find_request (d_pending s) (d_limit s) x = Some i ->
    d_pending s' = set_nth i (set_response R_ALLOW (nth i (d_pending s) no_slot)) (d_pending s) ->
    d_limit s' = d_limit s -> connect_request ev x ->
    (outs = [] \/ connects outs x /\ forall y, number_of (answer_of y) outs = b2n (String.eqb x y)) ->
    call_step s ev outs s'
| cs_reap q code i : ev = ChildEnded q (Exited code) -> 0 < q -> find_pid (d_pending s) (d_limit s) q = Some i ->
    outs = snd (reap_slot (nth i (d_pending s) no_slot) code) ->
    d_pending s' = set_nth i (mkSlot 0 (s_ident (nth i (d_pending s) no_slot))
                                (fst (reap_slot (nth i (d_pending s) no_slot) code))) (d_pending s) ->
    d_limit s' = shrink MAX_CLIENTS (d_limit s) (d_pending s') -> call_step s ev outs s'
| cs_restart v : ev = AgentRestarted v -> outs = [] ->
    d_pending s' = map (fun x => mkSlot 0 (s_ident x) (s_resp x)) (d_pending s) -> d_limit s' = 0%nat ->
    call_step s ev outs s'.

Lemma exec_no_answer type len d p text x : type = 512 \/ type = 513 -> answer_of x (ToAgent type len d p text) = false.
Proof. intros [->| ->]; reflexivity. Qed.
Lemma stake_app_long : forall n s, (n <= String.length s)%nat -> exists r, s = stake n s +++ r.
Proof. intros n s _. exists (sdrop n s). apply take_drop. Qed.
Lemma eight_prefix s : (8 < String.length s)%nat ->
  exists b0 b1 b2 b3 b4 b5 b6 b7, s = String b0 (String b1 (String b2 (String b3 (String b4 (String b5 (String b6 (String b7 (sdrop 8 s)))))))).
Proof.
  intros H. do 8 (destruct s as [|? s]; [cbn in H; lia|]). do 8 eexists. reflexivity.
Qed.
Lemma body_connect_long du s fd type len body ok s' outs stays :
  handle_cmdline_body du s fd type len body ok = (s', outs, stays) ->
  (8 < len <= 65535 /\ (exists b, body = Some b)) \/ (outs = [] /\ d_pending s' = d_pending s /\ d_limit s' = d_limit s).
Proof.
  unfold handle_cmdline_body. unfold sizeof_exec_params, MAX_QREXEC_CMD_LEN.
  destruct (Z.leb_spec len 8) as [Ha|H8]. { intros H; inversion H; subst; auto. }
  rewrite Z.gtb_ltb. destruct (Z.ltb_spec 65535 len) as [Ha|H9]. { intros H; inversion H; subst; auto. }
  destruct body as [b|]. { intros _. left. split; [lia|eauto]. }
  intros H; inversion H; subst; auto.
Qed.
Lemma client_connect du s fd m ok s' outs : handle_message_from_client du s fd m ok = (s', outs) ->
  (outs = [] /\ d_pending s' = d_pending s /\ d_limit s' = d_limit s) \/
  exists type len bytes b, m = ClientMessage type len bytes /\ received len bytes = Some b /\ 8 < len <= 65535.
Proof.
  unfold handle_message_from_client. destruct (d_clients s fd) eqn:Ec.
  - intros H; inversion H; subst; auto.
  - destruct m as [|type len bytes]. { intros H; inversion H; subst; auto. }
    destruct (negb _). { intros H; inversion H; subst; auto. }
    destruct (received len bytes) as [b|]. 2:{ intros H; inversion H; subst; auto. }
    destruct (_ <? _); intros H; inversion H; subst; auto.
  - destruct m as [|type len bytes]. { intros H; inversion H; subst; auto. }
    destruct (_ || _ || _). 2:{ intros H; inversion H; subst; auto. }
    destruct (handle_cmdline_body du s fd type len (received len bytes) ok) as [[s1 outs1] stays] eqn:Eb.
    intros H; inversion H; subst outs1 s'. destruct (body_connect_long _ _ _ _ _ _ _ _ _ _ Eb) as [[Hl [b Er]]|(A & B & C)].
    + right. eauto 8.
    + left. split; [exact A|]. destruct stays; auto.
  - intros H; inversion H; subst; auto.
Qed.
Lemma connect_request_intro fd len bytes ok b : 8 < len <= 65535 -> received len bytes = Some b ->
  connect_request (FromClient fd (ClientMessage 514 len bytes) ok) (cstr (sdrop 8 b)).
Proof.
  intros Hl Hb. apply received_some in Hb as (Eb & Hlb).
  assert (Hlen : String.length b = Z.to_nat len).
  { rewrite Eb. apply stake_exact. lia. }
  assert (H8 : (8 < String.length b)%nat) by lia.
  destruct (eight_prefix b H8) as (b0 & b1 & b2 & b3 & b4 & b5 & b6 & b7 & E8).
  exists fd, len, b0, b1, b2, b3, b4, b5, b6, b7, (sdrop 8 b), (sdrop (Z.to_nat len) bytes), ok.
  split.
  - do 2 f_equal. rewrite (take_drop (Z.to_nat len) bytes) at 1. rewrite <- Eb. rewrite E8 at 1. reflexivity.
  - split; [reflexivity|]. pose proof (sdrop_length 8 b) as Hd. split.
    + intros E. rewrite E in Hd. cbn [String.length] in Hd. lia.
    + lia.
Qed.

Lemma step_calls du s ev s' outs : length (d_used s) = 256%nat -> dstep du s ev = Some (s', outs) ->
  call_step s ev outs s'.
Proof.
  intros Hlen. destruct ev as [fd h|fd m ok|type len body pid|pid k|v]; cbn [dstep].
  - unfold handle_new_client. destruct (_ <? _)%nat; cbn [option_map]; [|discriminate]. intros H; inversion H; subst.
    apply cs_none; try reflexivity; discriminate.
  - intros H. assert (H1 : handle_message_from_client du s fd m ok = (s', outs)) by congruence. clear H.
    pose proof (client_step _ _ _ _ _ _ _ Hlen H1) as [_ [(_ & E2 & E3 & ->)|(type & len & bytes & Em & B & _)]].
    { apply cs_none; auto; discriminate. }
    destruct (client_connect _ _ _ _ _ _ _ H1) as [(-> & E2 & E3)|(ty & ln & by_ & b' & Em' & Hr & Hl)].
    { apply cs_none; auto; discriminate. }
    rewrite Em in Em'. inversion Em'; subst ty ln by_.
    destruct B as [Eu E2 E3 -> | b i Hb Ht Hf Eu E3 E2 -> | b i port text len' given Hb Ht Etx Hf E2 E3 Ho Hg | b port text len' given Hb Ht E2 E3 Ho Hg].
    + apply cs_none; auto; discriminate.
    + rewrite Hr in Hb. inversion Hb; subst b'. eapply cs_take with (x := cstr (sdrop 8 b)); auto; try discriminate.
      * exact Hf.
      * exact E2.
      * subst m type. apply connect_request_intro; auto.
    + rewrite Hr in Hb. inversion Hb; subst b'. eapply cs_take with (x := cstr text); auto; try discriminate.
      * exact Hf.
      * exact E2.
      * subst m type text. apply connect_request_intro; auto.
      * right. subst outs type. split.
        -- exists (ToAgent 514 len' (u32 b) port text). split; [apply in_or_app; right; now left|].
           cbn [connection_of]. rewrite String.eqb_refl. reflexivity.
        -- intros y. rewrite number_app.
           assert (Eg : number_of (answer_of y) given = 0%nat).
           { apply number_zero. destruct Hg as [[-> _]|[-> _]]; intros a; [intros []|intros [<-|[]]; reflexivity]. }
           rewrite Eg, number_cons. cbn [answer_of refusal_of connection_of orb]. 
           change (514 =? 514) with true. cbn [andb]. unfold number_of. cbn. lia.
    + apply cs_none; auto; try discriminate. intros x. subst outs. apply number_zero.
      intros a Ha. apply in_app_or in Ha as [Ha|[<-|[]]]; [|now apply exec_no_answer].
      destruct Hg as [[-> _]|[-> _]]; [destruct Ha|]. destruct Ha as [<-|[]]. reflexivity.
  - destruct (Z.eq_dec type 529) as [Et|Et].
    + destruct (handle_message_from_agent (d_version s) type len body) eqn:Ea; try discriminate;
      (assert (Hne : handle_message_from_agent (d_version s) type len body <> DaemonExits) by congruence);
      destruct (agent_529 _ _ _ _ Et Hne) as (Eq & Hr & El & Eb); rewrite Ea in Eq; try discriminate Eq.
      intros H. assert (E : s' = release_vchan_port s port (to_int domain) /\ outs = []) by (split; congruence).
      destruct E as [-> ->]. destruct (release_rest s port (to_int domain)) as (_ & E1 & E2).
      apply cs_none; auto; try discriminate. subst type. reflexivity.
    + destruct (handle_message_from_agent (d_version s) type len body) as [|raw|rs t sv x|dm pt] eqn:Ea; [discriminate| | |];
      (assert (Hne : handle_message_from_agent (d_version s) type len body <> DaemonExits) by congruence);
      destruct (agent_asks _ _ _ _ pid Hne Et) as [y Hy]; pose proof (agent_call (d_version s) _ _ _ _ _ Hy) as C;
      rewrite Ea in C.
      * intros H. assert (E : s' = s /\ outs = [Refused (cstr raw)]) by (split; congruence). destruct E as [-> ->].
        subst y. eapply cs_refuse; eauto. right. exists type, len, body, pid, raw. auto.
      * subst y. intros H. unfold handle_execute_service in H.
        destruct (free_slot (d_pending s)) as [i|] eqn:Ef.
        -- assert (E : s' = set_pending s (set_nth i (mkSlot pid x R_PENDING) (d_pending s)) (Nat.max (d_limit s) (S i)) /\ outs = []) by (split; congruence).
           destruct E as [-> ->]. eapply cs_new; eauto; reflexivity.
        -- assert (E : s' = s /\ outs = [Refused x]) by (split; congruence). destruct E as [-> ->].
           eapply cs_refuse; eauto.
      * destruct C.
  - intros H. assert (H0 : (if pid >? 0 then reap_child s pid k else (s, [])) = (s', outs)) by congruence. clear H.
    rewrite Z.gtb_ltb in H0. destruct (Z.ltb_spec 0 pid) as [Hpos|Hpos].
    2:{ apply pair_eq in H0 as [<- <-]. apply cs_none; auto; try discriminate.
        intros q c i Ev Hq. inversion Ev; subst. lia. }
    rename H0 into H1. destruct k as [code|].
    + apply reap_unfold in H1. destruct (find_pid (d_pending s) (d_limit s) pid) as [i|] eqn:Ef.
      * cbn zeta in H1. destruct H1 as (A & B & C & D & E).
        apply (cs_reap _ _ _ _ pid code i); [reflexivity|exact Hpos|exact Ef|exact A|exact B|rewrite B; exact C].
      * destruct H1 as [-> ->]. apply cs_none; auto; try discriminate. intros q c i Ev _ Hi Hi2. inversion Ev; subst.
        exact (find_pid_none _ _ _ Ef i Hi Hi2).
    + cbn in H1. inversion H1; subst. apply cs_none; auto; discriminate.
  - intros H. assert (E : s' = handle_agent_restart s v /\ outs = []) by (split; congruence). destruct E as [-> ->].
    destruct (restart_fields s v) as (_ & _ & E1 & E2). eapply cs_restart; eauto.
Qed.

Lemma used_length du remote version h s : runs du remote version h s -> length (d_used s) = 256%nat.
Proof.
  induction 1 as [|h s ev outs s' Hr IH Hs]; [apply repeat_length|].
  destruct (step_ports _ _ _ _ _ IH Hs) as [_ P].
  destruct P as [Eu Hg He | fd d p n ty ln tx Ho Hn Ep Eu Eu' Hel Hnd He | d p Ho He Hun Hp Eu]; rewrite ?Eu, ?Eu'.
  - exact IH.
  - now rewrite set_nth_length.
  - destruct (_ =? d); rewrite ?set_nth_length; exact IH.
Qed.
Lemma pending_length du remote version h s : runs du remote version h s -> length (d_pending s) = 256%nat.
Proof.
  induction 1 as [|h s ev outs s' Hr IH Hs]; [apply repeat_length|].
  pose proof (used_length _ _ _ _ _ Hr) as Hl.
  destruct (step_calls _ _ _ _ _ Hl Hs) as [? E|? ? E|? ? ? ? ? ? ? ? ? ? E|? ? ? ? ? ? E|? ? ? ? ? ? ? E|? ? ? E]; rewrite E;
    rewrite ?set_nth_length, ?map_length; exact IH.
Qed.

(** ** No call is answered twice *)
Lemma answers_cons ev outs h x : (forall v, ev <> AgentRestarted v) ->
  answers ((ev, outs) :: h) x = (number_of (answer_of x) outs + answers h x)%nat.
Proof.
  intros H. unfold answers. cbn [since_restart]. destruct ev; try (cbn [flat_map snd]; apply number_app). exfalso; eapply H; reflexivity.
Qed.
Lemma calls_cons ev outs h x : (forall v, ev <> AgentRestarted v) ->
  calls ((ev, outs) :: h) x = (b2n (match asks ev with Some y => String.eqb y x | None => false end) + calls h x)%nat.
Proof.
  intros H. unfold calls. cbn [since_restart]. destruct ev; try (apply number_cons). exfalso; eapply H; reflexivity.
Qed.
Lemma not_restart ev x : asks ev = Some x -> forall v, ev <> AgentRestarted v.
Proof. intros H v ->. discriminate H. Qed.
Lemma waiting_nth_set x l i y : (i < length l)%nat -> (number_of (waiting x) (set_nth i y l) + b2n (waiting x (nth i l no_slot))
  = number_of (waiting x) l + b2n (waiting x y))%nat.
Proof. apply number_set_nth. Qed.

Theorem calls_answers du remote version h s x : runs du remote version h s ->
  (answers h x + number_of (waiting x) (d_pending s) <= calls h x)%nat.
Proof.
  induction 1 as [|h s ev outs s' Hr IH Hs].
  - unfold answers, calls. cbn [since_restart flat_map]. rewrite (number_zero (waiting x)); [reflexivity|].
    intros a Ha. apply waiting_free. apply repeat_spec in Ha. now subst a.
  - pose proof (used_length _ _ _ _ _ Hr) as Hl. pose proof (pending_length _ _ _ _ _ Hr) as Hp.
    destruct (step_calls _ _ _ _ _ Hl Hs) as [Ha E _ Hn Hv _ | y Ha E _ Ho _ | y type len body pid i Ha Ev Ho Hf E _
      | y i Ha Hv Hq Hf E _ Hc Ho | q code i Ev Hq0 Hf Ho E _ | v Ev Ho E _].
    + rewrite answers_cons, calls_cons, Ha, E, Hn by exact Hv. cbn [b2n]. lia.
    + pose proof (not_restart _ _ Ha) as Hv. rewrite answers_cons, calls_cons, Ha, E, Ho by exact Hv.
      rewrite number_cons. unfold answer_of. cbn [refusal_of connection_of orb].
      rewrite orb_false_r. unfold number_of at 1. cbn [filter length]. lia.
    + pose proof (not_restart _ _ Ha) as Hv. rewrite answers_cons, calls_cons, Ha, E, Ho by exact Hv.
      apply free_slot_some in Hf as [Hi H0].
      pose proof (waiting_nth_set x (d_pending s) i (mkSlot pid y R_PENDING) Hi) as W.
      rewrite (waiting_free _ _ H0) in W. unfold waiting at 3 in W. cbn [s_pid s_resp s_ident is_pending] in W.
      unfold number_of at 1. cbn [filter length]. destruct (negb (pid =? 0)); cbn [andb b2n] in *; destruct (String.eqb y x); cbn [b2n] in *; lia.
    + rewrite answers_cons, calls_cons, Ha, E by exact Hv.
      apply find_request_some in Hf as (Hi & _ & Hw).
      pose proof (waiting_nth_set x (d_pending s) i (set_response R_ALLOW (nth i (d_pending s) no_slot)) Hi) as W.
      assert (Wf : waiting x (set_response R_ALLOW (nth i (d_pending s) no_slot)) = false).
      { unfold waiting, set_response. cbn [s_resp is_pending]. now rewrite andb_false_r. }
      rewrite Wf in W.
      assert (Wn : waiting x (nth i (d_pending s) no_slot) = String.eqb y x).
      { unfold waiting in *. apply andb_prop in Hw as [Hw Hw2]. apply String.eqb_eq in Hw2. rewrite Hw, Hw2. reflexivity. }
      rewrite Wn in W. cbn [b2n] in W.
      destruct Ho as [->|[_ Ho]]; [unfold number_of at 1; cbn [filter length]; lia|]. rewrite Ho. cbn [b2n]. lia.
    + assert (Hv : forall v, ev <> AgentRestarted v) by (intros v; subst ev; discriminate).
      rewrite answers_cons, calls_cons, E by exact Hv. rewrite Ev at 1. cbn [asks b2n].
      apply find_pid_some in Hf as (Hi & _ & Hq & _).
      set (z := nth i (d_pending s) no_slot) in *.
      pose proof (waiting_nth_set x (d_pending s) i (mkSlot 0 (s_ident z) (fst (reap_slot z code))) Hi) as W.
      fold z in W. rewrite (waiting_free _ (mkSlot 0 _ _)) in W by reflexivity. cbn [b2n] in W.
      rewrite Ho. unfold reap_slot in *. destruct (code =? 0).
      { cbn [snd] in *. unfold number_of at 1. cbn [filter length]. lia. }
      unfold waiting at 2 in W.
      destruct (s_resp z); cbn [snd fst is_pending] in *; try (unfold number_of at 1; cbn [filter length]; lia).
      (* the process of a pending request fails; its number may be 0 only for an unused slot *)
      rewrite number_cons. unfold answer_of. cbn [refusal_of connection_of]. rewrite orb_false_r.
      unfold number_of at 1. cbn [filter length].
      rewrite Hq in W. destruct (Z.eqb_spec q 0); [lia|]. cbn [negb andb] in W. lia.
    + subst ev. unfold answers, calls. cbn [since_restart flat_map]. rewrite E, (number_zero (waiting x)); [reflexivity|].
      intros a Ha. apply in_map_iff in Ha as (b & <- & _). now apply waiting_free.
Qed.

(** ** Calls in progress *)
Lemma shrink_keeps fuel lim l i : (i < lim)%nat -> s_pid (nth i l no_slot) <> 0 -> (i < shrink fuel lim l)%nat.
Proof.
  revert lim; induction fuel as [|fuel IH]; intros lim Hi Hp; cbn [shrink]; [exact Hi|].
  destruct ((1 <? lim)%nat && _) eqn:E; [|exact Hi]. apply andb_prop in E as [E1 E2].
  apply Nat.ltb_lt in E1. apply Z.eqb_eq in E2. apply IH; [|exact Hp].
  destruct (Nat.eq_dec i (lim - 1)) as [->|]; [congruence|lia].
Qed.
Definition taken (since : history) (x : string) : Prop :=
  exists ev outs, In (ev, outs) since /\ connect_request ev x /\ (outs = [] \/ connects outs x).
Lemma taken_cons e since x : taken since x -> taken (e :: since) x.
Proof. intros (ev & o & H & R). exists ev, o. split; [now right|exact R]. Qed.
Lemma in_progress_cons ev outs h since x q : in_progress h since x q ->
  (forall k, ev <> ChildEnded q k) -> (forall v, ev <> AgentRestarted v) ->
  in_progress ((ev, outs) :: h) ((ev, outs) :: since) x q.
Proof.
  intros (e & before & -> & Hs & Hq) H1 H2. exists e, before. split; [reflexivity|]. split; [exact Hs|].
  intros ev' o' [H|H]; [inversion H; subst; auto|eauto].
Qed.
Lemma in_progress_inv e h since x q : in_progress (e :: h) since x q ->
  (since = [] /\ starts_process e x q) \/
  exists since', since = e :: since' /\ in_progress h since' x q /\
    (forall k, fst e <> ChildEnded q k) /\ (forall v, fst e <> AgentRestarted v).
Proof.
  intros (e' & before & E & Hs & Hq). destruct since as [|a since].
  - left. inversion E; subst. auto.
  - right. inversion E; subst. exists since. split; [reflexivity|]. split.
    + exists e', before. split; [reflexivity|]. split; [exact Hs|]. intros ev o Hin. apply (Hq ev o). now right.
    + destruct a as [ev o]. apply (Hq ev o). now left.
Qed.
Lemma starts_inv ev outs x q : starts_process (ev, outs) x q ->
  asks ev = Some x /\ outs = [] /\ exists type len body, ev = FromAgent type len body q.
Proof.
  intros (A & B & C). cbn in *. split; [exact A|]. split; [exact B|]. destruct ev; try contradiction. subst. eauto.
Qed.
Lemma running_starts ev outs h x q : starts_process (ev, outs) x q -> running ((ev, outs) :: h) = q :: running h.
Proof.
  intros H. apply starts_inv in H as (A & -> & type & len & body & ->). cbn [running]. rewrite A. reflexivity.
Qed.
Lemma in_progress_running h since x q : in_progress h since x q -> In q (running h).
Proof.
  revert since; induction h as [|[ev o] h IH]; intros since H.
  - destruct H as (e & b & E & _). destruct since; discriminate E.
  - apply in_progress_inv in H as [[_ Hs]|(since' & _ & Hp & Hk & _)].
    + rewrite (running_starts _ _ _ _ _ Hs). now left.
    + apply IH in Hp. cbn [fst] in Hk. cbn [running].
      destruct ev as [fd hs|fd m ok|type len body pid|pid k|v]; auto.
      * destruct (asks (FromAgent type len body pid)); [|exact Hp]. destruct o; [now right|exact Hp].
      * apply in_in_remove; [|exact Hp]. intros ->. now apply (Hk k).
Qed.

Lemma running_pos h : no_kill h -> ~ In 0 (running h).
Proof.
  induction 1 as [|ev outs h Hk IH Hp0 _]; [intros []|]. cbn [running].
  destruct ev as [fd hs|fd m ok|type len body pid|pid k|v]; auto.
  - destruct (asks (FromAgent type len body pid)) as [x|] eqn:Ea; [|exact IH]. destruct outs; [|exact IH].
    intros [->|H]; [|auto]. destruct (Hp0 x 0) as [H0 _]; [|lia]. split; [exact Ea|]. split; reflexivity.
  - intros H. apply in_remove in H as [H _]. auto.
Qed.

Record calls_inv (h : history) (s : daemon) : Prop := {
  ci_lim : forall i, (i < 256)%nat -> s_pid (nth i (d_pending s) no_slot) <> 0 -> (i < d_limit s)%nat;
  ci_uniq : forall i j, (i < 256)%nat -> (j < 256)%nat -> i <> j ->
    s_pid (nth i (d_pending s) no_slot) = s_pid (nth j (d_pending s) no_slot) -> s_pid (nth i (d_pending s) no_slot) = 0;
  ci_slot : forall i, (i < 256)%nat -> s_pid (nth i (d_pending s) no_slot) <> 0 ->
    0 < s_pid (nth i (d_pending s) no_slot) /\
    exists since, in_progress h since (s_ident (nth i (d_pending s) no_slot)) (s_pid (nth i (d_pending s) no_slot)) /\
      (s_resp (nth i (d_pending s) no_slot) = R_PENDING \/ taken since (s_ident (nth i (d_pending s) no_slot)));
  ci_call : forall since x q, in_progress h since x q ->
    exists i, (i < 256)%nat /\ s_pid (nth i (d_pending s) no_slot) = q /\ s_ident (nth i (d_pending s) no_slot) = x
}.

Lemma init_slot i : (i < 256)%nat -> nth i (repeat (mkSlot 0 "" R_PENDING) MAX_CLIENTS) no_slot = no_slot.
Proof.
  intros Hi. apply (repeat_spec MAX_CLIENTS (mkSlot 0 "" R_PENDING)). apply nth_In. rewrite repeat_length. exact Hi.
Qed.
Lemma map_zero l i : s_pid (nth i (map (fun x => mkSlot 0 (s_ident x) (s_resp x)) l) no_slot) = 0.
Proof.
  destruct (Nat.ltb_spec i (length l)) as [H|H].
  - assert (Hin : In (nth i (map (fun x => mkSlot 0 (s_ident x) (s_resp x)) l) no_slot) (map (fun x => mkSlot 0 (s_ident x) (s_resp x)) l)).
    { apply nth_In. rewrite map_length. exact H. }
    apply in_map_iff in Hin as (y & E & _). rewrite <- E. reflexivity.
  - rewrite nth_overflow; [reflexivity|]. now rewrite map_length.
Qed.

Theorem calls_inv_holds du remote version h s : runs du remote version h s -> no_kill h -> calls_inv h s.
Proof.
  induction 1 as [|h s ev outs s' Hr IH Hs]; intros Hnk.
  - split.
    + intros i Hi Hp. exfalso. apply Hp. cbn [init d_pending]. now rewrite init_slot.
    + intros i j Hi Hj _ _. cbn [init d_pending]. now rewrite init_slot.
    + intros i Hi Hp. exfalso. apply Hp. cbn [init d_pending]. now rewrite init_slot.
    + intros since x q (e & b & E & _). destruct since; discriminate E.
  - inversion Hnk as [|ev' outs' h' Hnk0 Hpids Hsig E']; subst ev' outs' h'.
    destruct (IH Hnk0) as [L U S C]. clear IH.
    pose proof (used_length _ _ _ _ _ Hr) as Hlu. pose proof (pending_length _ _ _ _ _ Hr) as Hlp.
    destruct (step_calls _ _ _ _ _ Hlu Hs) as [Ha E El Hn Hv Hend | y Ha E El Ho _ | y type len body pid i Ha Ev Ho Hf E El
      | y i Ha Hv Hq Hf E El Hc Ho | q code i Ev Hq0 Hf Ho E El | v Ev Ho E El].
    + (* nothing *)
      assert (Hnp : forall since x q, in_progress h since x q -> forall k, ev <> ChildEnded q k).
      { intros since x q Hp k Ek. destruct k as [code|]; [|now apply (Hsig q)].
        destruct (C _ _ _ Hp) as (i & Hi & Eq & _).
        destruct (Z.eq_dec q 0) as [->|Hne].
        - apply in_progress_running in Hp. exact (running_pos _ Hnk0 Hp).
        - assert (Hp0 : s_pid (nth i (d_pending s) no_slot) <> 0) by congruence.
          destruct (S i Hi Hp0) as [Hpos _]. rewrite Eq in Hpos.
          apply (Hend q code i Ek Hpos (L i Hi Hp0)); [|exact Eq]. rewrite Hlp. exact Hi. }
      split; rewrite ?E, ?El; auto.
      * intros i Hi Hp. destruct (S i Hi Hp) as [Hpos (since & Hip & Hr')]. split; [exact Hpos|].
        exists ((ev, outs) :: since). split; [|destruct Hr'; [now left|right; now apply taken_cons]].
        apply in_progress_cons; [exact Hip|exact (Hnp _ _ _ Hip)|exact Hv].
      * intros since x q Hp. apply in_progress_inv in Hp as [[_ Hst]|(since' & _ & Hp & _)]; [|now apply (C since')].
        destruct Hst as (A & _). cbn [fst] in A. congruence.
    + (* refused at once *)
      assert (Hne : forall q k, ev <> ChildEnded q k) by (intros q k ->; discriminate Ha).
      pose proof (not_restart _ _ Ha) as Hv.
      split; rewrite ?E, ?El; auto.
      * intros i Hi Hp. destruct (S i Hi Hp) as [Hpos (since & Hip & Hr')]. split; [exact Hpos|].
        exists ((ev, outs) :: since). split; [|destruct Hr'; [now left|right; now apply taken_cons]].
        apply in_progress_cons; [exact Hip|apply Hne|exact Hv].
      * intros since x q Hp. apply in_progress_inv in Hp as [[_ Hst]|(since' & _ & Hp & _)]; [|now apply (C since')].
        destruct Hst as (_ & B & _). cbn [snd] in B. congruence.
    + (* a new process *)
      assert (Hst : starts_process (ev, outs) y pid).
      { split; [exact Ha|]. split; [exact Ho|]. subst ev. reflexivity. }
      destruct (Hpids _ _ Hst) as [Hpos Hfresh].
      assert (Hne : forall q k, ev <> ChildEnded q k) by (intros q k ->; discriminate Ha).
      pose proof (not_restart _ _ Ha) as Hv.
      apply free_slot_some in Hf as [Hi H0]. rewrite Hlp in Hi.
      assert (Hother : forall j, (j < 256)%nat -> s_pid (nth j (d_pending s) no_slot) <> pid).
      { intros j Hj Ej. assert (Hp0 : s_pid (nth j (d_pending s) no_slot) <> 0) by lia.
        destruct (S j Hj Hp0) as [_ (since & Hip & _)]. apply in_progress_running in Hip. rewrite Ej in Hip. auto. }
      split; rewrite ?E, ?El.
      * intros j Hj Hp. destruct (Nat.eq_dec i j) as [<-|Hij]; [lia|].
        rewrite set_nth_other in Hp by exact Hij. specialize (L j Hj Hp). lia.
      * intros j k Hj Hk Hjk. destruct (Nat.eq_dec i j) as [<-|Hij]; [|destruct (Nat.eq_dec i k) as [<-|Hik]].
        -- rewrite set_nth_same by (rewrite Hlp; exact Hi). rewrite set_nth_other by exact Hjk. cbn [s_pid].
           intros Eq. exfalso. apply (Hother k Hk). congruence.
        -- rewrite set_nth_same by (rewrite Hlp; exact Hi). rewrite set_nth_other by exact Hij. cbn [s_pid].
           intros Eq. exfalso. apply (Hother j Hj). congruence.
        -- rewrite !set_nth_other by assumption. now apply U.
      * intros j Hj. destruct (Nat.eq_dec i j) as [<-|Hij].
        -- rewrite set_nth_same by (rewrite Hlp; exact Hi). cbn [s_pid s_ident s_resp]. intros _. split; [exact Hpos|].
           exists []. split; [|now left]. exists (ev, outs), h. split; [reflexivity|]. split; [exact Hst|]. intros ? ? [].
        -- rewrite set_nth_other by exact Hij. intros Hp. destruct (S j Hj Hp) as [Hpos' (since & Hip & Hr')].
           split; [exact Hpos'|]. exists ((ev, outs) :: since).
           split; [|destruct Hr'; [now left|right; now apply taken_cons]].
           apply in_progress_cons; [exact Hip|apply Hne|exact Hv].
      * intros since x q Hp. apply in_progress_inv in Hp as [[_ Hst']|(since' & _ & Hp & _)].
        -- exists i. split; [exact Hi|]. rewrite set_nth_same by (rewrite Hlp; exact Hi). cbn [s_pid s_ident].
           apply starts_inv in Hst' as (A & _ & ? & ? & ? & B). rewrite Ha in A. rewrite Ev in B.
           split; congruence.
        -- destruct (C _ _ _ Hp) as (j & Hj & Eq & Ex). exists j. split; [exact Hj|].
           rewrite set_nth_other; [auto|]. intros <-. apply in_progress_running in Hp.
           rewrite H0 in Eq. subst q.
           exact (running_pos _ Hnk0 Hp).
    + (* a connection is requested *)
      apply find_request_some in Hf as (Hi & _ & Hw). rewrite Hlp in Hi.
      assert (Hid : s_ident (nth i (d_pending s) no_slot) = y).
      { unfold waiting in Hw. apply andb_prop in Hw as [_ Hw]. now apply String.eqb_eq. }
      assert (Esame : forall j, s_pid (nth j (d_pending s') no_slot) = s_pid (nth j (d_pending s) no_slot) /\
                                s_ident (nth j (d_pending s') no_slot) = s_ident (nth j (d_pending s) no_slot)).
      { intros j. rewrite E. destruct (Nat.eq_dec i j) as [<-|Hij].
        - rewrite set_nth_same by (rewrite Hlp; exact Hi). auto.
        - rewrite set_nth_other by exact Hij. auto. }
      split; rewrite ?El.
      * intros j Hj Hp. apply L; [exact Hj|]. now rewrite (proj1 (Esame j)) in Hp.
      * intros j k Hj Hk Hjk. rewrite !(proj1 (Esame _)). now apply U.
      * intros j Hj. rewrite (proj1 (Esame _)), (proj2 (Esame _)). intros Hp.
        destruct (S j Hj Hp) as [Hpos (since & Hip & Hr')]. split; [exact Hpos|].
        exists ((ev, outs) :: since). split. { apply in_progress_cons; [exact Hip|apply Hq|exact Hv]. }
        rewrite E. destruct (Nat.eq_dec i j) as [<-|Hij].
        -- right. exists ev, outs. split; [now left|]. rewrite Hid. split; [exact Hc|].
           destruct Ho as [->|[Ho _]]; auto.
        -- rewrite set_nth_other by exact Hij. destruct Hr'; [now left|right; now apply taken_cons].
      * intros since x q Hp. apply in_progress_inv in Hp as [[_ Hst']|(since' & _ & Hp & _)].
        -- destruct Hst' as (A & _). cbn [fst] in A. congruence.
        -- destruct (C _ _ _ Hp) as (j & Hj & Eq & Ex). exists j. split; [exact Hj|].
           rewrite (proj1 (Esame _)), (proj2 (Esame _)). auto.
    + (* a process exits *)
      apply find_pid_some in Hf as (Hi & _ & Hpid & _). rewrite Hlp in Hi.
      assert (Hother : forall j, (j < 256)%nat -> i <> j -> s_pid (nth j (d_pending s) no_slot) <> q).
      { intros j Hj Hij Ej. assert (Hz : s_pid (nth i (d_pending s) no_slot) = 0); [|lia].
        apply (U i j Hi Hj Hij). congruence. }
      split; rewrite ?El.
      * rewrite E. intros j Hj. destruct (Nat.eq_dec i j) as [<-|Hij].
        -- rewrite set_nth_same by (rewrite Hlp; exact Hi). cbn [s_pid]. congruence.
        -- intros Hp. apply shrink_keeps; [|exact Hp]. rewrite set_nth_other in Hp by exact Hij. now apply L.
      * rewrite E. intros j k Hj Hk Hjk. destruct (Nat.eq_dec i j) as [<-|Hij]; [|destruct (Nat.eq_dec i k) as [<-|Hik]].
        -- rewrite set_nth_same by (rewrite Hlp; exact Hi). reflexivity.
        -- rewrite (set_nth_same i) by (rewrite Hlp; exact Hi). cbn [s_pid]. auto.
        -- rewrite !set_nth_other by assumption. now apply U.
      * rewrite E. intros j Hj. destruct (Nat.eq_dec i j) as [<-|Hij].
        -- rewrite set_nth_same by (rewrite Hlp; exact Hi). cbn [s_pid]. congruence.
        -- rewrite set_nth_other by exact Hij. intros Hp. destruct (S j Hj Hp) as [Hpos (since & Hip & Hr')].
           split; [exact Hpos|]. exists ((ev, outs) :: since).
           split; [|destruct Hr'; [now left|right; now apply taken_cons]].
           apply in_progress_cons; [exact Hip| |].
           ++ intros k Ek. rewrite Ev in Ek. inversion Ek. apply (Hother j Hj Hij). congruence.
           ++ intros v Ek. rewrite Ev in Ek. discriminate Ek.
      * intros since x q' Hp. apply in_progress_inv in Hp as [[_ Hst']|(since' & _ & Hp & Hk & _)].
        -- destruct Hst' as (A & _). cbn [fst] in A. rewrite Ev in A. discriminate A.
        -- destruct (C _ _ _ Hp) as (j & Hj & Eq & Ex). exists j. split; [exact Hj|].
           rewrite E, set_nth_other; [auto|]. intros <-. cbn [fst] in Hk. apply (Hk (Exited code)). rewrite Ev. congruence.
    + (* restart *)
      split; rewrite ?El.
      * rewrite E. intros j Hj. rewrite map_zero. congruence.
      * rewrite E. intros j k Hj Hk Hjk. rewrite !map_zero. auto.
      * rewrite E. intros j Hj. rewrite map_zero. congruence.
      * intros since x q Hp. apply in_progress_inv in Hp as [[_ Hst']|(since' & _ & Hp & _ & Hv)].
        -- destruct Hst' as (A & _). cbn [fst] in A. rewrite Ev in A. discriminate A.
        -- cbn [fst] in Hv. now apply Hv in Ev.
Qed.
