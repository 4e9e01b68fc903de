(** C61-C63: the two ends of a call together *)
From Coq Require Import String Ascii List Bool Arith ZArith Lia.
From Verif Require Import Io IoProofs Stream SpecStream StreamProofs RemoteProofs ProcessIo SpecPio ProcessIoProofs PioProofs.
Import ListNotations.
Open Scope list_scope.

Lemma data_sendable c ms : Forall (fun m => (fst m = out_type c \/ fst m = MSG_DATA_STDERR /\ service c = true) /\ length (snd m) <= c_max (pc_rx c)) ms ->
  Forall (sendable (c_max (pc_rx c))) ms.
Proof.
  apply Forall_impl. intros [t q] [H L]. split; [|exact L]. cbn [fst] in *. destruct H as [->|[-> _]]; [unfold out_type; destruct (service c)|]; unfold MSG_DATA_STDOUT, MSG_DATA_STDIN, MSG_DATA_STDERR; lia.
Qed.
Lemma exit_sendable max z : 4 <= max -> sendable max (MSG_DATA_EXIT_CODE, enc32 z).
Proof. intros H. split; [unfold MSG_DATA_EXIT_CODE; cbn; lia|exact H]. Qed.

(** No stream message of another type: the stream of both together *)
Lemma stream_exit data z : stream_of (data ++ [(MSG_DATA_EXIT_CODE, enc32 z)]) = stream_of data.
Proof.
  induction data as [|[t p] data IH]; [reflexivity|]. cbn [app stream_of]. destruct (is_data t); [destruct p; [reflexivity|]; now rewrite IH|exact IH].
Qed.
Lemma xorb_same a : xorb a a = false. Proof. destruct a; reflexivity. Qed.
Lemma is_prefix_stream r init a b t : a = b ++ t -> is_prefix (init ++ shown r b) (init ++ shown r a).
Proof. intros ->. apply is_prefix_app. exists t. reflexivity. Qed.

(** What a live end that got no SIGUSR1 has sent *)
Lemma sent_stream p ok input es o s : sensible p -> no_usr1 es -> en_run p ok input es = o -> state_of o = Some s -> p_dead s = false -> 4 <= c_max (pc_rx (en_cfg p)) ->
  (en_prefix p = [] \/ forall ms, Forall (sendable (c_max (pc_rx (en_cfg p)))) ms -> is_prefix (wire ms) input -> no_exit ms) ->
  exists ms, p_vout s = wire ms /\ Forall (sendable (c_max (pc_rx (en_cfg p)))) ms /\ is_prefix (stream_of ms) (en_prefix p ++ en_src p) /\
    is_prefix (payload MSG_DATA_STDERR ms) (en_err p).
Proof.
  intros Hs Hu Ho Hst Hd H4 Hx. 
  assert (Hsg : p_single s = en_single p).
  { pose proof (run_single (en_cfg p) es Hu (k_start (kt p input) (en_cfg p) ok)) as K. rewrite en_run_start in Ho. rewrite Ho in K. unfold keeps in K. rewrite Hst in K. rewrite K.
    unfold k_start, pio_start. cbv zeta. destruct (_ && _); reflexivity. }
  destruct (sent p ok input es o s false false Hs Ho Hst Hd ltac:(discriminate) ltac:(discriminate)) as
    (cons & m & data & ex & s0 & HO & Hp & Hc & _ & Hd0 & E1 & _ & _ & _ & _ & _ & Hv & Hex & _).
  exists (data ++ ex). split; [exact Hv|]. pose proof (Out_dead _ _ _ _ _ HO Hd0) as (_ & HL & HE).
  destruct HO as (tail & lost & elost & total & HO).
  assert (Hss : p_single s0 = k_single (kt p input)) by (rewrite E1; exact Hsg).
  assert (St : stream_of data = payload (out_type (en_cfg p)) data).
  { apply (o_stream _ _ _ _ _ _ _ _ _ HO Hss). cbn [k_prefix kt]. destruct Hx as [Hx|Hx]; [auto|right]. apply Hx; assumption. }
  assert (SX : stream_of (data ++ ex) = stream_of data /\ payload MSG_DATA_STDERR (data ++ ex) = payload MSG_DATA_STDERR data).
  { destruct Hex as [->|(_ & _ & _ & z & -> & _)]; [rewrite app_nil_r; auto|]. split; [apply stream_exit|]. rewrite payload_app. unfold payload at 2. cbn. apply app_nil_r. }
  destruct SX as [SX1 SX2]. rewrite Hss, xorb_same in HL. cbn [legit] in HL.
  split; [apply Forall_app; split; [apply data_sendable, (o_types _ _ _ _ _ _ _ _ _ HO)|destruct Hex as [->|(_ & _ & _ & z & -> & _)]; [constructor|constructor; [apply exit_sendable, H4|constructor]]]|].
  split; [rewrite SX1, St; exists (p_prefix s0 ++ p_src s0); symmetry; exact HL|]. rewrite SX2. exists (p_errsrc s0). symmetry. exact HE.
Qed.

(** What the local process of the other end gets of it *)
Lemma got_prefix p ok ms es o s total : sensible p -> en_run p ok (wire ms) es = o -> state_of o = Some s ->
  Forall (sendable (c_max (pc_rx (en_cfg p)))) ms -> is_prefix (stream_of ms) total ->
  is_prefix (rx_out (p_rx s)) (en_buf p ++ shown (c_replace_out (pc_rx (en_cfg p))) total).
Proof.
  intros Hs Ho Hst Hms Ht. destruct (got p ok (wire ms) es o s false false Hs Ho Hst ltac:(discriminate) ltac:(discriminate)) as (cons & m & R & Hc & Hp & _).
  destruct (wire_prefix _ _ _ (proj1 (proj2 Hs)) Hc Hms Hp) as (rest & ->).
  assert (P : is_prefix (en_buf p ++ shown (c_replace_out (pc_rx (en_cfg p))) (stream_of cons)) (en_buf p ++ shown (c_replace_out (pc_rx (en_cfg p))) total)).
  { apply is_prefix_app. eapply is_prefix_trans; [apply stream_of_prefix|exact Ht]. }
  destruct R as (_ & _ & _ & R). destruct m.
  - destruct R as (_ & R & _). rewrite <- R in P. destruct P as (x & ->). rewrite <- app_assoc. eexists. reflexivity.
  - destruct R as (_ & -> & _). exact P.
  - destruct R as (R & _). eapply is_prefix_trans; eassumption.
Qed.

(** * C61 *)

(** From the service's stdout and stderr to the client. Whatever both ends do and
    whenever: what the client's end has written to its local process is a prefix of
    what was buffered there and what the service writes; what it has shown of stderr is
    a sequence of pieces of what the service writes there, each possibly cut short if
    the client's stderr cannot take it. *)
Theorem C61_from_service svc cl oks okc input es os ss ecs oc sc :
  sensible svc -> sensible cl -> service (en_cfg svc) = true -> service (en_cfg cl) = false ->
  c_max (pc_rx (en_cfg svc)) = c_max (pc_rx (en_cfg cl)) -> 4 <= c_max (pc_rx (en_cfg cl)) -> no_usr1 es ->
  en_run svc oks input es = os -> state_of os = Some ss -> p_dead ss = false ->
  en_run cl okc (p_vout ss) ecs = oc -> state_of oc = Some sc ->
  is_prefix (rx_out (p_rx sc)) (en_buf cl ++ shown (c_replace_out (pc_rx (en_cfg cl))) (en_src svc)) /\
  exists chunks ws, is_prefix (concat chunks) (en_err svc) /\ rx_err (p_rx sc) = concat ws /\
    Forall2 is_prefix ws (map (shown (c_replace_err (pc_rx (en_cfg cl)))) chunks).
Proof.
  intros Hs Hc Es Ec Em H4 Hu Ho Hst Hd Hoc Hsc.
  assert (Hpre : en_prefix svc = []) by (apply Hs; exact Es).
  destruct (sent_stream svc oks input es os ss Hs Hu Ho Hst Hd ltac:(rewrite Em; exact H4) ltac:(auto)) as (ms & Hv & Hms & P1 & P2).
  rewrite Hpre in P1. cbn [app] in P1. rewrite Hv in Hoc. rewrite Em in Hms.
  split; [eapply got_prefix; eassumption|].
  destruct (got cl okc (wire ms) ecs oc sc false false Hc Hoc Hsc ltac:(discriminate) ltac:(discriminate)) as (cons & m & R & Hcs & Hp & _).
  destruct (wire_prefix _ _ _ (proj1 (proj2 Hc)) Hcs Hms Hp) as (rest & ->).
  destruct R as (_ & _ & (ws & R1 & R2) & _). change (c_service (pc_rx (en_cfg cl))) with (service (en_cfg cl)) in R2. rewrite Ec in R2.
  exists (payloads MSG_DATA_STDERR cons), ws. split; [|split; [exact R1|exact R2]].
  eapply is_prefix_trans; [|exact P2]. rewrite payload_app. eexists. reflexivity.
Qed.

(** From the client to the service's stdin. If there is prefix data, this is about the
    time before the client sees the exit code of the service. *)
Theorem C61_from_client svc cl oks okc input ecs oc sc es os ss :
  sensible svc -> sensible cl -> service (en_cfg svc) = true -> service (en_cfg cl) = false ->
  c_max (pc_rx (en_cfg svc)) = c_max (pc_rx (en_cfg cl)) -> 4 <= c_max (pc_rx (en_cfg cl)) -> no_usr1 ecs ->
  (en_prefix cl = [] \/ forall ms, Forall (sendable (c_max (pc_rx (en_cfg cl)))) ms -> is_prefix (wire ms) input -> forall code, ~ In (MSG_DATA_EXIT_CODE, code) ms) ->
  en_run cl okc input ecs = oc -> state_of oc = Some sc -> p_dead sc = false ->
  en_run svc oks (p_vout sc) es = os -> state_of os = Some ss ->
  is_prefix (rx_out (p_rx ss)) (en_buf svc ++ shown (c_replace_out (pc_rx (en_cfg svc))) (en_prefix cl ++ en_src cl)).
Proof.
  intros Hs Hc Es Ec Em H4 Hu Hx Hoc Hsc Hd Ho Hst.
  destruct (sent_stream cl okc input ecs oc sc Hc Hu Hoc Hsc Hd H4 Hx) as (ms & Hv & Hms & P1 & _).
  rewrite Hv in Ho. rewrite <- Em in Hms. eapply got_prefix; eassumption.
Qed.

(** * C62 *)

(** A service end reports its exit code once and last, after everything its process
    wrote and exactly one end of each stream; the code is that of the process *)
Theorem C62_service_sends svc oks input es os ss ms code :
  sensible svc -> service (en_cfg svc) = true -> pc_exit_stdin (en_cfg svc) = false -> no_usr1 es -> no_resets es -> 4 <= c_max (pc_rx (en_cfg svc)) ->
  en_run svc oks input es = os -> state_of os = Some ss -> p_dead ss = false ->
  p_vout ss = wire ms -> Forall (sendable (c_max (pc_rx (en_cfg svc)))) ms -> In (MSG_DATA_EXIT_CODE, code) ms ->
  exists data z, ms = data ++ [(MSG_DATA_EXIT_CODE, enc32 z)] /\ (forall p, ~ In (MSG_DATA_EXIT_CODE, p) data) /\
    os = PDone ss /\ (if pc_local (en_cfg svc) then reaped es z /\ (0 <= z)%Z else z = 0%Z) /\
    payload MSG_DATA_STDOUT data = en_src svc /\ payload MSG_DATA_STDERR data = en_err svc /\
    eofs MSG_DATA_STDOUT data = 1 /\ eofs MSG_DATA_STDERR data = 1 /\ stream_of data = en_src svc.
Proof.
  intros Hs Es Ex Hu Hr H4 Ho Hst Hd Hv Hms Hin.
  assert (Hq : Forall (quiet2 (en_cfg svc)) es).
  { unfold no_usr1, no_resets in *. rewrite Forall_forall in *. intros e He. destruct (Hr e He) as [X Y]. split; [exact (Hu e He)|]. split; [exact X|]. split; [exact Y|exact Ex]. }
  assert (Hpre : en_prefix svc = []) by (apply Hs; exact Es).
  destruct (sent svc oks input es os ss false true Hs Ho Hst Hd ltac:(discriminate) ltac:(auto)) as
    (cons & m & data & ex & s0 & HO & Hp & Hc & _ & Hd0 & E1 & E2 & E3 & E4 & E5 & E6 & Hv2 & Hex & Q).
  pose proof (Out_dead _ _ _ _ _ HO Hd0) as (_ & HL & HE). destruct HO as (tail & lost & elost & total & HO).
  assert (Hn : no_exit data) by (eapply no_exit_data, (o_types _ _ _ _ _ _ _ _ _ HO)).
  assert (Hsd : Forall (sendable (c_max (pc_rx (en_cfg svc)))) (data ++ ex)).
  { apply Forall_app; split; [apply data_sendable, (o_types _ _ _ _ _ _ _ _ _ HO)|destruct Hex as [->|(_ & _ & _ & z & -> & _)]; [constructor|constructor; [apply exit_sendable, H4|constructor]]]. }
  assert (Em : ms = data ++ ex).
  { rewrite Hv in Hv2. pose proof (proj1 (proj2 Hs)) as Hmax. destruct (wire_prefix _ ms (data ++ ex) Hmax Hms Hsd) as (r1 & X1); [exists []; rewrite app_nil_r; auto|].
    rewrite X1 in Hv2. rewrite wire_app in Hv2. rewrite <- (app_nil_r (wire ms)) in Hv2 at 1. apply app_inv_head in Hv2. destruct r1 as [|t r1]; [rewrite app_nil_r in X1; auto|destruct t; discriminate]. }
  destruct Hex as [->|(_ & Hdone & Hall & z & -> & Hz)].
  { rewrite app_nil_r in Em. subst ms. exfalso. exact (Hn _ Hin). }
  destruct (Q eq_refl ltac:(auto)) as (Q1 & Q2 & Q3). unfold all_closed in Hall. apply andb_true_iff in Hall as [Hall C3]. apply andb_true_iff in Hall as [C1 C2].
  apply negb_true_iff in C1, C2, C3.
  assert (Hss : p_single s0 = k_single (kt svc input)) by (rewrite E1; exact Q1).
  assert (Ety : out_type (en_cfg svc) = MSG_DATA_STDOUT) by (unfold out_type; rewrite Es; reflexivity).
  assert (St : stream_of data = payload (out_type (en_cfg svc)) data).
  { apply (o_stream _ _ _ _ _ _ _ _ _ HO Hss). left. exact Hpre. }
  pose proof (o_prefix _ _ _ _ _ _ _ _ _ HO Hpre) as Hpp. rewrite Hss, xorb_same in HL. cbn [legit kt k_prefix k_src] in HL.
  rewrite Hpp, (Q2 Es C2), Hpre, !app_nil_r in HL. cbn [app] in HL. rewrite (Q3 C3), app_nil_r in HE. rewrite Ety in *.
  exists data, z. split; [exact Em|]. split; [exact Hn|]. split; [exact Hdone|]. split.
  { destruct (pc_local (en_cfg svc)) eqn:El; [|exact Hz]. destruct Hz as [Hz1 Hz2]. split; [|exact Hz2].
    pose proof (run_local (en_cfg svc) es (k_start (kt svc input) (en_cfg svc) oks)) as K. rewrite en_run_start in Ho. rewrite Ho in K. unfold keeps in K. rewrite Hst in K.
    destruct K as [K|[_ (e & K1 & K2)]].
    - exfalso. assert (p_local (k_start (kt svc input) (en_cfg svc) oks) = -1)%Z by (unfold k_start, pio_start; cbv zeta; destruct (_ && _); reflexivity). lia.
    - exists e. split; [exact K1|]. rewrite Hz1. exact K2. }
  split; [exact HL|]. split; [exact HE|]. split.
  { rewrite <- Ety. apply (o_eof1 _ _ _ _ _ _ _ _ _ HO Es Hd0 Hss). rewrite E3. exact C2. }
  split; [apply (o_eeof1 _ _ _ _ _ _ _ _ _ HO Es Hd0); rewrite E4; exact C3|]. rewrite St. exact HL.
Qed.

(** The client end that has received an exit code and left its loop has written
    everything the service wrote, and returns the exit code of the service *)
Theorem C62_client_gets_partial svc cl oks okc input es os ss ecs sc wait :
  sensible svc -> sensible cl -> service (en_cfg svc) = true -> service (en_cfg cl) = false ->
  c_max (pc_rx (en_cfg svc)) = c_max (pc_rx (en_cfg cl)) -> 4 <= c_max (pc_rx (en_cfg cl)) ->
  pc_exit_stdin (en_cfg svc) = false -> no_usr1 es -> no_resets es -> (forall z, reaped es z -> 0 <= z < 256)%Z ->
  en_run svc oks input es = os -> state_of os = Some ss -> p_dead ss = false ->
  keeps_reading cl ecs -> no_poll_error ecs ->
  en_run cl okc (p_vout ss) ecs = PDone sc -> (0 <= rx_status (p_rx sc))%Z ->
  rx_out (p_rx sc) = en_buf cl ++ shown (c_replace_out (pc_rx (en_cfg cl))) (en_src svc) /\
  os = PDone ss /\
  (if pc_local (en_cfg svc) then reaped es (pio_return (en_cfg cl) wait sc) else pio_return (en_cfg cl) wait sc = 0%Z).
Proof.
  intros Hs Hc Es Ec Em H4 Ex Hu Hr Hz Ho Hst Hd (K1 & K2 & K3 & K4) Hpe Hoc Hcode.
  assert (Hq1 : Forall (quiet1 (en_cfg cl)) ecs).
  { rewrite Forall_forall in *. intros e He. destruct (K4 e He) as (X & Y & Z). split; [congruence|]. auto. }
  destruct (sent svc oks input es os ss false false Hs Ho Hst Hd ltac:(discriminate) ltac:(discriminate)) as
    (cons0 & m0 & data & ex & s0 & HO & _ & _ & _ & _ & _ & _ & _ & _ & _ & _ & Hv & Hex & _).
  destruct HO as (tail & lost & elost & total & HO).
  assert (Hsd : Forall (sendable (c_max (pc_rx (en_cfg svc)))) (data ++ ex)).
  { apply Forall_app; split; [apply data_sendable, (o_types _ _ _ _ _ _ _ _ _ HO)|destruct Hex as [->|(_ & _ & _ & z & -> & _)]; [constructor|constructor; [apply exit_sendable; lia|constructor]]]. }
  rewrite Hv in Hoc.
  destruct (got cl okc (wire (data ++ ex)) ecs (PDone sc) sc true false Hc Hoc eq_refl ltac:(auto) ltac:(discriminate)) as (cons & m & R & Hcs & Hp & Hm).
  destruct (Hm ltac:(auto)) as (Hm1 & Hm2 & Hm3). specialize (Hm3 eq_refl).
  assert (Hsd' := Hsd). rewrite Em in Hsd'. destruct (wire_prefix _ _ _ (proj1 (proj2 Hc)) Hcs Hsd' Hp) as (rest & Er).
  destruct R as (R1 & R2 & R3 & R4). change (c_service (pc_rx (en_cfg cl))) with (service (en_cfg cl)) in R2. rewrite Ec in R2.
  assert (Hin : exists p, In (MSG_DATA_EXIT_CODE, p) cons) by (apply (exit_in (-1)); rewrite <- R2; lia).
  destruct Hin as (px & Hin).
  destruct (C62_service_sends svc oks input es os ss (data ++ ex) px Hs Es Ex Hu Hr ltac:(lia) Ho Hst Hd Hv Hsd) as
    (dat & z & E1 & E2 & E3 & E4 & E5 & E6 & E7 & E8 & E9). { rewrite Er. apply in_or_app. now left. }
  rewrite E1 in Er.
  assert (rest = []) by (eapply (exit_is_last dat z cons rest E2 ltac:(eauto)); exact Er). subst rest. rewrite app_nil_r in Er. subst cons.
  assert (Est : stream_of (dat ++ [(MSG_DATA_EXIT_CODE, enc32 z)]) = en_src svc) by (rewrite stream_exit; exact E9).
  assert (Hzr : (0 <= z < 256)%Z).
  { destruct (pc_local (en_cfg svc)); [apply Hz, E4|rewrite E4; lia]. }
  assert (Hst2 : rx_status (p_rx sc) = z).
  { rewrite R2, last_exit_app, (last_exit_data dat) by exact E2. unfold last_exit. cbn [fold_left fst snd]. change (MSG_DATA_EXIT_CODE =? MSG_DATA_EXIT_CODE)%Z with true. cbn match.
    unfold code_of. change (zlen (enc32 z) <? 4)%Z with false. cbn match. rewrite <- (app_nil_r (enc32 z)), dec32_enc32 by lia. unfold to_int. destruct (Z.ltb_spec z 2147483648); lia. }
  split; [|split; [exact E3|]].
  - destruct m; [| |congruence].
    + destruct R4 as (_ & R4 & _). rewrite Est in R4. destruct (run_done _ _ _ _ Hoc) as [X|[[_ X]|X]].
      * exfalso. cbn [is_open] in Hm1. unfold all_closed in X. rewrite <- Hm1 in X. discriminate X.
      * rewrite X, app_nil_r in R4. exact R4.
      * contradiction.
    + destruct R4 as (_ & R4 & _). rewrite Est in R4. exact R4.
  - unfold pio_return. rewrite Ec, K1. cbn [negb andb]. rewrite Hst2. destruct (Z.eqb_spec z 0) as [->|]; cbn [negb];
      destruct (pc_local (en_cfg svc)); auto; apply E4.
Qed.

(** * C63 *)

(** With room for two chunks left, no schedule makes an end abort, and what it holds in
    memory for a process that does not read stays within one chunk (or what was there at
    the beginning): the peer is not read from until the process has taken it *)
Theorem C63_bounded p ok input es :
  sensible p -> (0 <= en_base p)%Z -> (en_base p + 2 * Z.of_nat (Nat.max (length (en_buf p)) (c_max (pc_rx (en_cfg p)))) <= BUFFER_LIMIT)%Z ->
  no_zero_writes es ->
  exists s, state_of (en_run p ok input es) = Some s /\
    length (rx_buf (p_rx s)) <= Nat.max (length (en_buf p)) (c_max (pc_rx (en_cfg p))) /\
    rx_tm (p_rx s) = (en_base p + zlen (rx_buf (p_rx s)))%Z.
Proof.
  intros Hs Hb Hl Hz. destruct (en_run p ok input es) as [s|s|s|] eqn:E.
  4: { exfalso. revert E. rewrite en_run_start. apply (run_no_abort (kt p input)); auto. apply pio_start_inv. exact Hs. }
  all: destruct (got p ok input es _ s false false Hs E eq_refl ltac:(discriminate) ltac:(discriminate)) as (cons & m & R & _); exists s; split; [reflexivity|];
    destruct R as (R1 & _ & _ & R4); split; [|exact R1]; destruct m; [apply R4|destruct R4 as (_ & _ & ->); cbn; lia|apply R4].
Qed.
(** and the end of each stream is announced at most once; on the service's end of a live
    connection exactly once as soon as it is closed *)
Theorem C63_one_eof_partial p ok input es o s : sensible p -> no_usr1 es -> 4 <= c_max (pc_rx (en_cfg p)) ->
  en_run p ok input es = o -> state_of o = Some s -> p_dead s = false ->
  exists ms, p_vout s = wire ms /\ Forall (sendable (c_max (pc_rx (en_cfg p)))) ms /\
    (forall ty, eofs ty ms <= 1) /\
    (service (en_cfg p) = true -> (p_stdout s = false -> eofs MSG_DATA_STDOUT ms = 1) /\ (p_stderr s = false -> eofs MSG_DATA_STDERR ms = 1)).
Proof.
  intros Hs Hu H4 Ho Hst Hd.
  assert (Hsg : p_single s = en_single p).
  { pose proof (run_single (en_cfg p) es Hu (k_start (kt p input) (en_cfg p) ok)) as K. rewrite en_run_start in Ho. rewrite Ho in K. unfold keeps in K. rewrite Hst in K. rewrite K.
    unfold k_start, pio_start. cbv zeta. destruct (_ && _); reflexivity. }
  destruct (sent p ok input es o s false false Hs Ho Hst Hd ltac:(discriminate) ltac:(discriminate)) as
    (cons & m & data & ex & s0 & HO & Hp & Hc & _ & Hd0 & E1 & _ & E3 & E4 & _ & _ & Hv & Hex & _).
  destruct HO as (tail & lost & elost & total & HO). assert (Hss : p_single s0 = k_single (kt p input)) by (rewrite E1; exact Hsg).
  assert (Xe : forall ty, eofs ty (data ++ ex) = eofs ty data).
  { intros ty. rewrite eofs_app. destruct Hex as [->|(_ & _ & _ & z & -> & _)]; [cbn; lia|]. unfold eofs at 2. cbn [filter fst snd]. cbn [enc32 length Nat.eqb]. rewrite andb_false_r. cbn. lia. }
  exists (data ++ ex). split; [exact Hv|].
  split; [apply Forall_app; split; [apply data_sendable, (o_types _ _ _ _ _ _ _ _ _ HO)|destruct Hex as [->|(_ & _ & _ & z & -> & _)]; [constructor|constructor; [apply exit_sendable, H4|constructor]]]|].
  pose proof (o_eofs _ _ _ _ _ _ _ _ _ HO Hss) as X1. pose proof (o_eeofs _ _ _ _ _ _ _ _ _ HO) as X2.
  split.
  - intros ty. rewrite Xe. destruct (Z.eq_dec ty (out_type (en_cfg p))) as [->|N1]; [lia|]. destruct (Z.eq_dec ty MSG_DATA_STDERR) as [->|N2]; [lia|].
    replace (eofs ty data) with 0; [lia|]. symmetry. pose proof (o_types _ _ _ _ _ _ _ _ _ HO) as T. clear - T N1 N2. unfold eofs.
    induction T as [|[t q] ms [T _] _ IH]; [reflexivity|]. cbn [filter fst snd] in *. destruct (Z.eqb_spec t ty) as [->|]; [|exact IH]. exfalso. destruct T as [T|[T _]]; congruence.
  - intros Es. rewrite !Xe. assert (Ety : out_type (en_cfg p) = MSG_DATA_STDOUT) by (unfold out_type; rewrite Es; reflexivity). split; intros C.
    + rewrite <- Ety. apply (o_eof1 _ _ _ _ _ _ _ _ _ HO Es Hd0 Hss). rewrite E3. exact C.
    + apply (o_eeof1 _ _ _ _ _ _ _ _ _ HO Es Hd0). rewrite E4. exact C.
Qed.

(** * A call, step by step *)
Definition ch (s : string) : bytes := list_ascii_of_string s.
Definition st_in (space : Z) (k : nat) : istep := {| i_space := space; i_read := IRead k; i_hdr := true; i_writes := [Wrote 2; Wrote 100] |}.
Definition st_again : istep := {| i_space := 100; i_read := IAgain; i_hdr := true; i_writes := [] |}.
Definition st_rd (ws : list wres) : rstep := {| r_ready := true; r_reads := [Read 1; Read 100]; r_writes := ws; r_errs := [Wrote 100] |}.
Definition env0 : penv := {| e_child := None; e_send := true; e_code := CodeSent; e_open := true; e_usr1 := false; e_poll := PollOk; e_wait := true; e_hup := false;
  e_flush := [Wrote 100]; e_remote := []; e_outrev := false; e_osteps := []; e_errrev := false; e_esteps := [] |}.
Definition e_with_remote (e : penv) (r : list rstep) : penv :=
  {| e_child := e_child e; e_send := e_send e; e_code := e_code e; e_open := e_open e; e_usr1 := e_usr1 e; e_poll := e_poll e; e_wait := e_wait e; e_hup := e_hup e;
     e_flush := e_flush e; e_remote := r; e_outrev := e_outrev e; e_osteps := e_osteps e; e_errrev := e_errrev e; e_esteps := e_esteps e |}.
Definition e_with_out (e : penv) (o : list istep) : penv :=
  {| e_child := e_child e; e_send := e_send e; e_code := e_code e; e_open := e_open e; e_usr1 := e_usr1 e; e_poll := e_poll e; e_wait := e_wait e; e_hup := e_hup e;
     e_flush := e_flush e; e_remote := e_remote e; e_outrev := true; e_osteps := o; e_errrev := e_errrev e; e_esteps := e_esteps e |}.
Definition e_with_err (e : penv) (o : list istep) : penv :=
  {| e_child := e_child e; e_send := e_send e; e_code := e_code e; e_open := e_open e; e_usr1 := e_usr1 e; e_poll := e_poll e; e_wait := e_wait e; e_hup := e_hup e;
     e_flush := e_flush e; e_remote := e_remote e; e_outrev := e_outrev e; e_osteps := e_osteps e; e_errrev := true; e_esteps := o |}.
Definition e_with_child (e : penv) (z : Z) : penv :=
  {| e_child := Some z; e_send := e_send e; e_code := e_code e; e_open := e_open e; e_usr1 := e_usr1 e; e_poll := e_poll e; e_wait := e_wait e; e_hup := e_hup e;
     e_flush := e_flush e; e_remote := e_remote e; e_outrev := e_outrev e; e_osteps := e_osteps e; e_errrev := e_errrev e; e_esteps := e_esteps e |}.
Definition e_with_usr1 (e : penv) : penv :=
  {| e_child := e_child e; e_send := e_send e; e_code := e_code e; e_open := e_open e; e_usr1 := true; e_poll := e_poll e; e_wait := e_wait e; e_hup := e_hup e;
     e_flush := e_flush e; e_remote := e_remote e; e_outrev := e_outrev e; e_osteps := e_osteps e; e_errrev := e_errrev e; e_esteps := e_esteps e |}.
Definition cfg (svc local : bool) : pcfg :=
  {| pc_rx := {| c_service := svc; c_replace_out := false; c_replace_err := false; c_max := 6 |}; pc_exit_stdin := false; pc_exit_stdout := false; pc_local := local; pc_closes := true; pc_dup := false |}.
Definition a_service : endpoint :=
  {| en_cfg := cfg true true; en_single := false; en_haserr := true; en_base := 0; en_buf := []; en_prefix := []; en_src := ch "hello, world"; en_sock := ch "late"; en_err := ch "oops" |}.
Definition a_client (prefix : bytes) : endpoint :=
  {| en_cfg := cfg false false; en_single := false; en_haserr := false; en_base := 0; en_buf := []; en_prefix := prefix; en_src := ch "question"; en_sock := []; en_err := [] |}.
Definition svc_env : list penv :=
  [e_with_err (e_with_out (e_with_remote env0 [st_rd [Wrote 3]; st_rd [Wrote 9]]) [st_in 11 9; st_in 100 90; st_again]) [st_in 100 2];
   e_with_out (e_with_remote env0 [st_rd [Wrote 9]]) [st_in 100 90; st_in 100 90];
   e_with_err env0 [st_in 100 90; st_in 100 90]; e_with_child env0 3].
Definition cl_env : list penv :=
  [e_with_out env0 [st_in 100 90; st_in 100 90; st_in 100 90];
   e_with_remote env0 [st_rd [Wrote 3; WAgain]]; e_with_remote env0 [st_rd [Wrote 9]; st_rd [Wrote 9]; st_rd [Wrote 9]; st_rd []];
   e_with_remote env0 [st_rd [Wrote 9]; st_rd [Wrote 9]; st_rd [Wrote 9]; st_rd [Wrote 9]]; e_with_remote env0 [st_rd []]; env0].

Lemma a_service_ok : sensible a_service.
Proof. unfold sensible, a_service, cfg, service. cbn. repeat split; intros; try discriminate; lia. Qed.
Lemma a_client_ok prefix : sensible (a_client prefix).
Proof. unfold sensible, a_client, cfg, service. cbn. repeat split; intros; try discriminate; lia. Qed.

(** The whole call of the examples of C61 to C63: the hypotheses of the theorems hold of it,
    and it ends well *)
Example C62_call :
  exists ss sc, en_run a_service true (wire [(MSG_DATA_STDIN, ch "questi"); (MSG_DATA_STDIN, ch "on"); (MSG_DATA_STDIN, [])]) svc_env = PDone ss /\
    p_dead ss = false /\ rx_out (p_rx ss) = ch "question" /\
    no_usr1 svc_env /\ no_resets svc_env /\ reaped svc_env 3 /\ keeps_reading (a_client []) cl_env /\ no_poll_error cl_env /\ no_zero_writes cl_env /\
    p_vout ss = wire [(MSG_DATA_STDOUT, ch "hel"); (MSG_DATA_STDOUT, ch "lo, wo"); (MSG_DATA_STDERR, ch "oo"); (MSG_DATA_STDOUT, ch "rld"); (MSG_DATA_STDOUT, []);
                      (MSG_DATA_STDERR, ch "ps"); (MSG_DATA_STDERR, []); (MSG_DATA_EXIT_CODE, enc32 3)] /\
    en_run (a_client []) true (p_vout ss) cl_env = PDone sc /\ rx_out (p_rx sc) = ch "hello, world" /\ rx_err (p_rx sc) = ch "oops" /\
    p_vout sc = wire [(MSG_DATA_STDIN, ch "questi"); (MSG_DATA_STDIN, ch "on"); (MSG_DATA_STDIN, [])] /\ pio_return (en_cfg (a_client [])) 0 sc = 3%Z.
Proof.
  eexists. eexists. split; [vm_compute; reflexivity|]. split; [reflexivity|]. split; [vm_compute; reflexivity|].
  split; [repeat constructor|]. split; [repeat (constructor; try discriminate)|]. split; [exists (e_with_child env0 3); split; [cbn; auto|reflexivity]|].
  split; [unfold keeps_reading; cbn; repeat split; repeat (constructor; try discriminate)|].
  split; [repeat (constructor; try discriminate)|].
  split; [repeat (constructor; try (cbn; intros X; repeat destruct X as [X|X]; try discriminate X; contradiction))|].
  split; [vm_compute; reflexivity|]. split; [vm_compute; reflexivity|]. vm_compute. auto.
Qed.

(** SIGUSR1 that is noticed only after the end of stdout was sent: the end is
    announced twice, and what the service writes to the socket after it was announced
    first is dropped by the client *)
Theorem C63_usr1_refuted :
  exists es ss ms, en_run a_service true [] es = PGo ss /\ p_dead ss = false /\ p_vout ss = wire ms /\ Forall (sendable 6) ms /\
    eofs MSG_DATA_STDOUT ms = 2 /\ payload MSG_DATA_STDOUT ms = ch "hello, worldlate" /\
    exists ecs sc, en_run (a_client []) true (p_vout ss) ecs = PGo sc /\ rx_in (p_rx sc) = [] /\ rx_out (p_rx sc) = ch "hello, world".
Proof.
  exists [e_with_out env0 [st_in 100 90; st_in 100 90; st_in 100 90]; e_with_usr1 (e_with_out env0 [st_in 100 90; st_in 100 90])]. eexists.
  exists [(MSG_DATA_STDOUT, ch "hello,"); (MSG_DATA_STDOUT, ch " world"); (MSG_DATA_STDOUT, []); (MSG_DATA_STDOUT, ch "late"); (MSG_DATA_STDOUT, [])].
  split; [vm_compute; reflexivity|]. split; [reflexivity|]. split; [vm_compute; reflexivity|].
  split. { repeat (constructor; [split; cbn; unfold MSG_DATA_STDOUT; lia|]). constructor. }
  split; [reflexivity|]. split; [vm_compute; reflexivity|].
  exists [e_with_remote env0 [st_rd [Wrote 9]; st_rd [Wrote 9]; st_rd []]; e_with_remote env0 [st_rd []; st_rd []]]. eexists.
  split; [vm_compute; reflexivity|]. split; vm_compute; reflexivity.
Qed.

(** A client with prefix data that gets the exit code before all of it is sent: it
    announces the end and then goes on sending, and then exits with 1 instead of the
    code of the service *)
Theorem C62_prefix_refuted :
  exists ecs sc ms, en_run (a_client (ch "prefix data")) true (wire [(MSG_DATA_STDOUT, []); (MSG_DATA_STDERR, []); (MSG_DATA_EXIT_CODE, enc32 0)]) ecs = PDie sc /\
    rx_status (p_rx sc) = 0%Z /\ p_dead sc = false /\ p_vout sc = wire ms /\
    ms = [(MSG_DATA_STDIN, ch "prefi"); (MSG_DATA_STDIN, []); (MSG_DATA_STDIN, ch "x data")].
Proof.
  exists [e_with_out env0 [st_in 13 90]; e_with_remote env0 [st_rd []]; e_with_out (e_with_remote env0 [st_rd []; st_rd []]) [st_in 100 90; st_in 100 90]]. eexists. eexists.
  split; [vm_compute; reflexivity|]. split; [reflexivity|]. split; [reflexivity|]. split; [|reflexivity]. vm_compute. reflexivity.
Qed.
