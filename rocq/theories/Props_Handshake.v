(** * C82: the version of the protocol *)
From Coq Require Import String Ascii List Bool Arith ZArith Lia.
From Verif Require Import Base Sanitize DaemonAgent DaemonState SpecState StateProofs ExecuteVm SpecVm Props_Vm Props_Meet Handshake.
From Verif Require Io Stream SpecStream StreamProofs Props_Stream Exec.
Import ListNotations.
Open Scope string_scope.
Open Scope Z_scope.

(** What two ends that speak all versions up to [a] and [b] should agree on: the highest
    that both speak, if it is one with a handshake *)
Definition best (a b : Z) : option Z := if Z.min a b <? 2 then None else Some (Z.min a b).

Lemma received_own v : 0 <= v < 4294967296 -> received_hello (hello v) = Some v.
Proof.
  intros H. unfold received_hello, hello. change (String.length (le32 MSG_HELLO +++ le32 sizeof_peer_info +++ le32 v)) with 12%nat.
  change (12 <? 8)%nat with false. change (12 <? 12)%nat with false. rewrite sdrop_le32, sdrop8_le32, !u32_le32 by (unfold MSG_HELLO, sizeof_peer_info; lia).
  rewrite Z.eqb_refl, Z.eqb_refl. cbn [negb andb]. rewrite <- (app_nil_s (le32 v)), u32_le32 by exact H. reflexivity.
Qed.
Lemma choose_best own v : choose own v = best own v.
Proof.
  unfold choose, best, MIN_VERSION. assert (E : (if v <? own then v else own) = Z.min own v) by (destruct (Z.ltb_spec v own); lia).
  rewrite E. reflexivity.
Qed.

(** Agent and dom0 on a data vchan, whoever speaks first: both get the best version, or
    both fail *)
Theorem C82_agent_and_dom0 a d first from_dom0 of_dom0 of_agent :
  0 <= a < 4294967296 -> 0 <= d < 4294967296 ->
  handle_agent_handshake d first (hello a) = (from_dom0, of_dom0) -> handle_handshake a from_dom0 = of_agent ->
  of_dom0 = best a d /\ of_agent = best a d.
Proof.
  intros Ha Hd. unfold handle_agent_handshake, handle_handshake. rewrite received_own by exact Ha. rewrite choose_best.
  assert (Es : best d a = best a d) by (unfold best; now rewrite Z.min_comm). rewrite Es.
  destruct first; [destruct (best a d) as [v|] eqn:E|]; intros H <-; injection H as <- <-.
  - rewrite received_own, choose_best by exact Hd. auto.
  - auto.
  - rewrite received_own, choose_best by exact Hd. auto.
Qed.
(** Two agents *)
Theorem C82_two_agents a b : 0 <= a < 4294967296 -> 0 <= b < 4294967296 ->
  handle_handshake a (hello b) = best a b /\ handle_handshake b (hello a) = best a b.
Proof.
  intros Ha Hb. unfold handle_handshake. rewrite !received_own, !choose_best by assumption. split; [reflexivity|]. unfold best. now rewrite Z.min_comm.
Qed.
(** Whatever the other end sends, the result is a version that this end speaks *)
Theorem C82_own a d first incoming from_dom0 v :
  (handle_handshake a incoming = Some v -> 2 <= v <= a) /\
  (handle_agent_handshake d first incoming = (from_dom0, Some v) -> 2 <= v <= d).
Proof.
  assert (C : forall own x, choose own x = Some v -> 2 <= v <= own).
  { intros own x. rewrite choose_best. unfold best. destruct (Z.ltb_spec (Z.min own x) 2); [discriminate|]. intros E; injection E as <-. lia. }
  split.
  - unfold handle_handshake. destruct (received_hello incoming); [apply C|discriminate].
  - unfold handle_agent_handshake. destruct (received_hello incoming) as [x|].
    + destruct first; [destruct (choose d x) eqn:E|]; intros H; try discriminate; apply pair_eq in H as [_ H]; [injection H as ->|]; eapply C; eassumption.
    + destruct first; discriminate.
Qed.
(** The control vchan: both agree when the agent is not newer than the daemon *)
Theorem C82_control a d from_daemon of_daemon : 0 <= a < 4294967296 -> 0 <= d -> a <= d ->
  handle_agent_hello d (hello a) = (from_daemon, of_daemon) ->
  of_daemon = best a d /\ handle_handshake a from_daemon = best a d.
Proof.
  intros Ha Hd Hle. unfold handle_agent_hello, handle_handshake. rewrite received_own, choose_best by exact Ha.
  assert (Es : best d a = best a d) by (unfold best; now rewrite Z.min_comm). rewrite Es.
  destruct (best a d) as [v|] eqn:E; intros H; injection H as <- <-; [|auto]. split; [reflexivity|].
  rewrite received_own, choose_best by exact Ha. rewrite <- E. unfold best. now rewrite (Z.min_l a d), Z.min_id by lia.
Qed.
(** but not with a newer agent: the daemon repeats the version of the agent and does not
    tell its own *)
Theorem C82_newer_agent_refuted : exists from_daemon,
  handle_agent_hello 4 (hello 5) = (from_daemon, Some 4) /\ handle_handshake 5 from_daemon = Some 5.
Proof. exists (hello 5). split; vm_compute; reflexivity. Qed.

(** ** Consequences for the data *)
(** the limit for a message: 4096 bytes in version 2, 65536 bytes from version 3 on *)
Definition limit (version : Z) : Z := if version =? 2 then 4096 else 65536.
Lemma chunk_limit v : 2 <= v -> Z.of_nat (Stream.max_data_chunk_size v) = limit v.
Proof.
  intros H. unfold Stream.max_data_chunk_size, limit. destruct (Z.ltb_spec v 3).
  - replace v with 2 by lia. reflexivity.
  - destruct (Z.eqb_spec v 2); [lia|]. rewrite Nat2Z.inj_pow. reflexivity.
Qed.
(** What is sent with the version that one end has got is received whole by the other end
    with the version that it has got. No message is over the limit. *)
Theorem C82_data a b va vb dup scalls src s rcalls s' svc ro re :
  0 <= a < 4294967296 -> 0 <= b < 4294967296 ->
  handle_handshake a (hello b) = Some va -> handle_handshake b (hello a) = Some vb ->
  SpecStream.run_inputs Stream.MSG_DATA_STDOUT (Stream.max_data_chunk_size va) dup scalls (SpecStream.tx_start src) = (Stream.REMOTE_EOF, s) ->
  Stream.tx_dead s = false -> Forall (Forall (fun st => Stream.i_read st <> Stream.IReset)) scalls ->
  let c := {| Stream.c_service := svc; Stream.c_replace_out := ro; Stream.c_replace_err := re; Stream.c_max := Stream.max_data_chunk_size vb |} in
  SpecStream.run_remotes c rcalls (SpecStream.rx_start (Stream.tx_out s)) = Some (Stream.REMOTE_EOF, s') ->
  Forall (fun c => SpecStream.no_werr (fst c) /\ Forall (fun st => SpecStream.no_werr (Stream.r_writes st)) (snd c)) rcalls ->
  Stream.rx_out s' = SpecStream.shown ro src /\
  exists chunks, Forall (fun p => p <> [] /\ Z.of_nat (length p) <= limit va) chunks /\ concat chunks = src /\
    Stream.tx_out s = (SpecStream.wire (map (fun p => (Stream.MSG_DATA_STDOUT, p)) chunks) ++ SpecStream.wire [(Stream.MSG_DATA_STDOUT, [])])%list.
Proof.
  intros Ha Hb HA HB HS Hd Hr c HR Hw. destruct (C82_two_agents a b Ha Hb) as [E1 E2]. rewrite E1 in HA. rewrite E2 in HB.
  assert (vb = va) by congruence. subst vb. assert (Hv : 2 <= va) by (destruct (C82_own a 0 false (hello b) "" va) as [X _]; rewrite E1 in X; apply X in HA; lia).
  pose proof (chunk_limit va Hv) as L. assert (B : limit va = 4096 \/ limit va = 65536) by (unfold limit; destruct (va =? 2); auto).
  split.
  - change ro with (Stream.c_replace_out c). eapply (Props_Stream.C48_roundtrip Stream.MSG_DATA_STDOUT dup scalls src s c rcalls s'); try assumption.
    + change (Stream.c_max c) with (Stream.max_data_chunk_size va). lia.
    + change (Stream.c_max c) with (Stream.max_data_chunk_size va). lia.
    + reflexivity.
  - assert (P : (0 < Stream.max_data_chunk_size va)%nat) by lia. destruct (Props_Stream.C48_sender _ _ _ _ _ _ _ P HS) as (chunks & tail & A & Bt & C & D & E).
    exists chunks. split; [|split; [exact (E Hr)|]].
    + eapply Forall_impl; [|exact A]. intros p [P1 P2]. split; [exact P1|]. rewrite <- L. lia.
    + destruct C as [C|[_ C]]; [|congruence]. now rewrite Bt, C.
Qed.
(** the hypotheses are met *)
Example C82_example : handle_handshake 4 (hello 2) = Some 2 /\ handle_handshake 2 (hello 4) = Some 2 /\ handle_handshake 4 (hello 1) = None /\
  handle_agent_handshake 4 true (hello 3) = (hello 4, Some 3) /\ handle_handshake 3 (hello 4) = Some 3 /\
  fst (SpecStream.run_inputs Stream.MSG_DATA_STDOUT (Stream.max_data_chunk_size 2) false [[Props_Stream.st_in 11 9; Props_Stream.st_in 100 1]; [Props_Stream.st_in 100 90; Props_Stream.st_in 100 90; Props_Stream.st_in 100 90]]
    (SpecStream.tx_start (Props_Stream.ch "hello, world"))) = Stream.REMOTE_EOF.
Proof. vm_compute. repeat split. Qed.

(** ** A tool of dom0 and a daemon *)
(** The tool goes on exactly if the socket is reachable, the first message is a hello with a
    version of at least 3, and its own hello (version 3) could be sent *)
Theorem C82_tool_connects dir name e :
  connect_unix_socket dir name e = Connected <->
  (String.length (dir +++ "/qrexec." +++ name) <= 107)%nat /\ se_connect e = ConnOk /\ se_sends e = true /\ exists v, se_hello e = Some (768, 4, v) /\ 3 <= v.
Proof.
  unfold connect_unix_socket, socket_path, SUN_PATH. set (n := String.length (dir +++ "/qrexec." +++ name)).
  rewrite Z.geb_leb. destruct (Z.leb_spec 108 (Z.of_nat n)) as [L|L].
  - split; [discriminate|]. intros (H & _). lia.
  - destruct (se_connect e) eqn:C; try (split; [discriminate|intros (_ & K & _); discriminate]).
    unfold handle_daemon_handshake. destruct (se_hello e) as [[[t l] v]|].
    + unfold MSG_HELLO, sizeof_peer_info, QREXEC_CLIENT_PROTOCOL_VERSION.
      destruct (Z.eqb_spec t 768) as [->|Nt]; [destruct (Z.eqb_spec l 4) as [->|Nl]|]; cbn [andb negb].
      * destruct (Z.ltb_spec v 3) as [Lv|Lv].
        -- split; [discriminate|]. intros (_ & _ & _ & v' & E & Hv). injection E as ->. lia.
        -- destruct (se_sends e).
           ++ split; [intros _|reflexivity]. split; [lia|]. split; [reflexivity|]. split; [reflexivity|]. exists v. split; [reflexivity|exact Lv].
           ++ split; [discriminate|]. intros (_ & _ & K & _). discriminate.
      * split; [discriminate|]. intros (_ & _ & _ & v' & E & _). congruence.
      * split; [discriminate|]. intros (_ & _ & _ & v' & E & _). congruence.
    + split; [discriminate|]. intros (_ & _ & _ & v' & E & _). discriminate.
Qed.
(** and the daemon takes the hello of the tool *)
Theorem C82_daemon_takes user s fd ok : d_clients s fd = CLIENT_HELLO ->
  let '(s', outs) := handle_message_from_client user s fd (ClientMessage 768 4 (le32 QREXEC_CLIENT_PROTOCOL_VERSION)) ok in
  d_clients s' fd = CLIENT_CMDLINE /\ outs = [].
Proof.
  intros H. unfold handle_message_from_client. rewrite H.
  change (negb ((768 =? MSG_HELLO) && (4 =? sizeof_peer_info))) with false.
  change (received 4 (le32 QREXEC_CLIENT_PROTOCOL_VERSION)) with (Some (le32 3)).
  change (u32 (le32 3) <? QREXEC_CLIENT_MIN_VERSION) with false. cbv iota beta. split; [|reflexivity].
  unfold set_clients, upd. cbn [d_clients]. rewrite Nat.eqb_refl. reflexivity.
Qed.
Example C82_tool_example : connect_unix_socket "/var/run/qubes" "work" {| se_connect := ConnOk; se_hello := Some (768, 4, 3); se_sends := true |} = Connected.
Proof. reflexivity. Qed.

(** ** The name of the socket of the calling qube: its number in decimal *)
Fixpoint decimal_value (s : string) (acc : Z) : Z :=
  match s with EmptyString => acc | String c s => decimal_value s (acc * 10 + (Z.of_nat (nat_of_ascii c) - 48)) end.
Lemma decimal_app a b acc : decimal_value (a +++ b) acc = decimal_value b (decimal_value a acc).
Proof. revert acc. induction a as [|c a IH]; intros acc; [reflexivity|]. cbn [decimal_value String.append]. apply IH. Qed.
Lemma digit_char k : 0 <= k < 10 -> let c := ascii_of_nat (48 + Z.to_nat k) in
  Z.of_nat (nat_of_ascii c) = 48 + k /\ Exec.digit c = true.
Proof.
  intros H. assert (E : exists n, (n < 10)%nat /\ k = Z.of_nat n) by (exists (Z.to_nat k); lia). destruct E as (n & Hn & ->).
  rewrite Nat2Z.id. do 10 (destruct n as [|n]; [split; reflexivity|]). lia.
Qed.
Lemma digits_spec fuel : forall n acc, 0 <= n < 10 ^ Z.of_nat fuel -> (0 < fuel)%nat ->
  exists s, digits fuel n acc = s +++ acc /\ sforall Exec.digit s = true /\ decimal_value s 0 = n /\ s <> "" /\ (forall r, s = "0" +++ r -> n = 0 /\ r = "").
Proof.
  induction fuel as [|fuel IH]; intros n acc Hn Hf; [lia|]. cbn [digits].
  set (c := ascii_of_nat (48 + Z.to_nat (n mod 10))).
  assert (Hm : 0 <= n mod 10 < 10) by (apply Z.mod_pos_bound; lia).
  destruct (digit_char (n mod 10) Hm) as [V D]. fold c in V, D.
  pose proof (Z.div_mod n 10 ltac:(lia)) as Dm. assert (Hd : 0 <= n / 10) by (apply Z.div_pos; lia).
  destruct (Z.eqb_spec (n / 10) 0) as [E|E].
  - exists (String c ""). split; [reflexivity|]. split; [cbn [sforall]; rewrite D; reflexivity|].
    split; [cbn [decimal_value]; lia|]. split; [discriminate|].
    intros r Er. cbn [String.append] in Er. assert (c = "0"%char /\ r = "") as [Ec ->] by (split; congruence). split; [|reflexivity].
    rewrite Ec in V. change (Z.of_nat (nat_of_ascii "0")) with 48 in V. lia.
  - assert (Hp : 10 ^ Z.of_nat (S fuel) = 10 * 10 ^ Z.of_nat fuel) by (rewrite Nat2Z.inj_succ, Z.pow_succ_r by lia; reflexivity).
    assert (Hq : n / 10 < 10 ^ Z.of_nat fuel) by (apply Z.div_lt_upper_bound; lia).
    assert (Hf' : (0 < fuel)%nat).
    { destruct fuel; [|lia]. exfalso. change (10 ^ Z.of_nat 0) with 1 in Hq. lia. }
    destruct (IH (n / 10) (String c acc) (conj Hd Hq) Hf') as (s & Es & Fs & Vs & Ns & Zs).
    exists (s +++ String c ""). split; [rewrite Es, app_assoc_s; reflexivity|].
    split; [rewrite sforall_app, Fs; cbn [sforall]; rewrite D; reflexivity|].
    split; [rewrite decimal_app, Vs; cbn [decimal_value]; lia|].
    split; [destruct s; discriminate|].
    intros r Er. exfalso. destruct s as [|d s]; [congruence|]. cbn [String.append] in Er.
    assert (d = "0"%char) by congruence. subst d. destruct (Zs s eq_refl) as [K _]. lia.
Qed.
(** For every number of a domain (32 bits) the name is its decimal numeral, without leading
    zeros; so different callers have different sockets *)
Theorem C80_number_of_caller n : 0 <= n < 4294967296 ->
  sforall Exec.digit (string_of_id n) = true /\ decimal_value (string_of_id n) 0 = n /\ (forall r, string_of_id n = "0" +++ r -> n = 0 /\ r = "").
Proof.
  intros H. destruct (digits_spec 10 n "") as (s & E & F & V & _ & Z0); [|lia|].
  - change (10 ^ Z.of_nat 10) with 10000000000. lia.
  - unfold string_of_id. rewrite E, app_nil_s. auto.
Qed.
Theorem C80_callers_distinct n m : 0 <= n < 4294967296 -> 0 <= m < 4294967296 -> string_of_id n = string_of_id m -> n = m.
Proof.
  intros Hn Hm E. destruct (C80_number_of_caller n Hn) as (_ & A & _). destruct (C80_number_of_caller m Hm) as (_ & B & _). congruence.
Qed.
Example C80_number_example : string_of_id 0 = "0" /\ string_of_id 12 = "12" /\ string_of_id 4294967295 = "4294967295".
Proof. repeat split; vm_compute; reflexivity. Qed.
