(** * C81: the agents of both qubes are told about the same connection *)
From Coq Require Import String Ascii List Bool Arith ZArith Lia.
From Verif Require Import Base Sanitize DaemonAgent DaemonState SpecState StateProofs CallsProofs SpecAgent AgentProofs SanitizeProofs EvalSvc ExecuteVm SpecVm Props_Vm SpecMeet.
Import ListNotations.
Open Scope string_scope.
Open Scope list_scope.
Open Scope Z_scope.

Lemma sdrop_le32 z r : sdrop 4 (le32 z +++ r) = r.
Proof. reflexivity. Qed.
Lemma sdrop8_le32 z z' r : sdrop 8 (le32 z +++ le32 z' +++ r) = r.
Proof. reflexivity. Qed.
Lemma le32_length z : String.length (le32 z) = 4%nat.
Proof. reflexivity. Qed.
Lemma last_nul x : sdrop (String.length (x +++ str1 NUL) - 1) (x +++ str1 NUL) = str1 NUL.
Proof. rewrite length_app_s. change (String.length (str1 NUL)) with 1%nat. rewrite Nat.add_sub. apply sdrop_app_eq. reflexivity. Qed.
Lemma zeros_length n : String.length (zeros n) = n.
Proof. induction n; cbn; auto. Qed.
Lemma zeros_S n : zeros (S n) = zeros n +++ str1 NUL.
Proof. induction n as [|n IH]; [reflexivity|]. change (zeros (S (S n))) with (str1 NUL +++ zeros (S n)). rewrite IH at 1. reflexivity. Qed.
Lemma stake_short n s : (String.length s <= n)%nat -> stake n s = s.
Proof. revert n; induction s as [|c s IH]; intros [|n] H; cbn [stake String.length] in *; try lia; [reflexivity..|]. f_equal. apply IH. lia. Qed.
Lemma ident_field_spec id : has_char NUL id = false -> (String.length id <= 31)%nat ->
  exists k, ident_field id = (id +++ zeros k) +++ str1 NUL /\ String.length (ident_field id) = 32%nat /\ cstr (ident_field id) = id.
Proof.
  intros Hn Hl. unfold ident_field. cbv zeta.
  assert (C : cstr id = id) by (rewrite <- (app_nil_s id) at 1; rewrite cstr_app by exact Hn; apply app_nil_s). rewrite C, stake_short by exact Hl.
  exists (31 - String.length id)%nat. replace (32 - String.length id)%nat with (S (31 - String.length id)) by lia. split; [|split].
  - rewrite zeros_S. symmetry. apply app_assoc_s.
  - rewrite length_app_s, zeros_length. lia.
  - rewrite cstr_app by exact Hn. cbn [zeros cstr]. change (Ascii.eqb NUL NUL) with true. apply app_nil_s.
Qed.

(** The command, at the daemon of the target *)
Lemma body_command du sb fb type a cmd outs sb' st :
  (type = 512 \/ type = 513) -> 0 <= a < 2147483648 -> (0 < String.length cmd)%nat ->
  handle_cmdline_body du sb fb type (8 + Z.of_nat (String.length (cmd +++ str1 NUL))) (Some (le32 a +++ le32 0 +++ cmd +++ str1 NUL)) true = (sb', outs, st) ->
  outs = [] \/ exists p text, outs = [PortToClient fb a p; ToAgent type (8 + Z.of_nat (String.length text)) a p text] /\ 513 <= p < 769 /\
    (text = cmd +++ str1 NUL /\ (forall r, cmd <> "DEFAULT:" +++ r) \/ exists r, cmd = "DEFAULT:" +++ r /\ text = du +++ ":" +++ r +++ str1 NUL).
Proof.
  intros Ht Ha Hc. unfold handle_cmdline_body. cbv zeta.
  assert (E1 : 8 + Z.of_nat (String.length (cmd +++ str1 NUL)) <=? sizeof_exec_params = false).
  { apply Z.leb_gt. rewrite length_app_s. change (String.length (str1 NUL)) with 1%nat. unfold sizeof_exec_params. lia. }
  rewrite E1. rewrite length_app_s at 1. change (String.length (str1 NUL)) with 1%nat.
  destruct (8 + Z.of_nat (String.length cmd + 1) >? MAX_QREXEC_CMD_LEN); [intros H; apply pair_eq in H as [H _]; apply pair_eq in H as [_ <-]; auto|].
  rewrite sdrop_le32, sdrop8_le32, !u32_le32, last_nul by lia. rewrite String.eqb_refl. cbn [negb].
  assert (E3 : (type =? MSG_SERVICE_CONNECT) = false) by (apply Z.eqb_neq; destruct Ht as [-> | ->]; discriminate).
  assert (E4 : (type =? MSG_JUST_EXEC) || (type =? MSG_EXEC_CMDLINE) = true) by (destruct Ht as [-> | ->]; reflexivity).
  rewrite E3, E4. change (0 =? 0) with true. cbv iota.
  destruct (allocate_vchan_port sb (to_int a)) as [[p s2]|] eqn:Ea; [|intros H; apply pair_eq in H as [H _]; apply pair_eq in H as [_ <-]; auto].
  assert (Ei : to_int a = a) by (unfold to_int; destruct (Z.ltb_spec a 2147483648); [reflexivity|lia]). rewrite Ei in *.
  apply alloc_some in Ea as (n & Hn & -> & _). cbn [negb andb].
  assert (Hsd : starts default_user_keyword (cmd +++ str1 NUL) = true <-> exists r, cmd = "DEFAULT:" +++ r).
  { rewrite starts_spec. split.
    - intros (r & E). change default_user_keyword with "DEFAULT:" in E. destruct (String.length r) as [|k] eqn:Er.
      + destruct r; [|discriminate]. exfalso. rewrite app_nil_s in E. assert (Q : sdrop (String.length (cmd +++ str1 NUL) - 1) (cmd +++ str1 NUL) = ":") by (rewrite E; reflexivity). rewrite last_nul in Q. discriminate.
      + exists (stake (String.length r - 1) r).
        assert (Q : exists r', r = r' +++ str1 NUL).
        { assert (D : forall x, (0 < String.length x)%nat -> x = stake (String.length x - 1) x +++ sdrop (String.length x - 1) x) by (intros; apply take_drop).
          exists (stake (String.length r - 1) r). rewrite (D r) at 1 by lia. f_equal.
          assert (L : String.length (cmd +++ str1 NUL) = (8 + String.length r)%nat) by (rewrite E; reflexivity).
          rewrite <- (last_nul cmd), L, E. replace (8 + String.length r - 1)%nat with (8 + (String.length r - 1))%nat by lia. reflexivity. }
        destruct Q as (r' & ->). rewrite length_app_s. change (String.length (str1 NUL)) with 1%nat. rewrite Nat.add_sub, stake_app_eq by reflexivity.
        change ("DEFAULT:" +++ r' +++ str1 NUL) with (("DEFAULT:" +++ r') +++ str1 NUL) in E. clear - E. revert E. generalize ("DEFAULT:" +++ r') as y. intros y. revert y. induction cmd as [|c cmd IH]; intros [|d y] E; cbn [String.append str1] in E.
        * reflexivity.
        * injection E as _ E. destruct y; discriminate.
        * injection E as _ E. destruct cmd; discriminate.
        * injection E as -> E. f_equal. now apply IH.
    - intros (r & ->). exists (r +++ str1 NUL). reflexivity. }
  destruct (starts default_user_keyword (cmd +++ str1 NUL)) eqn:Es; intros H; apply pair_eq in H as [H _]; apply pair_eq in H as [_ <-]; right.
  - destruct Hsd as [Hsd _]. destruct (Hsd eq_refl) as (r & ->). eexists (513 + Z.of_nat n), _. split; [|split; [lia|right; exists r; split; reflexivity]].
    cbn [List.app]. change (sdrop 7 (("DEFAULT:" +++ r) +++ str1 NUL)) with (":" +++ r +++ str1 NUL). f_equal. f_equal. f_equal.
    rewrite !length_app_s. change (String.length "DEFAULT:") with 8%nat. change (String.length ":") with 1%nat. lia.
  - exists (513 + Z.of_nat n), (cmd +++ str1 NUL). split; [reflexivity|]. split; [lia|]. left. split; [reflexivity|]. intros r Er. destruct Hsd as [_ Hsd]. discriminate Hsd. eauto.
Qed.

(** The connection, at the daemon of the caller *)
Lemma body_connect du sa fa b p id ok outs sa' st :
  0 <= b < 2147483648 -> 513 <= p < 769 -> has_char NUL id = false -> (String.length id <= 31)%nat ->
  handle_cmdline_body du sa fa 514 40 (Some (le32 b +++ le32 p +++ ident_field id)) ok = (sa', outs, st) ->
  (outs = [] /\ find_request (d_pending sa) (d_limit sa) id = None) \/ outs = [ToAgent 514 40 b p (ident_field id)].
Proof.
  intros Hb Hp Hn Hl. destruct (ident_field_spec id Hn Hl) as (k & E & El & Ec). unfold handle_cmdline_body. cbv zeta.
  change (40 <=? sizeof_exec_params) with false. change (40 >? MAX_QREXEC_CMD_LEN) with false. cbv iota.
  rewrite sdrop_le32, sdrop8_le32, !u32_le32 by lia. rewrite E at 1 2. rewrite last_nul, String.eqb_refl. cbn [negb].
  change (514 =? MSG_SERVICE_CONNECT) with true. cbv iota. rewrite Ec.
  destruct (find_request (d_pending sa) (d_limit sa) id) as [i|]; [|intros H; apply pair_eq in H as [H _]; apply pair_eq in H as [_ <-]; auto].
  assert (E0 : p =? 0 = false) by (apply Z.eqb_neq; lia). rewrite E0.
  assert (E1 : (p >=? VCHAN_BASE_DATA_PORT) && (p <? VCHAN_BASE_DATA_PORT + Z.of_nat MAX_CLIENTS) = true).
  { apply andb_true_intro. split; [rewrite Z.geb_leb; apply Z.leb_le; unfold VCHAN_BASE_DATA_PORT; lia|].
    apply Z.ltb_lt. change (VCHAN_BASE_DATA_PORT + Z.of_nat MAX_CLIENTS) with 769. lia. }
  rewrite E1. cbn [negb andb List.app]. intros H; apply pair_eq in H as [H _]; apply pair_eq in H as [_ <-]. right. reflexivity.
Qed.
Lemma le32_inj x y r r' : le32 x +++ r = le32 y +++ r' -> le32 x = le32 y /\ r = r'.
Proof. unfold le32. cbn [String.append]. intros E. injection E as -> -> -> -> ->. auto. Qed.

(** A call from qube [a] to qube [b] that succeeds: the program (qrexec_execute_vm) has
    sent one message to the daemon of [b], which has answered as daemons do, and one to
    the daemon of [a]. What the two agents are told of it is about the same connection:
    each is given the number of the other qube and the same port; the agent of [b] gets
    the command, the agent of [a] the identifier of the call. *)
Theorem C81_same_connection du du' a b w target autostart cmd id just wait uuid tr
  sa fa ok sa' outs_a sb fb sb' outs_b first second :
  0 <= a < 2147483648 -> 0 <= b < 2147483648 -> has_char NUL id = false -> (String.length id <= 31)%nat -> (0 < String.length cmd)%nat ->
  qrexec_execute_vm w target autostart a cmd id just wait uuid = (tr, Returns true) ->
  sends tr = [first; second] ->
  dstep du sb (FromClient fb (message_of first) true) = Some (sb', outs_b) ->
  w_answer w = written_to_client b (if just then 513 else 512) outs_b ->
  dstep du' sa (FromClient fa (message_of second) ok) = Some (sa', outs_a) ->
  exists port text, 513 <= port < 769 /\
    outs_b = [PortToClient fb a port; ToAgent (if just then 513 else 512) (8 + Z.of_nat (String.length text)) a port text] /\
    (text = cmd +++ str1 NUL /\ (forall r, cmd <> "DEFAULT:" +++ r) \/ exists r, cmd = "DEFAULT:" +++ r /\ text = du +++ ":" +++ r +++ str1 NUL) /\
    (outs_a = [] \/ exists text_a, outs_a = [ToAgent 514 40 b port text_a] /\ cstr text_a = id) /\
    (d_clients sa fa = CLIENT_CMDLINE -> find_request (d_pending sa) (d_limit sa) id <> None -> outs_a <> []).
Proof.
  intros Ha Hb Hn Hl Hc Hx Hs Sb Hw Sa. set (type := if just then 513 else 512) in *.
  assert (Ht : 0 <= type < 4294967296) by (unfold type; destruct just; lia).
  assert (Hlong : Z.of_nat (String.length (cmd +++ str1 NUL)) < 4294967000).
  { unfold qrexec_execute_vm in Hx. cbv zeta in Hx. rewrite length_app_s. change (String.length (str1 NUL)) with 1%nat.
    destruct (_ || _) eqn:E in Hx; [discriminate|]. apply orb_false_iff in E as [_ E]. rewrite Z.gtb_ltb in E. apply Z.ltb_ge in E. unfold MAX_QREXEC_CMD_LEN in E. lia. }
  apply C80_messages in Hx. cbv zeta in Hx. fold type in Hx.
  destruct Hx as [(X & _)|[(X & _)|(d & p & (more & Ans) & E & _)]]; [congruence..|].
  rewrite Hs in E. assert (E1 : first = command_message type a (cmd +++ str1 NUL)) by congruence.
  assert (E2 : second = service_connect_message id d p) by congruence. clear E.
  (* the daemon of the target *)
  assert (B : outs_b = [] \/ exists p text, outs_b = [PortToClient fb a p; ToAgent type (8 + Z.of_nat (String.length text)) a p text] /\ 513 <= p < 769 /\
    (text = cmd +++ str1 NUL /\ (forall r, cmd <> "DEFAULT:" +++ r) \/ exists r, cmd = "DEFAULT:" +++ r /\ text = du +++ ":" +++ r +++ str1 NUL)).
  { subst first. 
    unfold message_of, command_message in Sb. rewrite sdrop_le32, sdrop8_le32, !u32_le32 in Sb by lia.
      cbn [dstep] in Sb. assert (Sb' : handle_message_from_client du sb fb (ClientMessage type (8 + Z.of_nat (String.length (cmd +++ str1 NUL))) (le32 a +++ le32 0 +++ cmd +++ str1 NUL)) true = (sb', outs_b)) by congruence.
      clear Sb. unfold handle_message_from_client in Sb'.
      assert (Et : (type =? MSG_EXEC_CMDLINE) || (type =? MSG_JUST_EXEC) || (type =? MSG_SERVICE_CONNECT) = true) by (unfold type; destruct just; reflexivity).
      destruct (d_clients sb fb).
      + left. apply pair_eq in Sb' as [_ <-]. reflexivity.
      + left. destruct (negb _) eqn:Eh in Sb'; [apply pair_eq in Sb' as [_ <-]; reflexivity|].
        exfalso. apply negb_false_iff, andb_true_iff in Eh as [Eh _]. apply Z.eqb_eq in Eh. unfold type in Eh. destruct just; discriminate.
      + rewrite Et in Sb'.
        assert (Er : received (8 + Z.of_nat (String.length (cmd +++ str1 NUL))) (le32 a +++ le32 0 +++ cmd +++ str1 NUL) = Some (le32 a +++ le32 0 +++ cmd +++ str1 NUL)).
        { unfold received. assert (L : String.length (le32 a +++ le32 0 +++ cmd +++ str1 NUL) = (8 + String.length (cmd +++ str1 NUL))%nat) by reflexivity.
          rewrite L. replace (Z.of_nat (8 + String.length (cmd +++ str1 NUL))) with (8 + Z.of_nat (String.length (cmd +++ str1 NUL))) by lia.
          rewrite Z.geb_leb, Z.leb_refl. f_equal. replace (Z.to_nat (8 + Z.of_nat (String.length (cmd +++ str1 NUL)))) with (8 + String.length (cmd +++ str1 NUL))%nat by lia.
          rewrite <- L. apply stake_short. lia. }
        rewrite Er in Sb'. destruct (handle_cmdline_body _ _ _ _ _ _ _) as [[s1 o1] st] eqn:E. apply pair_eq in Sb' as [_ <-].
        eapply body_command; [| | |exact E]; [unfold type; destruct just; auto|exact Ha|exact Hc].
      + left. apply pair_eq in Sb' as [_ <-]. reflexivity. }
  destruct B as [->|(port & text & -> & Hp & Htext)]; [rewrite Ans in Hw; discriminate Hw|].
  unfold written_to_client in Hw. rewrite Ans in Hw. assert (Hw' : le32 type +++ le32 8 +++ le32 d +++ le32 p +++ more = le32 type +++ le32 8 +++ le32 b +++ le32 port +++ "") by (rewrite app_nil_s; congruence).
  apply le32_inj in Hw' as [_ Hw']. apply le32_inj in Hw' as [_ Hw']. apply le32_inj in Hw' as [Ed Hw']. apply le32_inj in Hw' as [Ep _].
  exists port, text. split; [exact Hp|]. split; [reflexivity|]. split; [exact Htext|].
  (* the daemon of the caller *)
  subst second. unfold message_of, service_connect_message in Sa. rewrite Ed, Ep, sdrop_le32, sdrop8_le32, !u32_le32 in Sa by (unfold MSG_SERVICE_CONNECT; lia).
  change MSG_SERVICE_CONNECT with 514 in Sa. cbn [dstep] in Sa. assert (Sa' : handle_message_from_client du' sa fa (ClientMessage 514 40 (le32 b +++ le32 port +++ ident_field id)) ok = (sa', outs_a)) by congruence.
  clear Sa. unfold handle_message_from_client in Sa'.
  destruct (ident_field_spec id Hn Hl) as (k & _ & Ll & Lc).
  destruct (d_clients sa fa).
  - apply pair_eq in Sa' as [_ <-]. split; [auto|discriminate].
  - change (514 =? MSG_HELLO) with false in Sa'. cbn [andb negb] in Sa'. apply pair_eq in Sa' as [_ <-]. split; [auto|discriminate].
  - change ((514 =? MSG_EXEC_CMDLINE) || (514 =? MSG_JUST_EXEC) || (514 =? MSG_SERVICE_CONNECT)) with true in Sa'. cbv iota in Sa'.
    assert (Er : received 40 (le32 b +++ le32 port +++ ident_field id) = Some (le32 b +++ le32 port +++ ident_field id)).
    { unfold received. assert (L : String.length (le32 b +++ le32 port +++ ident_field id) = 40%nat) by (rewrite !length_app_s, !le32_length, Ll; reflexivity).
      rewrite L. change (Z.of_nat 40 >=? 40) with true. cbv iota. f_equal. apply stake_short. rewrite L. reflexivity. }
    rewrite Er in Sa'. destruct (handle_cmdline_body _ _ _ _ _ _ _) as [[s1 o1] st] eqn:E. apply pair_eq in Sa' as [_ <-].
    apply body_connect in E as [(-> & Ef)| ->]; try assumption.
    + split; [auto|]. intros _ X. contradiction.
    + split; [right; eexists; split; [reflexivity|exact Lc]|discriminate].
  - apply pair_eq in Sa' as [_ <-]. split; [auto|discriminate].
Qed.

(** the hypotheses are met: qube 5 calls qube 17 *)
Definition ex_running (d : daemon) (fd : nat) : daemon := set_clients d (upd (d_clients d) fd CLIENT_CMDLINE).
Definition ex_a : daemon :=
  let d := ex_running (init 5 4) 7 in set_pending d (set_nth 0 (mkSlot 4000 "SOCKET9" R_PENDING) (d_pending d)) 1.
Definition ex_w : world :=
  {| w_dir := "/run/qubes"; w_create := None; w_first := ex_sock; w_start := None; w_second := ex_sock;
     w_answer := Some (le32 512 +++ le32 8 +++ le32 17 +++ le32 513); w_back := ex_sock; w_back_sends := true |}.
Example C81_example : exists tr first second sb' outs_b sa' outs_a,
  qrexec_execute_vm ex_w "work" true 5 "DEFAULT:QUBESRPC svc+ personal" "SOCKET9" false false false = (tr, Returns true) /\
  sends tr = [first; second] /\
  dstep "user" (ex_running (init 17 4) 8) (FromClient 8 (message_of first) true) = Some (sb', outs_b) /\
  w_answer ex_w = written_to_client 17 512 outs_b /\
  dstep "user" ex_a (FromClient 7 (message_of second) true) = Some (sa', outs_a) /\
  outs_b = [PortToClient 8 5 513; ToAgent 512 (8 + 28) 5 513 ("user:QUBESRPC svc+ personal" +++ str1 NUL)] /\
  outs_a = [ToAgent 514 40 17 513 (ident_field "SOCKET9")].
Proof.
  do 7 eexists. split; [vm_compute; reflexivity|]. split; [vm_compute; reflexivity|]. split; [cbv; reflexivity|].
  split; [vm_compute; reflexivity|]. split; [cbv; reflexivity|]. split; vm_compute; reflexivity.
Qed.
