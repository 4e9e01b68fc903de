(** * More about C71, C72, C79 and C82 *)
From Coq Require Import String Ascii List Bool Arith ZArith Lia.
From Verif Require Import Base Sanitize DaemonAgent SpecDaemon SpecAgent AgentProofs Exec SpecExec Toml TomlProofs Agent SpecMain MainProofs TriggerProofs.
From Verif Require ExecuteVm SpecVm Handshake DaemonState Props_Vm.
Import ListNotations.
Open Scope string_scope.
Open Scope list_scope.
Open Scope Z_scope.

(** ** C72: when a command is handed to a fork server *)
Theorem C72_when en e type len body s q p fd :
  received (Message e type len body) = [(q, Some p)] -> ~ may_wait (Some p) -> d_server (m_do e) = Some fd ->
  (exists text, In (HandedOver fd q p text) (snd (step en (Message e type len body) s))) <->
  (en = true /\ Z.of_nat (String.length (q_cmdline q)) <= 65534 /\ (exists u t, q_cmdline q = u +++ ":" +++ t) /\
   pc_nogui (pr_cmd p) = false /\ cf_send_service_descriptor (pr_config p) = true /\
   cf_exit_on_stdin_eof (pr_config p) = false /\ cf_exit_on_stdout_eof (pr_config p) = false).
Proof.
  intros R M Hs. cbn [received] in R.
  destruct (((type =? 512) || (type =? 513)) && (8 <? len) && (len <? 2147483648)) eqn:E; [|discriminate].
  assert (Rq : message_request type len body = q /\ prepare (m_files e) (q_cmdline (message_request type len body)) = Some p).
  { split; congruence. }
  destruct Rq as [Rq Rp]. cbn [step]. unfold handle_server_cmd, MSG_EXEC_CMDLINE, MSG_JUST_EXEC, MSG_SERVICE_CONNECT.
  destruct ((type =? 512) || (type =? 513)) eqn:Et; [|discriminate]. cbn [orb].
  assert (L : ((len <=? 8) || (len >? 2147483647))%bool = false) by lia. rewrite L.
  assert (T : type =? 514 = false) by lia. rewrite T.
  change (mkReq type _ _ _) with (message_request type len body). rewrite Rq in *.
  unfold exec_init. rewrite Rp. cbv zeta.
  match goal with |- context [if ?x then _ else _] => destruct x eqn:Ex end.
  { exfalso. apply M. apply andb_prop in Ex as [Ex E3]. apply andb_prop in Ex as [E1 E2]. exists p. repeat split; auto.
    - destruct (pc_descriptor (pr_cmd p)); congruence.
    - now destruct (pc_nogui (pr_cmd p)). }
  assert (G : forall text, In (HandedOver fd q p text) (snd (let (s', out') := set_conns s (exec_do en (m_do e) q (Some p) (a_conns s)) in (s', [] ++ out'))) <->
              In (HandedOver fd q p text) (snd (exec_do en (m_do e) q (Some p) (a_conns s)))).
  { intros text. unfold set_conns. destruct (exec_do _ _ _ _ _); reflexivity. }
  assert (G' : forall P Q : string -> Prop, (forall t, P t <-> Q t) -> (exists t, P t) <-> (exists t, Q t)) by (intros P Q PQ; split; intros (t & Ht); exists t; apply PQ; exact Ht).
  rewrite (G' _ _ G). clear G G'.
  assert (Hu : qrexec_cmd_use_fork_server (pc_nogui (pr_cmd p)) (pr_config p) && fork_server_tried en (q_cmdline q) = true <->
    (en = true /\ Z.of_nat (String.length (q_cmdline q)) <= 65534 /\ (exists u t, q_cmdline q = u +++ ":" +++ t) /\
   pc_nogui (pr_cmd p) = false /\ cf_send_service_descriptor (pr_config p) = true /\
   cf_exit_on_stdin_eof (pr_config p) = false /\ cf_exit_on_stdout_eof (pr_config p) = false)).
  { unfold qrexec_cmd_use_fork_server, fork_server_tried, MAX_QREXEC_CMD_LEN, zlen.
    assert (Hc : has_char ":" (q_cmdline q) = true <-> exists u t, q_cmdline q = u +++ ":" +++ t).
    { split.
      - intros H. destruct (has_char_split1 _ _ H) as (u & t & Sp). apply split1_spec in Sp as [Sp _]. exists u, t. exact Sp.
      - intros (u & t & ->). rewrite has_char_app. cbn. now rewrite orb_true_r. }
    rewrite <- Hc. rewrite !andb_true_iff, !negb_true_iff. rewrite Z.gtb_ltb, Z.ltb_ge. intuition lia. }
  rewrite <- Hu. unfold exec_do.
  match goal with |- context [if ?x then d_server _ else _] => destruct x eqn:Eu end.
  - rewrite Hs. split; [auto|]. intros _. eexists. destruct (register _ _ _ _ _). cbn [snd]. left. reflexivity.
  - split; [|discriminate]. intros (text & H).
    pose proof (register_handed (d_pid (m_do e)) (-1) (q_domain q) (q_port q) (a_conns s) fd q p text) as N.
    destruct (register _ _ _ _ _). cbn [snd In] in *. destruct H as [H|H]; [discriminate|contradiction].
Qed.

(** ** C71: what the agent takes for the number of a socket *)
Definition blank (c : ascii) : Prop := In (nat_of_ascii c) [9; 10; 11; 12; 13; 32]%nat.
Fixpoint all (P : ascii -> Prop) (s : string) : Prop := match s with "" => True | String c s => P c /\ all P s end.
Definition is_digit (c : ascii) : Prop := In (nat_of_ascii c) [48; 49; 50; 51; 52; 53; 54; 55; 56; 57]%nat.
(** the value of a decimal number, the most significant digit first *)
Inductive decimal : string -> Z -> Prop :=
| decimal_none : decimal "" 0
| decimal_digit s v c : decimal s v -> is_digit c -> decimal (s +++ str1 c) (10 * v + (Z.of_nat (nat_of_ascii c) - 48)).
Inductive names_socket : string -> Z -> Prop :=
| names_intro blanks sign digits rest v :
    all blank blanks -> (sign = "" \/ sign = "+" \/ sign = "-") -> digits <> "" -> decimal digits v ->
    (forall c r, rest = String c r -> ~ is_digit c) ->
    names_socket ("SOCKET" +++ blanks +++ sign +++ digits +++ rest) (if String.eqb sign "-" then - v else v).

Lemma blank_c c : c_space c = true <-> blank c.
Proof. unfold blank. destruct c as [[] [] [] [] [] [] [] []]; cbn; intuition (discriminate || lia). Qed.
Lemma digit_c c : digit c = true <-> is_digit c.
Proof. unfold is_digit. destruct c as [[] [] [] [] [] [] [] []]; cbn; intuition (discriminate || lia). Qed.
Lemma decimal_value s v : decimal s v -> digits_value s 0 = v /\ sforall digit s = true.
Proof.
  induction 1 as [|s v c H [IH1 IH2] D]; [split; reflexivity|]. rewrite digits_value_app, IH1, TriggerProofs.sforall_app, IH2. split; [reflexivity|].
  cbn. apply digit_c in D. now rewrite D.
Qed.
Lemma value_decimal s : sforall digit s = true -> decimal s (digits_value s 0).
Proof.
  assert (G : forall n s, String.length s = n -> sforall digit s = true -> decimal s (digits_value s 0)).
  { induction n as [|n IH]; intros s0 L F.
    - destruct s0; [constructor|discriminate].
    - assert (X : exists a c, s0 = a +++ str1 c).
      { clear - L. revert n L. induction s0 as [|c s0 IH]; [discriminate|]. intros n L. destruct s0 as [|d s0]; [exists "", c; reflexivity|].
        destruct (IH (String.length s0)) as (a & c' & E); [reflexivity|]. exists (String c a), c'. rewrite E. reflexivity. }
      destruct X as (a & c & ->). rewrite TriggerProofs.sforall_app in F. apply andb_prop in F as [F1 F2]. rewrite length_app_s in L.
      rewrite digits_value_app. constructor.
      + apply IH; [cbn in L; lia|auto].
      + apply digit_c. cbn in F2. now destruct (digit c). }
  intros F. eapply G; eauto.
Qed.
Lemma scan_digits_spec s n : scan_digits s = Scanned n <-> exists d r, s = d +++ r /\ d <> "" /\ decimal d n /\ (forall c t, r = String c t -> ~ is_digit c).
Proof.
  split.
  - unfold scan_digits. destruct s as [|c s]; [discriminate|]. destruct (digit c) eqn:D; [|discriminate].
    destruct (span digit (String c s)) as [d r] eqn:E. pose proof E as E'. apply span_split in E as (E & F & St). intros H.
    assert (Hn : digits_value d 0 = n) by (cbn [fst] in H; congruence).
    exists d, r. split; [auto|]. split.
    + intros ->. cbn [span] in E'. rewrite D in E'. destruct (span digit s); discriminate.
    + split; [rewrite <- Hn; now apply value_decimal|]. intros a t ->. cbn in St. rewrite <- digit_c. congruence.
  - intros (d & r & -> & N & Dd & St). apply decimal_value in Dd as [V F].
    pose proof (span_app digit d r F) as P. destruct d as [|c d]; [congruence|]. cbn [String.append]. unfold scan_digits.
    assert (D : digit c = true) by (cbn [sforall] in F; now destruct (digit c)). rewrite D.
    change (String c (d +++ r)) with (String c d +++ r). rewrite P; [cbn [fst]; now rewrite V|].
    destruct r as [|a r]; [exact I|]. cbn. destruct (digit a) eqn:Da; [|reflexivity]. apply digit_c in Da. destruct (St a r eq_refl Da).
Qed.
Lemma skip_blanks b s : all blank b -> skip_c_space (b +++ s) = skip_c_space s.
Proof. induction b as [|c b IH]; [auto|]. intros [H1 H2]. cbn. apply blank_c in H1. rewrite H1. auto. Qed.
Lemma skip_split s : exists b, all blank b /\ s = b +++ skip_c_space s.
Proof.
  induction s as [|c s (b & H & E)]; [exists ""; split; [exact I|reflexivity]|]. cbn [skip_c_space]. destruct (c_space c) eqn:S.
  - exists (String c b). split; [split; [now apply blank_c|auto]|]. cbn [String.append]. now rewrite <- E.
  - exists "". split; [exact I|reflexivity].
Qed.
Lemma scan_lit_int lit s n : scan_lit lit s = Scanned n <-> exists r, s = lit +++ r /\ scan_int r = Scanned n.
Proof.
  revert s. induction lit as [|a lit IH]; intros s; cbn [scan_lit].
  - split; [intros H; exists s; split; [reflexivity|exact H]|]. intros (r & -> & H). exact H.
  - destruct s as [|b s]; [split; [discriminate|]; intros (r & H & _); discriminate|].
    destruct (Ascii.eqb_spec a b) as [<-|Ne].
    + rewrite IH. split; intros (r & H1 & H2); exists r; (split; [|exact H2]); [now rewrite H1|]. cbn in H1. now injection H1.
    + split; [discriminate|]. intros (r & H & _). cbn in H. congruence.
Qed.
Lemma scan_int_spec r n : scan_int r = Scanned n <->
  exists b g d t v, r = b +++ g +++ d +++ t /\ all blank b /\ (g = "" \/ g = "+" \/ g = "-") /\ d <> "" /\ decimal d v /\
    (forall c u, t = String c u -> ~ is_digit c) /\ n = (if String.eqb g "-" then - v else v).
Proof.
  split.
  - destruct (skip_split r) as (b & Hb & E). unfold scan_int. destruct (skip_c_space r) as [|c s] eqn:S; [discriminate|]. intros H.
    assert (Cs : (c = "-"%char /\ exists v, n = - v /\ scan_digits s = Scanned v) \/ (c = "+"%char /\ scan_digits s = Scanned n) \/ scan_digits (String c s) = Scanned n).
    { destruct (Ascii.eqb_spec c "-") as [->|N1].
      - left. split; [reflexivity|]. destruct (scan_digits s) as [v| |]; try discriminate. exists v. split; [congruence|reflexivity].
      - right. destruct (Ascii.eqb_spec c "+") as [->|N2]; [left; auto|]. right.
        destruct c as [[] [] [] [] [] [] [] []]; first [exact H | exfalso; apply N1; reflexivity | exfalso; apply N2; reflexivity]. }
    destruct Cs as [(-> & v & -> & H1)|[(-> & H1)|H1]]; apply scan_digits_spec in H1 as (d & t & E1 & N & D & St).
    + exists b, "-", d, t, v. rewrite E, E1. repeat split; auto.
    + exists b, "+", d, t, n. rewrite E, E1. repeat split; auto.
    + exists b, "", d, t, n. rewrite E, E1. repeat split; auto.
  - intros (b & g & d & t & v & -> & Hb & Hg & N & D & St & ->).
    assert (X : scan_digits (d +++ t) = Scanned v) by (apply scan_digits_spec; eauto 6).
    unfold scan_int. rewrite skip_blanks by exact Hb. destruct Hg as [->|[->| ->]].
    + cbn [String.append]. destruct d as [|c d]; [congruence|]. cbn [String.append] in *.
      assert (Dc : digit c = true). { unfold scan_digits in X. destruct (digit c); [reflexivity|discriminate]. }
      pose proof Dc as Dd. apply digit_cases in Dc as (Sp & _). cbn [skip_c_space]. rewrite Sp.
      change (String.eqb "" "-") with false. cbv iota.
      destruct c as [[] [] [] [] [] [] [] []]; try discriminate Dd; exact X.
    + exact X.
    + change (skip_c_space ("-" +++ d +++ t)) with (String "-" (d +++ t)). cbv iota. rewrite X. reflexivity.
Qed.
Lemma scan_socket_spec s n : scan_socket s = Scanned n <-> names_socket s n.
Proof.
  unfold scan_socket. rewrite scan_lit_int. split.
  - intros (r & -> & H). apply scan_int_spec in H as (b & g & d & t & v & -> & Hb & Hg & N & D & St & ->). now constructor.
  - intros H. destruct H as [b g d t v Hb Hg N D St]. eexists. split; [reflexivity|].
    apply scan_int_spec. exists b, g, d, t, v. auto 10.
Qed.
(** The call is refused: the socket whose number it is told gets closed *)
Theorem C71_socket_number en e s body n :
  snd (step en (Message e 515 32 body) s) = [Closed n] <-> names_socket (cstr body) n.
Proof.
  unfold step, handle_server_cmd. change ((515 =? Agent.MSG_EXEC_CMDLINE) || (515 =? Agent.MSG_JUST_EXEC) || (515 =? Agent.MSG_SERVICE_CONNECT))%bool with false.
  change (515 =? Agent.MSG_SERVICE_REFUSED) with true. cbn [snd]. unfold service_refused. change (32 =? 32) with true. cbn [negb].
  rewrite <- scan_socket_spec. destruct (scan_socket (cstr body)); split; congruence.
Qed.
(** and so is the socket that is told where to connect to *)
Theorem C71_connect_socket en e s d p ident n :
  String.length d = 4%nat -> String.length p = 4%nat -> ident <> "" -> has_char NUL ident = false ->
  Z.of_nat (String.length ident) < 2147483000 -> m_ebadf e = false ->
  let m := d +++ p +++ ident +++ str1 NUL in
  (exists out, snd (step en (Message e 514 (Z.of_nat (String.length m)) m) s) = ParamsTo n (u32 d) (u32 p) :: out) <-> names_socket ident n.
Proof.
  intros Hd Hp Hi Nn Hl Eb m. unfold step, handle_server_cmd.
  change ((514 =? Agent.MSG_EXEC_CMDLINE) || (514 =? Agent.MSG_JUST_EXEC) || (514 =? Agent.MSG_SERVICE_CONNECT))%bool with true.
  change (514 =? Agent.MSG_SERVICE_CONNECT) with true.
  assert (Lm : Z.of_nat (String.length m) = 9 + Z.of_nat (String.length ident)).
  { unfold m. rewrite !length_app_s. cbn [str1 String.length]. lia. }
  assert (I0 : (0 < String.length ident)%nat) by (destruct ident; [congruence|cbn; lia]).
  rewrite Lm. assert (B : ((9 + Z.of_nat (String.length ident) <=? 8) || (9 + Z.of_nat (String.length ident) >? 2147483647))%bool = false) by lia.
  rewrite B.
  assert (C : cstr (stake (Z.to_nat (9 + Z.of_nat (String.length ident) - 9)) (sdrop 8 m)) = ident).
  { unfold m. rewrite <- (app_assoc_s d p). rewrite (sdrop_app_eq (d +++ p)) by (rewrite length_app_s; lia).
    rewrite stake_app_eq by lia. rewrite <- (app_nil_s ident) at 1. rewrite cstr_app by exact Nn. cbn [cstr]. apply app_nil_s. }
  rewrite C.
  assert (U1 : u32 m = u32 d).
  { unfold u32, m. f_equal. rewrite stake_app_eq by exact Hd.
    pose proof (stake_app_eq d "" 4 Hd) as X. rewrite app_nil_s in X. rewrite X. reflexivity. }
  assert (U2 : u32 (sdrop 4 m) = u32 p).
  { unfold u32, m. f_equal. rewrite (sdrop_app_eq d) by exact Hd. rewrite stake_app_eq by exact Hp.
    pose proof (stake_app_eq p "" 4 Hp) as X. rewrite app_nil_s in X. rewrite X. reflexivity. }
  rewrite U1, U2, Eb. unfold set_conns, service_connect. rewrite <- scan_socket_spec. destruct (scan_socket ident) as [v| |].
  - destruct (register _ _ _ _ _) as [c o]. cbn [snd]. split.
    + intros (out & E). congruence.
    + intros E. assert (v = n) by congruence. subst v. eauto.
  - cbn [snd]. split; [intros (out & E); discriminate|discriminate].
  - cbn [snd]. split; [intros (out & E); discriminate|discriminate].
Qed.
Example C71_socket_example : names_socket ("SOCKET " +++ str1 TAB +++ "-12x") (-12).
Proof.
  apply (names_intro (" " +++ str1 TAB) "-" "12" "x" 12).
  - repeat split; vm_compute; tauto.
  - auto.
  - discriminate.
  - apply (decimal_digit "1" 1 "2"%char); [apply (decimal_digit "" 0 "1"%char); [constructor|]|]; vm_compute; tauto.
  - intros c r E. assert (c = "x"%char) by congruence. subst c. vm_compute. intuition discriminate.
Qed.

(** ** C79: a disposable based on a keyword *)
Theorem C79_keyword w t dom cmd id wait uuid :
  (1 <= String.length cmd)%nat -> Z.of_nat (String.length cmd) <= 65534 ->
  exists more, fst (ExecuteVm.qrexec_execute_vm w ("@dispvm:@" +++ t) true dom cmd id false wait uuid) =
    ExecuteVm.Qubesd ("admin.vm.CreateDisposable+ dom0 keyword " +++ t +++ str1 NUL +++ (if uuid then "uuid" else "")) :: more.
Proof.
  intros L1 L2. unfold ExecuteVm.qrexec_execute_vm, DaemonState.MAX_QREXEC_CMD_LEN.
  assert (B : ((Z.of_nat (String.length cmd) + 1 <? 2) || (Z.of_nat (String.length cmd) + 1 >? 65535))%bool = false) by lia.
  rewrite B. change (starts ExecuteVm.dispvm_prefix ("@dispvm:@" +++ t)) with true. cbn [negb]. cbv iota.
  change (sdrop 8 ("@dispvm:@" +++ t)) with (String "@" t). unfold ExecuteVm.qubesd_request. change (Ascii.eqb "@" "@") with true. cbv iota.
  rewrite !app_assoc_s. cbn [String.append].
  destruct (ExecuteVm.qubesd_response _) as [b|]; [|eexists; reflexivity].
  destruct (ExecuteVm.created_name uuid b) as [name|]; [|eexists; reflexivity].
  destruct (ExecuteVm.execute_named _ _ _ _ _ _ _ _ _) as [a r]. eexists. reflexivity.
Qed.

(** ** C82: only a complete hello is accepted *)
Theorem C82_only_hello own incoming v : Handshake.handle_handshake own incoming = Some v ->
  exists version more, incoming = ExecuteVm.le32 768 +++ ExecuteVm.le32 4 +++ version +++ more /\ String.length version = 4%nat.
Proof.
  unfold Handshake.handle_handshake, Handshake.received_hello.
  destruct (String.length incoming <? 8)%nat eqn:L1; [discriminate|].
  destruct ((u32 incoming =? MSG_HELLO) && (u32 (sdrop 4 incoming) =? sizeof_peer_info)) eqn:E; [|discriminate].
  cbn [negb]. destruct (String.length incoming <? 12)%nat eqn:L2; [discriminate|]. intros _.
  apply andb_prop in E as [E1 E2]. apply Nat.ltb_ge in L2. apply Z.eqb_eq in E1, E2.
  exists (stake 4 (sdrop 8 incoming)), (sdrop 4 (sdrop 8 incoming)). split.
  - rewrite <- (take_drop 4 (sdrop 8 incoming)).
    assert (X : forall s, (4 <= String.length s)%nat -> s = ExecuteVm.le32 (u32 s) +++ sdrop 4 s).
    { intros s Hs. symmetry. apply Props_Vm.le32_u32. exact Hs. }
    pose proof (X incoming ltac:(lia)) as X1. pose proof (X (sdrop 4 incoming) ltac:(rewrite sdrop_length; lia)) as X2.
    rewrite E1 in X1. rewrite E2 in X2. rewrite sdrop_sdrop in X2. rewrite X1 at 1. rewrite X2 at 1. reflexivity.
  - apply stake_exact. rewrite sdrop_length. lia.
Qed.
